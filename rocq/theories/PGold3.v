(** * CLA.max_sharpe *)
From Coq Require Import List Reals Lra Lia ZArith.
From Verif Require Import Num Py SBL MBase MCLA SLin SCLA SGold RBase PyLemmas Sums Mat PBase PCLA1 PCLA2 PCLA3 PCLA4 PCLA5 PCLA6 PCLA7 PCLA8 PCov1 PBL1 PBL2 PCLA9 PGold PGold2.
Import ListNotations.
Local Open Scope R_scope.

Lemma combo_blend : forall a w0 w1, combo a w0 w1 = blend a w0 w1.
Proof. intros a. unfold combo, blend. induction w0 as [|x w0 IH]; intros [|y w1]; cbn; try reflexivity. f_equal. apply IH. Qed.
Lemma blend_length : forall a w0 w1, length w0 = length w1 -> length (blend a w0 w1) = length w0.
Proof. intros. rewrite <- combo_blend. apply combo_length; assumption. Qed.
Lemma inner_blend : forall a m w0 w1, length w0 = length w1 -> inner (blend a w0 w1) m = a * inner w0 m + (1 - a) * inner w1 m.
Proof.
  intros a. unfold blend. induction m as [|y m IH]; intros [|x0 w0] [|x1 w1] H; try discriminate; cbn [combine map inner fst snd]; try ring.
  rewrite IH by (cbn in H; lia). ring.
Qed.
Section Segment.
  Context (n : nat) (mean : list R) (cov : list (list R)).
  Hypothesis Hpd : pos_def n cov.
  Hypothesis Hsym : symmetric n cov.
  Let sq : square n cov := proj1 Hpd.

  Definition cross (x y : list R) : R := bil n (entry cov) (vec x) (vec y).
  Lemma qform_blend2 : forall t x y, length x = n -> length y = n ->
    qform cov (blend t x y) = t * t * qform cov x + 2 * (t * (1 - t)) * cross x y + (1 - t) * (1 - t) * qform cov y.
  Proof.
    intros t x y Hx Hy. rewrite !(qform_bil n) by (auto; rewrite blend_length; congruence).
    rewrite (bil_ext n _ _ _ (fun i => t * vec x i + (1 - t) * vec y i) (fun i => t * vec x i + (1 - t) * vec y i))
      by (intros i Hi; unfold vec; apply blend_nth; congruence).
    rewrite (bil_plus_l n _ (fun i => t * vec x i) (fun i => (1 - t) * vec y i)), (bil_scal_l n _ t), (bil_scal_l n _ (1 - t)).
    rewrite !(bil_plus_r n _ _ (fun i => t * vec x i) (fun i => (1 - t) * vec y i)), !(bil_scal_r n _ t), !(bil_scal_r n _ (1 - t)).
    rewrite (bil_sym n (entry cov) (vec y) (vec x)) by exact Hsym. unfold cross. ring.
  Qed.
  Lemma cross_cauchy : forall x y, length x = n -> length y = n -> cross x y * cross x y <= qform cov x * qform cov y.
  Proof. intros x y Hx Hy. rewrite !(qform_bil n) by auto. apply psd_cauchy; [apply pos_def_psd; exact Hpd|exact Hsym]. Qed.
  Lemma blend_pos : forall t x y, length x = n -> length y = n -> 1 / 2 <= total x -> 1 / 2 <= total y -> 0 <= t <= 1 -> 0 < qform cov (blend t x y).
  Proof.
    intros t x y Hx Hy Tx Ty Ht. apply Hpd; [rewrite blend_length; congruence|]. intros E.
    assert (Et : total (blend t x y) = 0) by (rewrite E; clear; induction n as [|k IH]; cbn in *; lra).
    rewrite <- combo_blend, total_combo in Et by congruence. nra.
  Qed.
  Lemma rising_cross : forall x y, length x = n -> length y = n -> (forall t, 0 <= t <= 1 -> qform cov y <= qform cov (blend t x y)) -> qform cov y <= cross x y.
  Proof.
    intros x y Hx Hy H. apply Rnot_lt_le. intros L. set (A := qform cov x) in *. set (B := cross x y) in *. set (C := qform cov y) in *.
    set (c := Rabs (A - 2 * B + C)). assert (Hc : A - 2 * B + C <= c) by apply Rle_abs. assert (Hc0 : 0 <= c) by apply Rabs_pos.
    set (b := C - B). assert (Hb : 0 < b) by (unfold b; lra). set (t := b / (c + b)).
    assert (Ht : 0 < t) by (apply Rmult_lt_0_compat; [lra|apply Rinv_0_lt_compat; lra]).
    assert (Ht1 : t <= 1) by (apply quot_le; lra). assert (Etc : t * (c + b) = b) by (unfold t; field; lra).
    specialize (H t ltac:(lra)). rewrite qform_blend2 in H by assumption. fold A B C in H.
    assert (E : t * t * A + 2 * (t * (1 - t)) * B + (1 - t) * (1 - t) * C - C = t * (- 2 * b + t * (A - 2 * B + C))) by (unfold b; ring).
    assert (t * (A - 2 * B + C) <= t * c) by nra. assert (t * c < b) by nra. assert (t * (- 2 * b + t * (A - 2 * B + C)) < 0) by nra. lra.
  Qed.
  Lemma peaked_ext : forall a b f g, (forall x, a <= x <= b -> f x = g x) -> peaked a b f -> peaked a b g.
  Proof. intros a b f g E H x z y H1 H2 H3 H4. rewrite <- !E by lra. apply H; assumption. Qed.
  Lemma segment_peaked : forall p q, length p = n -> length q = n -> 1 / 2 <= total p -> 1 / 2 <= total q -> rising mean cov p q ->
    peaked 0 1 (fun t => ratio mean cov (blend t p q)).
  Proof.
    intros p q Hp Hq Tp Tq Hr.
    assert (V : forall a, 0 <= a <= 1 -> 0 < a * a * qform cov p + 2 * (a * (1 - a)) * cross p q + (1 - a) * (1 - a) * qform cov q).
    { intros a Ha. rewrite <- qform_blend2 by assumption. apply blend_pos; assumption. }
    eapply peaked_ext with (f := fun a => (a * inner p mean + (1 - a) * inner q mean) / sqrt (a * a * qform cov p + 2 * (a * (1 - a)) * cross p q + (1 - a) * (1 - a) * qform cov q)).
    - intros a Ha. unfold ratio. rewrite inner_blend by congruence. rewrite qform_blend2 by assumption. reflexivity.
    - destruct Hr as [[R1 R2]|[R1 R2]].
      + apply peaked_nonneg; auto. apply cross_cauchy; assumption.
      + apply peaked_rising; auto; [apply cross_cauchy; assumption|apply rising_cross; assumption].
  Qed.
  Lemma eval_sr_ratio : forall p q t, length p = n -> length q = n -> 1 / 2 <= total p -> 1 / 2 <= total q -> 0 <= t <= 1 ->
    eval_sr mean cov p q t = Ok (ratio mean cov (blend t p q)).
  Proof.
    intros p q t Hp Hq Tp Tq Ht. unfold eval_sr. rewrite combo_blend, quad_qform, dot_inner. pose proof (blend_pos t p q Hp Hq Tp Tq Ht) as V.
    destruct (Rleb (qform cov (blend t p q)) 0) eqn:E; rprop; [lra|]. reflexivity.
  Qed.
  Definition fit (p : tp R) : Prop := length (t_w p) = n /\ 1 / 2 <= total (t_w p).
  (** what is known of an entry of the list of candidates *)
  Definition candidate (p q : tp R) (x : list R * R) : Prop :=
    exists t, 0 <= t <= 1 /\ fst x = blend t (t_w p) (t_w q) /\ snd x = ratio mean cov (fst x) /\
      best_within acc8 0 1 (fun t => ratio mean cov (blend t (t_w p) (t_w q))) t.
  Lemma segments_candidates : forall pts l, Forall fit pts -> (forall p q, consecutive p q pts -> rising mean cov (t_w p) (t_w q)) ->
    sharpe_segments mean cov pts = Ok l ->
    (forall x, In x l -> exists p q, consecutive p q pts /\ candidate p q x) /\ (forall p q, consecutive p q pts -> exists x, In x l /\ candidate p q x).
  Proof.
    induction pts as [|p pts IH]; intros l Hf Hr E.
    - cbn in E. injection E as <-. split; [intros x []|]. intros p q [l1 [l2 H]]. destruct l1; discriminate.
    - destruct pts as [|q rest].
      + cbn in E. injection E as <-. split; [intros x []|]. intros p' q [[|? [|? ?]] [l2 H]]; discriminate.
      + change (sharpe_segments mean cov (p :: q :: rest)) with
          (do r <- golden_section (eval_sr mean cov (t_w p) (t_w q)) 0 1 ;
           do l' <- sharpe_segments mean cov (q :: rest) ; Ok ((combo (fst r) (t_w p) (t_w q), snd r) :: l')) in E.
        destruct (golden_section (eval_sr mean cov (t_w p) (t_w q)) 0 1) as [[t v]|e] eqn:EG; [|discriminate]. cbn [rbind fst snd] in E.
        destruct (sharpe_segments mean cov (q :: rest)) as [l'|e] eqn:ES; [|discriminate]. cbn [rbind] in E. injection E as <-.
        pose proof (Forall_inv Hf) as [Lp Tp]. pose proof (Forall_inv_tail Hf) as Hf2. pose proof (Forall_inv Hf2) as [Lq Tq].
        assert (C0 : consecutive p q (p :: q :: rest)) by (exists [], rest; reflexivity).
        assert (Hcand : candidate p q (combo t (t_w p) (t_w q), v)).
        { pose proof (golden_section_in _ 0 1 t v ltac:(lra) EG) as [Ht _].
          destruct (golden_best (eval_sr mean cov (t_w p) (t_w q)) (fun t => ratio mean cov (blend t (t_w p) (t_w q))) t v) as [Hv Hb]; auto.
          - intros s Hs. apply eval_sr_ratio; assumption.
          - apply segment_peaked; auto.
          - exists t. cbn [fst snd]. rewrite combo_blend. auto. }
        destruct (IH l' Hf2) as [I1 I2]; [|reflexivity|].
        { intros p' q' [l1 [l2 H]]. apply Hr. exists (p :: l1), l2. rewrite H. reflexivity. }
        split.
        * intros x [<-|Hx]; [eauto|]. destruct (I1 x Hx) as [p' [q' [[l1 [l2 H]] Hc]]]. exists p', q'. split; [|exact Hc]. exists (p :: l1), l2. rewrite H. reflexivity.
        * intros p' q' [l1 [l2 H]]. destruct l1 as [|z l1]; cbn in H.
          { injection H as <- <- _. exists (combo t (t_w p) (t_w q), v). split; [left; reflexivity|exact Hcand]. }
          injection H as <- H. destruct (I2 p' q') as [x [Hx Hc]]; [exists l1, l2; exact H|]. exists x. split; [right; exact Hx|exact Hc].
  Qed.
End Segment.

(** the best candidate is returned *)
Theorem max_sharpe_best : forall n fuel inv ord (o o' : cla R) d, cla_max_sharpe fuel inv ord o = (o', Ok d) ->
  pos_def n (c_cov o') -> symmetric n (c_cov o') -> Forall (fun p => length (t_w p) = n /\ 1 / 2 <= total (t_w p)) (c_tp o') ->
  (forall p q, consecutive p q (c_tp o') -> rising (c_mean o') (c_cov o') (t_w p) (t_w q)) ->
  exists w, b_weights (c_base o') = Some w /\ d = make_output_of (c_base o') w /\
    (exists p q t, consecutive p q (c_tp o') /\ 0 <= t <= 1 /\ w = blend t (t_w p) (t_w q) /\
       best_within acc8 0 1 (fun t => ratio (c_mean o') (c_cov o') (blend t (t_w p) (t_w q))) t) /\
    forall p q, consecutive p q (c_tp o') -> exists t, 0 <= t <= 1 /\ ratio (c_mean o') (c_cov o') (blend t (t_w p) (t_w q)) <= ratio (c_mean o') (c_cov o') w /\
      best_within acc8 0 1 (fun t => ratio (c_mean o') (c_cov o') (blend t (t_w p) (t_w q))) t.
Proof.
  intros n fuel inv ord o o' d E Hpd Hsym Hf Hr. unfold cla_max_sharpe in E.
  destruct (ensure fuel inv ord o) as [o1 [u|e]] eqn:Ee; [|discriminate].
  destruct (sharpe_segments (c_mean o1) (c_cov o1) (c_tp o1)) as [l|e] eqn:El; cbn [rbind] in E; [|discriminate].
  destruct (index_max (map snd l)) as [k|e] eqn:Ek; cbn [rbind] in E; [|discriminate]. unfold item in E.
  destruct (nth_error l k) as [x|] eqn:Ex; [|discriminate]. injection E as <- Ed. cbn [set_cweights c_cov c_mean c_tp c_base b_weights] in *.
  destruct (segments_candidates n (c_mean o1) (c_cov o1) Hpd Hsym (c_tp o1) l Hf Hr El) as [K1 K2].
  destruct (index_max_spec _ _ Ek) as [v [Hv Hmax]]. rewrite nth_error_map, Ex in Hv. cbn in Hv. injection Hv as <-.
  exists (fst x). split; [reflexivity|]. split.
  { unfold make_output_weights, set_cweights in Ed. cbn [c_base b_weights] in Ed. congruence. }
  destruct (K1 x (nth_error_In _ _ Ex)) as [p [q [C1 [t [Ht [Ew [Es Hb]]]]]]]. split.
  - exists p, q, t. auto.
  - intros p' q' C2. destruct (K2 p' q' C2) as [y [Hy [t' [Ht' [Ew' [Es' Hb']]]]]]. exists t'. split; [exact Ht'|]. split; [|exact Hb'].
    rewrite <- Ew', <- Es', <- Es. apply Hmax. apply in_map. exact Hy.
Qed.
