(** * CLA.max_sharpe on a well posed problem *)
From Coq Require Import List Reals Lra Lia ZArith.
From Verif Require Import Num Py SBL MBase MCLA SLin SCLA SGold RBase PyLemmas Sums Mat PBase PCLA1 PCLA2 PCLA3 PCLA4 PCLA5 PCLA6 PCLA7 PCLA8 PCov1 PBL1 PBL2 PCLA9 PGold PGold2 PGold3.
Import ListNotations.
Local Open Scope R_scope.

Lemma feasible_zero : forall lb ub w, feasible lb ub w <-> nearly_feasible 0 lb ub w.
Proof.
  intros lb ub w. unfold feasible, nearly_feasible. split; intros [H1 [H2 H3]].
  - split; [rewrite H1; replace (1 - 1) with 0 by ring; rewrite Rabs_R0; lra|]. split; [clear H1 H3; induction H2; constructor; auto; lra|clear H1 H2; induction H3; constructor; auto; lra].
  - split; [apply Rabs_unpack in H1; lra|]. split; [clear H1 H3; induction H2; constructor; auto; lra|clear H1 H2; induction H3; constructor; auto; lra].
Qed.
Lemma blend_feasible : forall lb ub t p q, 0 <= t <= 1 -> feasible lb ub p -> feasible lb ub q -> feasible lb ub (blend t p q).
Proof. intros lb ub t p q Ht Hp Hq. rewrite feasible_zero in *. rewrite <- combo_blend. apply combo_feasible; assumption. Qed.
Lemma feasible_length : forall lb ub w, feasible lb ub w -> length w = length lb.
Proof. intros lb ub w [_ [H _]]. apply Forall2_length in H. auto. Qed.
Lemma blend_one : forall p q, length p = length q -> blend 1 p q = p.
Proof. induction p as [|x p IH]; intros [|y q] H; try discriminate; unfold blend in *; cbn; [reflexivity|]. rewrite IH by (cbn in H; lia). f_equal. ring. Qed.
Lemma blend_zero : forall p q, length p = length q -> blend 0 p q = q.
Proof. induction p as [|x p IH]; intros [|y q] H; try discriminate; unfold blend in *; cbn; [reflexivity|]. rewrite IH by (cbn in H; lia). f_equal. ring. Qed.
Lemma blend_near : forall lb ub p q t t', feasible lb ub p -> feasible lb ub q -> length ub = length lb -> Rabs (t - t') <= acc8 ->
  nearly_same lb ub (blend t p q) (blend t' p q).
Proof.
  intros lb ub p q t t' Hp Hq Hl Ht. pose proof (feasible_length _ _ _ Hp) as Lp. pose proof (feasible_length _ _ _ Hq) as Lq.
  split; [rewrite !blend_length by congruence; reflexivity|]. intros i. rewrite !blend_nth by congruence.
  replace (t * nth i p 0 + (1 - t) * nth i q 0 - (t' * nth i p 0 + (1 - t') * nth i q 0)) with ((t - t') * (nth i p 0 - nth i q 0)) by ring.
  rewrite Rabs_mult. apply Rmult_le_compat; try apply Rabs_pos; [exact Ht|].
  destruct (lt_dec i (length lb)) as [Hi|Hi].
  - destruct Hp as [_ [P1 P2]], Hq as [_ [Q1 Q2]]. rewrite Forall2_nth in P1, P2, Q1, Q2.
    destruct P1 as [_ P1], P2 as [_ P2], Q1 as [_ Q1], Q2 as [_ Q2].
    specialize (P1 i ltac:(lia)). specialize (P2 i ltac:(lia)). specialize (Q1 i ltac:(lia)). specialize (Q2 i ltac:(lia)).
    apply Rabs_between; lra.
  - rewrite !nth_overflow by lia. replace (0 - 0) with 0 by ring. rewrite Rabs_R0. lra.
Qed.

(** the first kept point has the largest return, the others come with a value of lambda, the last has the least variance *)
Lemma kept_shape : forall fuel inv ord (o o' : cla R), sound_inverse inv -> set_order ord -> well_posed o ->
  untied (c_mean o) (c_cov o) (c_lb o) (c_ub o) -> solve fuel inv ord o = (o', Ok tt) ->
  exists p0 l, c_tp o' = p0 :: l /\ l <> [] /\ t_l p0 = None /\ max_return (c_mean o) (c_lb o) (c_ub o) (t_w p0) /\ (forall q, In q l -> exists lam, t_l q = Some lam).
Proof.
  intros fuel inv ord o o' Hinv Hord [_ [Hi [Hb [H1 [H2 [Hpd Hsym]]]]]] Hu E.
  assert (Hlen : length (c_ub o) = length (c_lb o)) by (destruct Hb as [-> [-> _]]; reflexivity).
  destruct (solve_ok _ _ _ _ _ Hlen E) as [f [w [pts [p0 [rest [Ei [El [_ [Hpur [Hne [Htp _]]]]]]]]]]].
  destruct (start_inv o Hi Hb H1 H2 Hpd) as [a [w0 [Ei' [Hw [Hm HI]]]]]. rewrite Ei in Ei'. injection Ei' as -> ->.
  unfold raw_points in El. rewrite Hi in El.
  destruct (loop_path (c_mean o) (c_cov o) (c_lb o) (c_ub o) Hpd Hsym Hb inv ord Hinv Hord Hu fuel [a] w0 None _ _ _ HI Hw El) as [more [-> [Hg _]]].
  rewrite purge_num_err_filter in Hpur. match type of Hpur with context [[?x] ++ more] => change ([x] ++ more) with (x :: more) in Hpur end. cbn [filter t_w] in Hpur. rewrite (feasible_not_dropped _ _ w0 Hlen (proj1 Hm)) in Hpur. cbn [negb] in Hpur.
  injection Hpur as <- Hrest. exists (mkTP w0 None None [a]), (keep (c_mean o) rest). split; [exact Htp|]. split.
  - destruct (keep_last (c_mean o) rest (mkTP w0 None None [a]) Hne) as [_ K]. exact K.
  - split; [reflexivity|]. split; [exact Hm|]. intros q Hq. apply incl_keep in Hq. rewrite <- Hrest in Hq. apply filter_In in Hq. destruct Hq as [Hq _].
    rewrite Forall_forall in Hg. destruct (Hg q Hq) as [_ [l [-> _]]]. eauto.
Qed.
Lemma kept_feasible : forall fuel inv ord (o o' : cla R), sound_inverse inv -> set_order ord -> well_posed o ->
  untied (c_mean o) (c_cov o) (c_lb o) (c_ub o) -> solve fuel inv ord o = (o', Ok tt) ->
  forall p, In p (c_tp o') -> total (t_w p) = 1 -> feasible (c_lb o) (c_ub o) (t_w p).
Proof.
  intros fuel inv ord o o' Hinv Hord Hwp Hu E p Hp Ht. pose proof (kept_optimal fuel inv ord o o' Hinv Hord Hwp Hu E p Hp Ht) as K.
  destruct (t_l p); [apply K|apply K].
Qed.
Lemma consecutive_in : forall (p q : tp R) l, consecutive p q l -> In p l /\ In q l.
Proof. intros p q l [l1 [l2 ->]]. split; apply in_or_app; right; cbn; auto. Qed.
Lemma consecutive_tl : forall (p q a : tp R) l, consecutive p q (a :: l) -> In q l /\ (p = a \/ exists i, nth_error l i = Some p /\ nth_error l (S i) = Some q).
Proof.
  intros p q a l [[|x l1] [l2 H]]; cbn in H.
  - injection H as <- ->. split; [left; reflexivity|]. left. reflexivity.
  - injection H as <- ->. split; [apply in_or_app; right; cbn; auto|]. right. exists (length l1). rewrite !nth_error_app2 by lia.
    rewrite Nat.sub_diag. replace (S (length l1) - length l1)%nat with 1%nat by lia. auto.
Qed.
(** along the kept points returns fall, and no portfolio between two of them has a smaller variance than the second *)
Theorem kept_rising : forall fuel inv ord (o o' : cla R), sound_inverse inv -> set_order ord -> well_posed o ->
  untied (c_mean o) (c_cov o) (c_lb o) (c_ub o) -> solve fuel inv ord o = (o', Ok tt) -> Forall (fun p => total (t_w p) = 1) (c_tp o') ->
  forall p q, consecutive p q (c_tp o') -> inner (t_w q) (c_mean o) <= inner (t_w p) (c_mean o) /\ rising (c_mean o) (c_cov o) (t_w p) (t_w q).
Proof.
  intros fuel inv ord o o' Hinv Hord Hwp Hu E Hsum p q Hc. rewrite Forall_forall in Hsum.
  assert (Hlen : length (c_ub o) = length (c_lb o)) by (destruct Hwp as [_ [_ [[-> [-> _]] _]]]; reflexivity).
  pose proof (solve_descending _ _ _ _ _ Hlen E) as Hd. destruct (consecutive_in _ _ _ Hc) as [Ip Iq].
  pose proof (kept_feasible fuel inv ord o o' Hinv Hord Hwp Hu E p Ip (Hsum p Ip)) as Fp.
  pose proof (kept_optimal fuel inv ord o o' Hinv Hord Hwp Hu E q Iq (Hsum q Iq)) as Kq.
  destruct (kept_shape fuel inv ord o o' Hinv Hord Hwp Hu E) as [p0 [l [Htp [_ [_ [Hm Hl]]]]]]. rewrite Htp in Hc, Hd. cbn [tl] in Hd.
  destruct (consecutive_tl _ _ _ _ Hc) as [Jq Hpq]. destruct (Hl q Jq) as [lam El]. rewrite El in Kq. destruct Kq as [Hlam [[Fq Oq] _]].
  assert (Hr : inner (t_w q) (c_mean o) <= inner (t_w p) (c_mean o)).
  { destruct Hpq as [->|[i [N1 N2]]]; [apply Hm; exact Fq|]. apply (Hd i (S i)); auto. }
  split; [exact Hr|]. right. split; [exact Hr|]. intros t Ht. pose proof (Oq _ (blend_feasible _ _ t _ _ Ht Fp Fq)) as O.
  rewrite inner_blend in O by (rewrite (feasible_length _ _ _ Fp), (feasible_length _ _ _ Fq); reflexivity).
  assert (0 <= lam * (t * (inner (t_w p) (c_mean o) - inner (t_w q) (c_mean o)))) by (apply Rmult_le_pos; [exact Hlam|apply Rmult_le_pos; lra]). nra.
Qed.

Lemma sharpe_run : forall fuel inv ord (o o' : cla R) d, c_tp o = [] -> cla_max_sharpe fuel inv ord o = (o', Ok d) ->
  exists o1, solve fuel inv ord o = (o1, Ok tt) /\ c_tp o' = c_tp o1 /\ c_mean o' = c_mean o /\ c_cov o' = c_cov o /\ b_tickers (c_base o') = b_tickers (c_base o).
Proof.
  intros fuel inv ord o o' d Ht E. unfold cla_max_sharpe in E.
  destruct (ensure fuel inv ord o) as [o1 [u|e]] eqn:Ee; [|discriminate]. destruct u. unfold ensure in Ee. rewrite Ht in Ee.
  destruct (rbind _ _) as [x|e]; [|discriminate]. injection E as <- _.
  pose proof (solve_same fuel inv ord o) as Hs. rewrite Ee in Hs. cbn [fst] in Hs. destruct Hs as [S1 [S2 [S3 _]]].
  exists o1. cbn. rewrite S1. auto.
Qed.

(** the search is accurate on every segment between kept turning points *)
Theorem max_sharpe_segments : forall fuel inv ord (o o' : cla R) d, sound_inverse inv -> set_order ord -> well_posed o -> well_labelled o ->
  untied (c_mean o) (c_cov o) (c_lb o) (c_ub o) -> cla_max_sharpe fuel inv ord o = (o', Ok d) -> Forall (fun p => total (t_w p) = 1) (c_tp o') ->
  feasible (c_lb o) (c_ub o) (dvalues d) /\
  forall p q, consecutive p q (c_tp o') -> exists t, 0 <= t <= 1 /\ ratio (c_mean o) (c_cov o) (blend t (t_w p) (t_w q)) <= ratio (c_mean o) (c_cov o) (dvalues d) /\
    best_within acc8 0 1 (fun t => ratio (c_mean o) (c_cov o) (blend t (t_w p) (t_w q))) t.
Proof.
  intros fuel inv ord o o' d Hinv Hord Hwp Hlab Hu E Hsum. pose proof Hwp as [Ht [_ [Hb [_ [_ [Hpd Hsym]]]]]].
  destruct (sharpe_run _ _ _ _ _ _ Ht E) as [o1 [Es [Etp [Em [Ec Eb]]]]].
  assert (Hfe : forall p, In p (c_tp o') -> feasible (c_lb o) (c_ub o) (t_w p)).
  { intros p Hp. rewrite Forall_forall in Hsum. rewrite Etp in Hp. apply (kept_feasible fuel inv ord o o1 Hinv Hord Hwp Hu Es p Hp), Hsum. rewrite Etp. exact Hp. }
  destruct (max_sharpe_best (c_n o) fuel inv ord o o' d E) as [w [_ [Hd [[p [q [t [Hc [H01 [Ew _]]]]]] Hall]]]].
  - rewrite Ec. exact Hpd.
  - rewrite Ec. exact Hsym.
  - apply Forall_forall. intros p Hp. split; [rewrite (feasible_length _ _ _ (Hfe p Hp)); apply Hb|]. destruct (Hfe p Hp) as [-> _]. lra.
  - intros p q Hc. rewrite Em, Ec. rewrite Etp in Hc. rewrite Etp in Hsum. apply (kept_rising fuel inv ord o o1 Hinv Hord Hwp Hu Es Hsum p q Hc).
  - assert (Fw : feasible (c_lb o) (c_ub o) w).
    { destruct (consecutive_in _ _ _ Hc) as [Ip Iq]. rewrite Ew. apply blend_feasible; auto. }
    assert (Ed : dvalues d = w).
    { rewrite Hd. destruct Hlab as [Hn Hl]. apply output_values; [rewrite Eb; exact Hn|]. rewrite Eb, Hl. symmetry. apply (feasible_length _ _ _ Fw). }
    rewrite Ed. split; [exact Fw|]. rewrite Em, Ec in Hall. exact Hall.
Qed.

Lemma ratio_mono : forall mean cov v w, 0 <= inner v mean -> inner v mean <= inner w mean -> 0 < qform cov w -> qform cov w <= qform cov v ->
  ratio mean cov v <= ratio mean cov w.
Proof.
  intros mean cov v w H1 H2 H3 H4. unfold ratio. assert (0 < sqrt (qform cov w)) by (apply sqrt_lt_R0, H3).
  assert (S : sqrt (qform cov w) <= sqrt (qform cov v)) by (apply sqrt_le_1_alt, H4).
  apply Rle_trans with (inner v mean / sqrt (qform cov w)).
  - apply Rmult_le_compat_l; [exact H1|]. apply Rinv_le_contravar; assumption.
  - apply Rmult_le_compat_r; [left; apply Rinv_0_lt_compat; assumption|exact H2].
Qed.
Lemma crossing : forall (f : tp R -> R) x l p0, x <= f p0 -> (exists p q, consecutive p q (p0 :: l) /\ f q < x /\ x <= f p) \/ x <= f (last l p0).
Proof.
  intros f x. induction l as [|p1 l IH]; intros p0 H; [right; exact H|].
  destruct (Rlt_le_dec (f p1) x) as [L|L].
  - left. exists p0, p1. split; [exists [], l; reflexivity|auto].
  - destruct (IH p1 L) as [[p [q [[l1 [l2 E]] K]]]|K].
    + left. exists p, q. split; [exists (p0 :: l1), l2; rewrite E; reflexivity|exact K].
    + right. replace (last (p1 :: l) p0) with (last l p1); [exact K|]. clear. revert p0 p1. induction l as [|z l IH]; intros; [reflexivity|].
      cbn [last] in *. destruct l; [reflexivity|apply (IH p0 p1)].
Qed.
Lemma last_consecutive : forall (l : list (tp R)) p0 d, l <> [] -> exists p, consecutive p (last l d) (p0 :: l).
Proof.
  induction l as [|q l IH]; intros p0 d H; [congruence|]. destruct l as [|q2 l].
  - exists p0. exists [], []. reflexivity.
  - destruct (IH q d) as [p [l1 [l2 E]]]; [discriminate|]. exists p. exists (p0 :: l1), l2. change (last (q :: q2 :: l) d) with (last (q2 :: l) d). rewrite E. reflexivity.
Qed.
Lemma last_in : forall {X} (l : list X) d, l <> [] -> In (last l d) l.
Proof. intros X l d H. rewrite (app_removelast_last d H) at 2. apply in_or_app. right. left. reflexivity. Qed.

(** every portfolio is matched by one on a segment between kept points, if no point between them was discarded *)
Theorem frontier_covers : forall fuel inv ord (o o' : cla R), sound_inverse inv -> set_order ord -> well_posed o ->
  untied (c_mean o) (c_cov o) (c_lb o) (c_ub o) -> untied_end (c_mean o) (c_cov o) (c_lb o) (c_ub o) ->
  solve fuel inv ord o = (o', Ok tt) -> Forall (fun p => total (t_w p) = 1) (c_tp o') -> unbroken (c_tp o') ->
  (exists u, feasible (c_lb o) (c_ub o) u /\ 0 <= inner u (c_mean o)) ->
  forall v, feasible (c_lb o) (c_ub o) v -> exists p q t, consecutive p q (c_tp o') /\ 0 <= t <= 1 /\
    ratio (c_mean o) (c_cov o) v <= ratio (c_mean o) (c_cov o) (blend t (t_w p) (t_w q)).
Proof.
  intros fuel inv ord o o' Hinv Hord Hwp Hu He Es Hsum Hun [u [Fu Ru]] v Fv. pose proof Hwp as [_ [_ [Hb [_ [_ [Hpd Hsym]]]]]].
  destruct (kept_shape fuel inv ord o o' Hinv Hord Hwp Hu Es) as [p0 [l [Htp [Hne [_ [Hm Hl]]]]]].
  rewrite Forall_forall in Hsum.
  assert (Hfe : forall p, In p (c_tp o') -> feasible (c_lb o) (c_ub o) (t_w p)).
  { intros p Hp. apply (kept_feasible fuel inv ord o o' Hinv Hord Hwp Hu Es p Hp), Hsum, Hp. }
  assert (Hpos : forall w, feasible (c_lb o) (c_ub o) w -> 0 < qform (c_cov o) w).
  { intros w Fw. rewrite <- (blend_one w w eq_refl). destruct Fw as [T W]. pose proof (feasible_length _ _ _ (conj T W)) as L.
    apply (blend_pos (c_n o) (c_cov o) Hpd); try lra; rewrite L; apply Hb. }
  assert (Hlenp : forall p q, In p (c_tp o') -> In q (c_tp o') -> length (t_w p) = length (t_w q)).
  { intros p q Hp Hq. rewrite (feasible_length _ _ _ (Hfe p Hp)), (feasible_length _ _ _ (Hfe q Hq)). reflexivity. }
  destruct (Rlt_le_dec (inner v (c_mean o)) 0) as [Hneg|Hnn].
  - (* a portfolio with a negative return is worse than the one with the largest return *)
    destruct l as [|q l]; [congruence|]. exists p0, q, 1. assert (Hc : consecutive p0 q (c_tp o')) by (rewrite Htp; exists [], l; reflexivity).
    split; [exact Hc|]. split; [lra|]. destruct (consecutive_in _ _ _ Hc) as [I0 Iq]. rewrite blend_one by auto.
    apply Rle_trans with 0.
    + unfold ratio. pose proof (sqrt_lt_R0 _ (Hpos v Fv)). apply quot_le; lra.
    + unfold ratio. pose proof (sqrt_lt_R0 _ (Hpos _ (Hfe p0 I0))). apply quot_ge; [assumption|]. destruct Hm as [_ Hm]. specialize (Hm u Fu). lra.
  - destruct (crossing (fun p => inner (t_w p) (c_mean o)) (inner v (c_mean o)) l p0) as [[p [q [Hc [Hq Hp]]]]|Hlast]; [apply Hm, Fv| |].
    + rewrite <- Htp in Hc. destruct (consecutive_in _ _ _ Hc) as [Ip Iq]. specialize (Hun p q Hc).
      destruct (t_l p) as [l1|] eqn:El1; [|rewrite Hun in Hq; lra]. destruct Hun as [Hi Ha].
      pose proof Hc as Hc'. rewrite Htp in Hc'. destruct (consecutive_tl _ _ _ _ Hc') as [Jq _]. destruct (Hl q Jq) as [l2 El2].
      set (rp := inner (t_w p) (c_mean o)) in *. set (rq := inner (t_w q) (c_mean o)) in *. set (x := inner v (c_mean o)) in *.
      set (t := (x - rq) / (rp - rq)). assert (Ht : 0 <= t <= 1) by (split; [apply quot_ge|apply quot_le]; lra).
      exists p, q, t. split; [exact Hc|]. split; [exact Ht|].
      pose proof (kept_segment fuel inv ord o o' Hinv Hord Hwp Hu Es p q l1 l2 t Ip Iq El1 El2 (Hsum p Ip) (Hsum q Iq) Hi Ha Ht) as [Fw Ow].
      assert (Er : inner (blend t (t_w p) (t_w q)) (c_mean o) = x).
      { rewrite inner_blend by auto. fold rp rq. unfold t. field. lra. }
      specialize (Ow v Fv). rewrite Er in Ow. fold x in Ow. apply ratio_mono; [exact Hnn|rewrite Er; apply Rle_refl|apply Hpos, Fw|lra].
    + destruct (last_consecutive l p0 p0 Hne) as [p Hc]. rewrite <- Htp in Hc. exists p, (last l p0), 0. split; [exact Hc|]. split; [lra|].
      destruct (consecutive_in _ _ _ Hc) as [Ip Iq]. rewrite blend_zero by auto.
      apply ratio_mono; auto.
      assert (Hlv : least_variance (c_cov o) (c_lb o) (c_ub o) (t_w (last l p0))); [|apply Hlv, Fv].
      clear - Hinv Hord Hwp Hu He Es Htp Hne.
      (* the last kept point is the end of the path *)
      assert (Hlen : length (c_ub o) = length (c_lb o)) by (destruct Hwp as [_ [_ [[-> [-> _]] _]]]; reflexivity).
      destruct (solve_ok _ _ _ _ _ Hlen Es) as [f [w [pts [p1 [rest [Ei [El [_ [Hpur [_ [Htp' _]]]]]]]]]]].
      destruct (loop_result fuel inv ord o f w pts Hinv Hord Hwp Hu He Ei El) as [p2 [pre [q [-> [Hp [Hpl [Hq1 Hq2]]]]]]].
      rewrite purge_num_err_filter in Hpur. cbn [filter] in Hpur.
      rewrite (feasible_not_dropped _ _ _ Hlen Hp) in Hpur. cbn [negb] in Hpur. injection Hpur as <- Hrest.
      rewrite filter_app in Hrest. cbn [filter] in Hrest. rewrite (feasible_not_dropped _ _ _ Hlen (proj1 Hq2)) in Hrest. cbn [negb] in Hrest.
      rewrite Htp in Htp'. injection Htp' as _ ->. rewrite <- Hrest.
      match goal with |- context [keep _ ?z] => destruct (keep_last (c_mean o) z p0) as [K _]; [destruct (filter _ pre); discriminate|rewrite K, last_last; exact Hq2] end.
Qed.

(** so no portfolio is better than one that differs from a portfolio as good as the result by a hair *)
Theorem max_sharpe_all : forall fuel inv ord (o o' : cla R) d, sound_inverse inv -> set_order ord -> well_posed o -> well_labelled o ->
  untied (c_mean o) (c_cov o) (c_lb o) (c_ub o) -> untied_end (c_mean o) (c_cov o) (c_lb o) (c_ub o) ->
  cla_max_sharpe fuel inv ord o = (o', Ok d) -> Forall (fun p => total (t_w p) = 1) (c_tp o') -> unbroken (c_tp o') ->
  (exists u, feasible (c_lb o) (c_ub o) u /\ 0 <= inner u (c_mean o)) ->
  feasible (c_lb o) (c_ub o) (dvalues d) /\
  forall v, feasible (c_lb o) (c_ub o) v -> exists u u', feasible (c_lb o) (c_ub o) u /\ feasible (c_lb o) (c_ub o) u' /\
    ratio (c_mean o) (c_cov o) v <= ratio (c_mean o) (c_cov o) u /\ nearly_same (c_lb o) (c_ub o) u u' /\
    ratio (c_mean o) (c_cov o) u' <= ratio (c_mean o) (c_cov o) (dvalues d).
Proof.
  intros fuel inv ord o o' d Hinv Hord Hwp Hlab Hu He E Hsum Hun Hex.
  destruct (max_sharpe_segments fuel inv ord o o' d Hinv Hord Hwp Hlab Hu E Hsum) as [Fd Hseg]. split; [exact Fd|]. intros v Fv.
  pose proof Hwp as [Ht [_ [Hb _]]]. destruct (sharpe_run _ _ _ _ _ _ Ht E) as [o1 [Es [Etp _]]].
  assert (Hlen : length (c_ub o) = length (c_lb o)) by (destruct Hb as [-> [-> _]]; reflexivity).
  rewrite Etp in *. destruct (frontier_covers fuel inv ord o o1 Hinv Hord Hwp Hu He Es Hsum Hun Hex v Fv) as [p [q [t [Hc [H01 Hv]]]]].
  destruct (Hseg p q Hc) as [x [Hx [Hle [lo [up [B1 [B2 [B3 [B4 [B5 B6]]]]]]]]]].
  destruct (consecutive_in _ _ _ Hc) as [Ip Iq]. rewrite Forall_forall in Hsum.
  pose proof (kept_feasible fuel inv ord o o1 Hinv Hord Hwp Hu Es p Ip (Hsum p Ip)) as Fp.
  pose proof (kept_feasible fuel inv ord o o1 Hinv Hord Hwp Hu Es q Iq (Hsum q Iq)) as Fq.
  assert (Dec : (t < lo \/ up < t) \/ lo <= t <= up) by lra. destruct Dec as [Out|In_].
  - exists (blend t (t_w p) (t_w q)), (blend t (t_w p) (t_w q)). split; [apply blend_feasible; assumption|]. split; [apply blend_feasible; assumption|].
    split; [exact Hv|]. split; [|specialize (B6 t H01 Out); lra].
    apply blend_near; auto. replace (t - t) with 0 by ring. rewrite Rabs_R0. unfold acc8. lra.
  - exists (blend t (t_w p) (t_w q)), (blend x (t_w p) (t_w q)). split; [apply blend_feasible; assumption|]. split; [apply blend_feasible; assumption|].
    split; [exact Hv|]. split; [|exact Hle]. apply blend_near; auto. apply Rabs_between; lra.
Qed.
