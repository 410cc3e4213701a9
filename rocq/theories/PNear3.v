(** * Solvers of limited accuracy: the Sharpe ratio, and the weights handed out *)
From Coq Require Import ZArith List String Bool Reals Lra Lia.
From Verif Require Import Num Py RBase PyLemmas MBase MConvex MEF SLin SBase SConvex SNear Sums Mat PBase PConvex PEF PEF2 PEF4 PDown5 PNear1.
Import ListNotations.
Local Open Scope R_scope.

Lemma Rabs_between : forall x e, Rabs x <= e -> - e <= x <= e.
Proof.
  intros x e H. split; [|eapply Rle_trans; [apply RRle_abs|exact H]].
  pose proof (RRle_abs (- x)) as H1. rewrite Rabs_Ropp in H1. lra.
Qed.

(** ** The weights handed out *)
Lemma half_unit_pos : 0 < half_unit 16.
Proof. unfold half_unit. apply Rmult_lt_0_compat; [lra|]. apply Rinv_0_lt_compat. apply IZR_lt. reflexivity. Qed.
Lemma rounded_close : forall x r, Forall2 (rounded 16) x r -> Forall2 (fun a b => Rabs (a - b) <= half_unit 16) x r.
Proof. intros x r F. induction F; constructor; [apply rounded_half; assumption|assumption]. Qed.
Lemma total_close : forall e x r, Forall2 (fun a b => Rabs (a - b) <= e) x r ->
  Rabs (total x - total r) <= INR (List.length r) * e.
Proof.
  intros e x r F. induction F as [|a b x r H F IH]; [cbn; rewrite Rminus_0_r, Rabs_R0; lra|].
  cbn [total List.length]. rewrite S_INR. replace (a + total x - (b + total r)) with ((a - b) + (total x - total r)) by ring.
  eapply Rle_trans; [apply Rabs_triang|]. lra.
Qed.
Lemma nearly_within_close : forall t e lb ub x r, nearly_within t lb ub x ->
  Forall2 (fun a b => Rabs (a - b) <= e) x r -> nearly_within (t + e) lb ub r.
Proof.
  intros t e lb ub x r [H1 H2] F. split.
  - revert lb H1. clear H2. induction F as [|a b x r H F IH]; intros lb H1; inversion H1 as [|bd ? lb' ? Hb Hr]; subst; constructor.
    + apply Rabs_between in H. destruct bd; cbn [above] in *; [lra|exact I].
    + apply IH. assumption.
  - revert ub H2. clear H1. induction F as [|a b x r H F IH]; intros ub H2; inversion H2 as [|bd ? ub' ? Hb Hr]; subst; constructor.
    + apply Rabs_between in H. destruct bd; cbn [below] in *; [lra|exact I].
    + apply IH. assumption.
Qed.
Lemma near_at_returned : forall t g w o u lb ub sum near ok low cost ws d s,
  nth_error (w_sizes w) (e_w o) = Some (e_n o) ->
  near_at t g w o u lb ub sum near ok low cost ws d s ->
  exists r, ws = Some r /\ List.length r = e_n o /\ nearly_within (t + half_unit 16) lb ub r /\
    Rabs (total r - sum) <= t + INR (e_n o) * half_unit 16.
Proof.
  intros t g w o u lb ub sum near ok low cost ws d s Hn [r [E1 [F [_ [[Hs [Hw [Ht _]]] _]]]]].
  exists r. split; [exact E1|]. apply rounded_close in F.
  assert (L : List.length r = e_n o).
  { rewrite <- (well_sized_w w o s Hs Hn). clear - F. induction F; cbn; congruence. }
  split; [exact L|]. split; [eapply nearly_within_close; eassumption|].
  pose proof (total_close _ _ _ F) as H. rewrite L in H. apply Rabs_between in H. apply Rabs_between in Ht.
  apply Rabs_le. lra.
Qed.

(** ** The Sharpe ratio *)
Lemma meets_agree : forall t s s' ps c, (forall v, In v (cvars c) -> s v = s' v) -> (meets t s ps c <-> meets t s' ps c).
Proof.
  intros t s s' ps c H. destruct c; cbn [meets cvars] in *.
  - rewrite (eval_agree s s' ps a), (eval_agree s s' ps b) by (intros; apply H; apply in_or_app; auto). reflexivity.
  - rewrite (eval_agree s s' ps a), (eval_agree s s' ps b) by (intros; apply H; apply in_or_app; auto). reflexivity.
  - rewrite (eval_agree s s' ps a) by exact H. reflexivity.
Qed.
Lemma Forall_vscale_le_near : forall e k l, 0 < k -> (Forall (fun d => d <= e) (vscale k l) <-> Forall (fun d => d <= e / k) l).
Proof.
  intros e k l Hk. unfold vscale. rewrite Forall_map. split; intros H; eapply Forall_impl; try exact H; cbv beta; intros a Ha.
  - apply (Rmult_le_reg_l k); [exact Hk|]. replace (k * (e / k)) with e by (field; lra). exact Ha.
  - apply (Rmult_le_compat_l k) in Ha; [|lra]. replace (k * (e / k)) with e in Ha by (field; lra). exact Ha.
Qed.
Lemma Forall_vscale_eq_near : forall e k l, 0 < k -> (Forall (fun d => Rabs d <= e) (vscale k l) <-> Forall (fun d => Rabs d <= e / k) l).
Proof.
  intros e k l Hk. unfold vscale. rewrite Forall_map. split; intros H; eapply Forall_impl; try exact H; cbv beta; intros a Ha;
    rewrite ?Rabs_mult, ?(Rabs_right k) in * by lra.
  - apply (Rmult_le_reg_l k); [exact Hk|]. replace (k * (e / k)) with e by (field; lra). exact Ha.
  - apply (Rmult_le_compat_l k) in Ha; [|lra]. replace (k * (e / k)) with e in Ha by (field; lra). exact Ha.
Qed.
Lemma transform_meets : forall e k v c c' s ps t, constant_on_one_side v c -> transform_con k c = Ok c' ->
  0 < t -> s k = [t] -> k <> v -> ~ In k (cvars c) ->
  (meets e (scaled v t s) ps c' <-> meets (e / t) s ps c).
Proof.
  intros e k v c c' s ps t Hc Ht Hpos Hk Hkv Hin.
  assert (Hsk : scaled v t s k = [t]).
  { unfold scaled. assert (E : Nat.eqb k v = false) by (apply Nat.eqb_neq; exact Hkv). rewrite E. exact Hk. }
  destruct c as [a b|a b|P a]; cbn [constant_on_one_side] in Hc; [| |contradiction].
  - assert (Hcase : (exists c0, a = EConst c0 /\ homogeneous v b /\ c' = CIneq (EMul (EConst c0) (EVar k)) b) \/
                    (exists c0, b = EConst c0 /\ homogeneous v a /\ c' = CIneq a (EMul (EConst c0) (EVar k)))).
    { destruct a; try (destruct b; try contradiction; right; eexists; split; [reflexivity|]; split; [exact Hc|];
        cbn [transform_con] in Ht; inversion Ht; reflexivity).
      left. eexists. split; [reflexivity|]. split; [exact Hc|]. cbn [transform_con] in Ht. inversion Ht; reflexivity. }
    destruct Hcase as [[c0 [-> [Hh ->]]]|[c0 [-> [Hh ->]]]]; cbn [meets eval]; rewrite Hsk, bop_mult_const, (Hh t s ps Hpos).
    + fold (vscale t (eval s ps b)). rewrite bop_minus_scale. apply Forall_vscale_le_near. exact Hpos.
    + fold (vscale t (eval s ps a)). rewrite bop_minus_scale. apply Forall_vscale_le_near. exact Hpos.
  - destruct b as [| |c0| | | | | | | | | | |]; try contradiction. cbn [transform_con] in Ht. inversion Ht; subst c'.
    cbn [meets eval]. rewrite Hsk, bop_mult_const, (Hc t s ps Hpos). fold (vscale t (eval s ps a)).
    rewrite bop_minus_scale. apply Forall_vscale_eq_near. exact Hpos.
Qed.

Definition sharpe_cons (o : ef) (m : list R) (r : R) (k : nat) (X : list (nat * con)) (l1 l2 l3 l4 l5 : nat) : list (nat * con) :=
  (l1, CEq (EDot (map (fun x => x - r) m) (EVar (e_w o))) (EScalar 1)) ::
  (l2, CEq (ESum (EVar (e_w o))) (EVar k)) :: (l3, CIneq (EScalar 0) (EVar k)) ::
  (l4, CIneq (EMul (EConst (finite_vals (e_lb o))) (EVar k)) (EIndex (finite_ix (e_lb o)) (EVar (e_w o)))) ::
  (l5, CIneq (EIndex (finite_ix (e_ub o)) (EVar (e_w o))) (EMul (EConst (finite_vals (e_ub o))) (EVar k))) :: X.

(** the raw solution: bounds times [k] hold up to the tolerance, whatever the sign of [k] *)
Lemma lower_raw : forall e t lb x, List.length lb = List.length x ->
  Forall2 (fun a b => a - b <= e) (vscale t (finite_vals lb)) (map (fun i => nth i x 0) (finite_ix lb)) ->
  Forall2 (fun b a => match b with Some l => l * t <= a + e | None => True end) lb x.
Proof.
  intros e t. induction lb as [|b lb IH]; destruct x as [|y x]; intros H F; try discriminate; [constructor|].
  injection H as H. rewrite finite_ix_cons, finite_vals_cons, map_app, map_map in F. cbn [nth] in F.
  unfold vscale in *. rewrite map_app in F. destruct b as [l|]; cbn [map app nth] in F.
  - inversion F; subst. constructor; [lra|]. apply IH; auto.
  - constructor; [exact I|]. apply IH; auto.
Qed.
Lemma upper_raw : forall e t ub x, List.length ub = List.length x ->
  Forall2 (fun a b => a - b <= e) (map (fun i => nth i x 0) (finite_ix ub)) (vscale t (finite_vals ub)) ->
  Forall2 (fun b a => match b with Some l => a <= l * t + e | None => True end) ub x.
Proof.
  intros e t. induction ub as [|b ub IH]; destruct x as [|y x]; intros H F; try discriminate; [constructor|].
  injection H as H. rewrite finite_ix_cons, finite_vals_cons, map_app, map_map in F. cbn [nth] in F.
  unfold vscale in *. rewrite map_app in F. destruct b as [l|]; cbn [map app nth] in F.
  - inversion F; subst. constructor; [lra|]. apply IH; auto.
  - constructor; [exact I|]. apply IH; auto.
Qed.
Lemma raw_bound : forall c e t lb ub x, bounded_by c lb ub -> List.length lb = List.length x ->
  Forall2 (fun b a => match b with Some l => l * t <= a + e | None => True end) lb x ->
  Forall2 (fun b a => match b with Some l => a <= l * t + e | None => True end) ub x ->
  Forall (fun a => Rabs a <= c * Rabs t + e) x.
Proof.
  intros c e t lb ub x [B1 B2] L F1 F2. revert lb ub L B1 B2 F1 F2. induction x as [|a x IH]; intros lb ub L B1 B2 F1 F2; [constructor|].
  inversion F1 as [|b1 ? lb' ? H1 F1']; subst. inversion F2 as [|b2 ? ub' ? H2 F2']; subst.
  inversion B1 as [|? ? [l1 [-> C1]] B1']; subst. inversion B2 as [|? ? [l2 [-> C2]] B2']; subst.
  injection L as L. constructor; [|eapply IH; eassumption].
  assert (D1 : Rabs (l1 * t) <= c * Rabs t) by (rewrite Rabs_mult; apply Rmult_le_compat_r; [apply Rabs_pos|exact C1]).
  assert (D2 : Rabs (l2 * t) <= c * Rabs t) by (rewrite Rabs_mult; apply Rmult_le_compat_r; [apply Rabs_pos|exact C2]).
  apply Rabs_between in D1. apply Rabs_between in D2. apply Rabs_le. lra.
Qed.
Lemma inner_bound : forall m x e, List.length m = List.length x -> 0 <= e -> Forall (fun a => Rabs a <= e) x ->
  inner m x <= total (map Rabs m) * e.
Proof.
  induction m as [|p m IH]; destruct x as [|a x]; intros e L He F; try discriminate L; [cbn; lra|].
  injection L as L. inversion F; subst. cbn [inner map total]. specialize (IH x e L He ltac:(assumption)).
  assert (p * a <= Rabs p * e); [|lra]. eapply Rle_trans; [apply RRle_abs|]. rewrite Rabs_mult.
  apply Rmult_le_compat_l; [apply Rabs_pos|assumption].
Qed.
Lemma nearly_within_mono : forall t t' lb ub x, t <= t' -> nearly_within t lb ub x -> nearly_within t' lb ub x.
Proof.
  intros t t' lb ub x Ht [H1 H2]. split.
  - clear H2. induction H1 as [|b a lb x H F IH]; constructor; [|exact IH]. destruct b; cbn [above] in *; [lra|exact I].
  - clear H1. induction H2 as [|b a ub x H F IH]; constructor; [|exact IH]. destruct b; cbn [below] in *; [lra|exact I].
Qed.
Lemma meets_mono : forall t t' s ps c, t <= t' -> meets t s ps c -> meets t' s ps c.
Proof.
  intros t t' s ps c Ht. destruct c; cbn [meets]; intros F.
  - eapply Forall_impl; [|exact F]; cbv beta; intros; lra.
  - eapply Forall_impl; [|exact F]; cbv beta; intros; lra.
  - destruct F as [y [F Hy]]. exists y. split; [|exact Hy]. clear -F Ht. induction F; constructor; auto; lra.
Qed.
Lemma nearly_admissible_mono : forall t t' w o u lb ub sum s, t <= t' ->
  nearly_admissible t w o u lb ub sum s -> nearly_admissible t' w o u lb ub sum s.
Proof.
  intros t t' w o u lb ub sum s Ht [H1 [H2 [H3 H4]]]. split; [exact H1|]. split; [eapply nearly_within_mono; eassumption|].
  split; [lra|]. eapply Forall_impl; [|exact H4]. cbv beta; intros ic H. eapply meets_mono; eassumption.
Qed.

(** what the constraints built by [max_sharpe] say about a point that meets them up to [e] *)
Lemma sharpe_cons_near : forall e c w o u m r l1 l2 l3 l4 l5 X s t,
  let k := List.length (w_sizes w) in let v := e_w o in
  let l := total (map (fun x => Rabs (x - r)) m) in
  List.length (e_lb o) = e_n o -> List.length (e_ub o) = e_n o -> nth_error (w_sizes w) v = Some (e_n o) ->
  List.length m = e_n o ->
  Forall (fun ic => constant_on_one_side v (snd ic)) u -> Forall (fun ic => known_vars k (snd ic)) u ->
  Forall2 (fun ic ic' => transform_con k (snd ic) = Ok (snd ic')) u X ->
  bounded_by c (e_lb o) (e_ub o) -> 0 <= c -> e * (1 + l * (1 + c)) < 1 ->
  well_sized (w_sizes w ++ [1%nat]) s -> s k = [t] ->
  Forall (meets e s (par_values w)) (map snd (sharpe_cons o m r k X l1 l2 l3 l4 l5)) ->
  0 <= e /\ 0 < t /\ e / t <= enlarged e c m r /\
  nearly_admissible (e / t) w o u (e_lb o) (e_ub o) 1 (scaled v (/ t) s) /\
  1 - (1 + Rabs r) * e <= excess m r (scaled v (/ t) s v) * t.
Proof.
  intros e c w o u m r l1 l2 l3 l4 l5 X s t k v l Hl Hu Hn Hm Hone Hkn HX Hbd Hc0 Hsmall Hs Hk H.
  assert (Hv : (v < k)%nat) by (apply nth_error_Some; rewrite Hn; discriminate).
  assert (Hkv : k <> v) by lia.
  unfold sharpe_cons in H. cbn [map snd] in H. rewrite !Forall_cons_iff' in H. destruct H as [H1 [H2 [H3 [H4 [H5 H6]]]]].
  assert (Hlen : List.length (s v) = e_n o).
  { rewrite (Hs v) by (rewrite app_length; fold k; lia). rewrite app_nth1 by (fold k; exact Hv).
    apply nth_error_nth. exact Hn. }
  eapply meets_eq1 in H1; [|cbn [eval]; rewrite dot_inner; reflexivity|reflexivity].
  eapply meets_eq1 in H2; [|cbn [eval]; rewrite vsum_total; reflexivity|exact Hk].
  eapply meets_ineq1 in H3; [|reflexivity|exact Hk]. fold v in H1, H2.
  assert (He : 0 <= e) by (eapply Rle_trans; [apply Rabs_pos|exact H1]).
  apply Rabs_between in H1. apply Rabs_between in H2.
  assert (H4' : Forall2 (fun b a => match b with Some l => l * t <= a + e | None => True end) (e_lb o) (s v)).
  { apply meets_ineq in H4; cbn [eval] in *; rewrite Hk, bop_mult_const in *.
    - apply lower_raw; [congruence|exact H4].
    - unfold vscale. rewrite !map_length. apply finite_len. }
  assert (H5' : Forall2 (fun b a => match b with Some l => a <= l * t + e | None => True end) (e_ub o) (s v)).
  { apply meets_ineq in H5; cbn [eval] in *; rewrite Hk, bop_mult_const in *.
    - apply upper_raw; [congruence|exact H5].
    - unfold vscale. rewrite !map_length. symmetry. apply finite_len. }
  assert (Hlb : List.length (e_lb o) = List.length (s v)) by congruence.
  pose proof (raw_bound c e t (e_lb o) (e_ub o) (s v) Hbd Hlb H4' H5') as Hraw.
  assert (Hct : 0 <= c * Rabs t) by (apply Rmult_le_pos; [exact Hc0|apply Rabs_pos]).
  pose proof (inner_bound (map (fun x => x - r) m) (s v) (c * Rabs t + e) ltac:(rewrite map_length; congruence) ltac:(lra) Hraw) as Hin.
  rewrite map_map in Hin. fold l in Hin.
  assert (Hl0 : 0 <= l).
  { unfold l. clear. induction m; cbn [map total]; [lra|]. pose proof (Rabs_pos (a - r)). lra. }
  assert (Hlc : 0 <= l * c) by (apply Rmult_le_pos; assumption).
  assert (Ht : 0 < t).
  { apply Rnot_le_lt. intros Hneg. assert (Ha : Rabs t <= e) by (apply Rabs_le; lra).
    assert (l * (c * Rabs t + e) <= l * (c * e + e)); [|nra]. apply Rmult_le_compat_l; [exact Hl0|].
    apply Rplus_le_compat_r. apply Rmult_le_compat_l; assumption. }
  rewrite (Rabs_right t) in Hin by lra.
  assert (Hlec : 0 <= e * (l * c)) by (apply Rmult_le_pos; assumption).
  assert (Hd : 0 < 1 - e * (1 + l)) by nra.
  assert (Hgrow : 1 - e * (1 + l) <= l * c * t) by nra.
  split; [exact He|]. split; [exact Ht|]. split.
  { unfold enlarged. fold l. set (D := 1 - e * (1 + l)) in *.
    apply (Rmult_le_reg_r (t * D)); [apply Rmult_lt_0_compat; assumption|].
    replace (e / t * (t * D)) with (e * D) by (field; lra).
    replace (e * (l * c) / D * (t * D)) with (e * (l * c * t)) by (field; lra).
    apply Rmult_le_compat_l; assumption. }
  assert (Hws : well_sized (w_sizes w) (scaled v (/ t) s)).
  { intros i Hi. pose proof (Hs i ltac:(rewrite app_length; lia)) as H. rewrite app_nth1 in H by exact Hi.
    unfold scaled. destruct (Nat.eqb i v); [rewrite map_length|]; exact H. }
  set (x := scaled v (/ t) s) in *.
  assert (Hxv : x v = vscale (/ t) (s v)) by (unfold x, scaled; rewrite Nat.eqb_refl; reflexivity).
  assert (Hyv : s v = vscale t (x v)).
  { rewrite Hxv. unfold vscale. rewrite map_map. rewrite <- (map_id (s v)) at 1. apply map_ext. intros. field. lra. }
  assert (Hxk : x k = [t]).
  { unfold x, scaled. assert (E : Nat.eqb k v = false) by (apply Nat.eqb_neq; exact Hkv). rewrite E. exact Hk. }
  assert (Hxlen : List.length (x v) = e_n o) by (apply (well_sized_w w o x Hws Hn)).
  assert (Hback : forall c c', constant_on_one_side v c -> transform_con k c = Ok c' -> ~ In k (cvars c) ->
     (meets e s (par_values w) c' <-> meets (e / t) x (par_values w) c)).
  { intros c1 c' Hc E Hin'. rewrite <- (transform_meets e k v c1 c' x (par_values w) t Hc E Ht Hxk Hkv Hin').
    apply meets_agree. intros i _. symmetry. apply scaled_inv. lra. }
  split.
  - split; [exact Hws|]. split; [split|split].
    + fold v. apply (meets_lower (e / t) x (par_values w)); [congruence|].
      apply (Hback _ _ (lower_one_side _ _) eq_refl); [cbn; intros [?|[]]; lia|exact H4].
    + fold v. apply (meets_upper (e / t) x (par_values w)); [congruence|].
      apply (Hback _ _ (upper_one_side _ _) eq_refl); [cbn; intros [?|[]]; lia|exact H5].
    + fold v. rewrite Hxv, total_scale. replace (/ t * total (s v) - 1) with ((total (s v) - t) / t) by (field; lra).
      unfold Rdiv. rewrite Rabs_mult, (Rabs_right (/ t)) by (apply Rle_ge, Rlt_le, Rinv_0_lt_compat; exact Ht).
      apply Rmult_le_compat_r; [apply Rlt_le, Rinv_0_lt_compat; exact Ht|]. apply Rabs_le. exact H2.
    + clear - HX Hback Hone Hkn H6. induction HX as [|[i c1] [i' c'] u X E _ IH]; [constructor|].
      cbn [map snd] in H6. rewrite Forall_cons_iff' in H6. destruct H6 as [H6 H7].
      inversion Hone; subst. inversion Hkn; subst. constructor; [|apply IH; assumption]. cbn [snd] in *.
      apply (Hback c1 c'); [assumption|exact E| |exact H6].
      intros Hin'. unfold known_vars in *. rewrite Forall_forall in H3. specialize (H3 _ Hin'). lia.
  - rewrite inner_minus_const in H1 by congruence. unfold excess. rewrite Hxv, inner_scale_r.
    replace ((/ t * inner m (s v) - r) * t) with (inner m (s v) - r * t) by (field; lra).
    assert (Hr : Rabs (r * (total (s v) - t)) <= Rabs r * e).
    { rewrite Rabs_mult. apply Rmult_le_compat_l; [apply Rabs_pos|]. apply Rabs_le. exact H2. }
    apply Rabs_between in Hr. lra.
Qed.

(** C30 with a solver of limited accuracy *)
Lemma max_sharpe_near : forall e g c sv w o u rf w' o' d, accurate_solver e g sv -> open_ef w o u -> e_add o = [] ->
  psd (e_n o) (e_cov o) ->
  Forall (fun ic => constant_on_one_side (e_w o) (snd ic)) u ->
  Forall (fun ic => known_vars (List.length (w_sizes w)) (snd ic)) u ->
  bounded_by c (e_lb o) (e_ub o) -> 0 <= c ->
  (forall m r, e_mu o = Some m -> target_of rf = Some r ->
     e * (1 + total (map (fun x => Rabs (x - r)) m) * (1 + c)) < 1 /\ (1 + Rabs r) * e < 1) ->
  max_sharpe sv rf w o = (w', o', Ok d) ->
  exists m r, e_mu o = Some m /\ target_of rf = Some r /\
  exists s rr, e_weights o' = Some rr /\ Forall2 (rounded 16) (s (e_w o)) rr /\
    d = dict_of_pairs (combine (b_tickers (e_base o)) rr) /\
    nearly_admissible (enlarged e c m r) w o u (e_lb o) (e_ub o) 1 s /\
    0 < excess m r (s (e_w o)) /\
    forall s', admissible w o u (e_lb o) (e_ub o) 1 s' ->
      (1 - (1 + Rabs r) * e) * excess m r (s' (e_w o)) * sqrt (qform (e_cov o) (s (e_w o)))
      <= excess m r (s (e_w o)) * sqrt (qform (e_cov o) (s' (e_w o)) + g * (excess m r (s' (e_w o))) ^ 2).
Proof.
  intros e g c sv w o u rf w' o' d Hsv Hop Hadd Hpsd Hone Hkn Hbd Hc0 Hsmall H.
  pose proof Hop as [Ho [[i0 [j0 Hc]] [Hl [Hu [Hn [Hq [Hm [Ha [Has Hus]]]]]]]]].
  assert (exists m r mx, e_mu o = Some m /\ target_of rf = Some r /\ list_max m = Some mx /\ r < mx) as [m [r [mx [Em [Er [Emx Hlt]]]]]].
  { unfold max_sharpe in H. destruct rf as [x|z|]; [| |discriminate H]; unfold bind at 1, get in H;
      destruct (e_mu o) as [m|]; try discriminate H; destruct (list_max m) as [mx|] eqn:Emx; try discriminate H.
    - exists m, x, mx. destruct (Rleb mx x) eqn:E; [discriminate H|]. apply Rleb_false in E. auto.
    - exists m, (IZR z), mx. destruct (Rleb mx (IZR z)) eqn:E; [discriminate H|]. apply Rleb_false in E. auto. }
  exists m, r. split; [exact Em|]. split; [exact Er|].
  destruct (Hsmall m r Em Er) as [Hsm1 Hsm2]. clear Hsmall.
  assert (Htr : Forall (fun ic => transformable (List.length (w_sizes w)) (snd ic)) u).
  { eapply Forall_impl; [|exact Hone]. intros ic Hic. eapply one_side_transformable. exact Hic. }
  destruct (max_sharpe_run sv w o u m rf r mx Hop Em Er Emx Hlt Htr)
    as [w1 [o1 [i [X [l1 [l2 [l3 [l4 [l5 [E [S1 [S2 [S3 [S4 [S5 [S6 [S7 [S8 S9]]]]]]]]]]]]]]]]]].
  set (k := List.length (w_sizes w)) in *. set (v := e_w o) in *.
  rewrite E in H. clear E. unfold bind at 1 in H.
  destruct (solve_opt sv w1 o1) as [[w2 o2] [[s val]|x]] eqn:Es; [|discriminate H].
  apply (solve_open sv w1 o1 i _ w2 o2 _ S3 S7) in Es. destruct Es as [_ Es].
  rewrite Hadd in Es, S7. unfold add_all in Es, S7. cbn [fold_left] in Es, S7.
  destruct (sv (w_sizes w1) (par_values w1) (EQuad (e_cov o) (EVar v)) (map snd (e_cons o1))) as [s0 v0|upd|x0] eqn:Esv;
    [|destruct Es as [? [Es _]]; discriminate Es|destruct Es as [? [Es _]]; discriminate Es].
  destruct Es as [Es Eo2]. inversion Es; subst s0 v0. clear Es.
  destruct (Hsv _ _ _ _ _ _ Esv) as [Hfs [Hfc [Hbest _]]].
  rewrite S1, S2, S8 in *. fold v in Hbest, Hfc.
  cbn [fst] in H. cbv zeta in H.
  pose proof (Hfs k ltac:(rewrite app_length; unfold k; cbn; lia)) as Hk1.
  rewrite app_nth2 in Hk1 by (unfold k; lia). replace (k - List.length (w_sizes w))%nat with 0%nat in Hk1 by (unfold k; lia).
  cbn [nth] in Hk1. destruct (s k) as [|t [|]] eqn:Hk; try discriminate Hk1. clear Hk1. cbn [scalar hd] in H.
  destruct (Reqb t 0) eqn:Et; [discriminate H|]. apply Reqb_false in Et.
  pose proof (Hm m Em) as Hml.
  destruct (sharpe_cons_near e c w o u m r l1 l2 l3 l4 l5 X s t Hl Hu Hn Hml Hone Hkn S9 Hbd Hc0 Hsm1 Hfs Hk Hfc)
    as [He0 [Ht [Hlarge [Hadm Hex]]]].
  fold v in Hadm, Hex. set (x := scaled v (/ t) s) in *.
  assert (Hpos : 0 < excess m r (x v)) by nra.
  unfold bind, modify, output, get, lift_res in H. subst o2. cbn [e_base put_weights set_base set_opt b_weights make_output_weights] in H.
  exists x, (map (fun a => round16 (a / t)) (s v)).
  assert (Hxv : x v = map (fun a => a / t) (s v)).
  { unfold x, scaled. rewrite Nat.eqb_refl. apply map_ext. intros. unfold Rdiv. ring. }
  inversion H; subst w' o' d. clear H. rewrite S4. 
  split; [reflexivity|]. split.
  { rewrite Hxv. rewrite <- (map_map (fun a => a / t) round16). apply round16_rounded. }
  split; [cbn [b_tickers]; rewrite S5; reflexivity|].
  split; [eapply nearly_admissible_mono; [exact Hlarge|exact Hadm]|]. split; [exact Hpos|].
  intros s' Hadm'. set (e' := excess m r (s' v)).
  pose proof (sqrt_pos (qform (e_cov o) (x v))) as Hq1.
  pose proof (sqrt_pos (qform (e_cov o) (s' v) + g * e' ^ 2)) as Hq2.
  set (f := 1 - (1 + Rabs r) * e) in *. assert (Hf : 0 < f) by (unfold f; lra).
  destruct (Rle_dec e' 0) as [Hneg|Hpos'].
  { apply Rle_trans with 0; [|apply Rmult_le_pos; lra]. assert (f * e' <= 0) by nra. nra. }
  apply Rnot_le_lt in Hpos'.
  set (t' := / e'). assert (Ht' : 0 < t') by (apply Rinv_0_lt_compat; exact Hpos').
  set (s1 := fun i => if Nat.eqb i k then [t'] else s' i).
  set (s2 := scaled v t' s1).
  assert (Hv : (v < k)%nat) by (apply nth_error_Some; rewrite Hn; discriminate).
  assert (Evk : Nat.eqb v k = false) by (apply Nat.eqb_neq; lia).
  assert (Ekv : Nat.eqb k v = false) by (apply Nat.eqb_neq; lia).
  assert (H2k : s2 k = [t']) by (unfold s2, scaled, s1; rewrite Ekv, Nat.eqb_refl; reflexivity).
  assert (H2v : s2 v = vscale t' (s' v)) by (unfold s2, scaled, s1; rewrite Nat.eqb_refl, Evk; reflexivity).
  assert (Hw2 : well_sized (w_sizes w ++ [1%nat]) s2).
  { intros j Hj. unfold s2. rewrite scaled_length. unfold s1. destruct (Nat.eqb j k) eqn:Ejk.
    - apply Nat.eqb_eq in Ejk. subst j. rewrite app_nth2 by (unfold k; lia).
      replace (k - List.length (w_sizes w))%nat with 0%nat by (unfold k; lia). reflexivity.
    - apply Nat.eqb_neq in Ejk. rewrite app_length in Hj. cbn [List.length] in Hj. fold k in Hj.
      rewrite app_nth1 by (fold k; lia). destruct Hadm' as [Hw' _]. apply Hw'. fold k. lia. }
  assert (Hag : forall j, j <> k -> scaled v (/ t') s2 j = s' j).
  { intros j Hj. assert (Ej : Nat.eqb j k = false) by (apply Nat.eqb_neq; exact Hj).
    unfold s2, scaled, s1. destruct (Nat.eqb j v) eqn:Ejv; rewrite Ej; [|reflexivity].
    rewrite map_map. rewrite <- (map_id (s' j)) at 2. apply map_ext. intros. field. lra. }
  assert (Hadm2 : admissible w o u (e_lb o) (e_ub o) 1 (scaled v (/ t') s2)).
  { destruct Hadm' as [A1 [A2 [A3 A4]]]. fold v in A2, A3. split; [|split; [|split]].
    - intros j Hj. fold k in Hj. rewrite Hag by lia. apply A1. exact Hj.
    - fold v. rewrite Hag by lia. exact A2.
    - fold v. rewrite Hag by lia. exact A3.
    - rewrite Forall_forall in A4, Hkn |- *. intros ic Hic. apply (sat_agree s'); [|apply A4; exact Hic].
      intros j Hj. symmetry. apply Hag. specialize (Hkn ic Hic). unfold known_vars in Hkn. rewrite Forall_forall in Hkn.
      specialize (Hkn j Hj). lia. }
  assert (Hf2 : feasible (w_sizes w ++ [1%nat]) (par_values w) (map snd (sharpe_cons o m r k X l1 l2 l3 l4 l5)) s2).
  { split; [exact Hw2|]. apply (sharpe_cons_iff w o u m r l1 l2 l3 l4 l5 X s2 t' Hl Hu Hn Hml Hone Hkn S9 Hw2 H2k Ht').
    split; [exact Hadm2|]. fold v. rewrite Hag by lia. fold e'. unfold t'. field. lra. }
  specialize (Hbest s2 Hf2). rewrite !evals_quad, H2v, qform_scale in Hbest.
  assert (Hsv' : s v = vscale t (x v)).
  { rewrite Hxv. unfold vscale. rewrite map_map. rewrite <- (map_id (s v)) at 1. apply map_ext. intros. field. lra. }
  rewrite Hsv', qform_scale in Hbest.
  destruct Hpsd as [_ Hpsd].
  assert (Hlx : List.length (x v) = e_n o) by (destruct Hadm as [A _]; apply (well_sized_w w o x A Hn)).
  assert (Hlx' : List.length (s' v) = e_n o) by (destruct Hadm' as [A _]; apply (well_sized_w w o s' A Hn)).
  pose proof (Hpsd _ Hlx) as Q1. pose proof (Hpsd _ Hlx') as Q2.
  set (q1 := qform (e_cov o) (x v)) in *. set (q2 := qform (e_cov o) (s' v)) in *. set (e1 := excess m r (x v)) in *.
  (* t * t * q1 <= q2 / e'^2 + g *)
  assert (Hb2 : t * t * q1 * (e' * e') <= q2 + g * e' ^ 2).
  { apply (Rmult_le_compat_r (e' * e')) in Hbest; [|apply Rmult_le_pos; lra].
    replace ((t' * t' * q2 + g) * (e' * e')) with (q2 + g * e' ^ 2) in Hbest by (unfold t'; field; lra). exact Hbest. }
  assert (Q3 : 0 <= q2 + g * e' ^ 2).
  { eapply Rle_trans; [|exact Hb2]. apply Rmult_le_pos; [|apply Rmult_le_pos; lra]. apply Rmult_le_pos; [apply Rmult_le_pos; lra|exact Q1]. }
  apply Rsqr_incr_0_var; [|apply Rmult_le_pos; lra]. rewrite !Rsqr_mult, !Rsqr_sqrt by assumption. unfold Rsqr.
  apply Rle_trans with (e1 * e1 * (t * t * q1 * (e' * e'))).
  - replace (e1 * e1 * (t * t * q1 * (e' * e'))) with ((e1 * t) * (e1 * t) * (e' * e') * q1) by ring.
    replace (f * f * (e' * e') * q1) with (f * f * (e' * e') * q1) by ring.
    apply Rmult_le_compat_r; [exact Q1|]. apply Rmult_le_compat_r; [apply Rmult_le_pos; lra|].
    apply Rmult_le_compat; lra.
  - apply Rmult_le_compat_l; [apply Rmult_le_pos; lra|exact Hb2].
Qed.
