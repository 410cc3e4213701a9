(** * max_sharpe finds a portfolio if there is a best one (C30) *)
From Coq Require Import ZArith List String Bool Reals Lra Lia.
From Verif Require Import Num Py RBase PyLemmas MBase MConvex MEF SLin SBase SConvex Sums Mat PBase PConvex PEF PEF2 PEF3 PEF4.
Import ListNotations.
Local Open Scope R_scope.

Definition nilled (b : list (option R)) : list (option R) := map (option_map (fun _ => 0)) b.
Lemma nth_nilled : forall b i, nth i (nilled b) None = option_map (fun _ => 0) (nth i b None).
Proof. intros b i. unfold nilled. change (@None R) with (option_map (fun _ : R => 0) (@None R)) at 1. apply map_nth. Qed.
Lemma finite_ix_nilled : forall b, finite_ix (nilled b) = finite_ix b.
Proof.
  intros b. unfold finite_ix. replace (List.length (nilled b)) with (List.length b) by (unfold nilled; rewrite map_length; reflexivity).
  apply filter_ext. intros i. rewrite nth_nilled. destruct (nth i b None); reflexivity.
Qed.
Lemma finite_vals_nilled : forall b, finite_vals (nilled b) = vscale 0 (finite_vals b).
Proof.
  intros b. unfold finite_vals, vscale. rewrite finite_ix_nilled, map_map. apply map_ext. intros i. rewrite nth_nilled. destruct (nth i b None); cbn; ring.
Qed.
Lemma zero_weights : forall lb ub x, Forall (fun b => b <> None) lb -> Forall2 above (nilled lb) x -> Forall (fun b => b <> None) ub -> Forall2 below (nilled ub) x ->
  forall m, inner m x = 0.
Proof.
  intros lb ub x. revert lb ub. induction x as [|a x IH]; intros lb ub F1 A F2 B m; [destruct m; reflexivity|].
  destruct lb as [|l lb]; [inversion A|]. destruct ub as [|b ub]; [inversion B|]. cbn in A, B.
  inversion A; subst. inversion B; subst. inversion F1; subst. inversion F2; subst.
  destruct m as [|c m]; [reflexivity|]. cbn. rewrite (IH lb ub) by assumption.
  destruct l as [l|]; [|congruence]. destruct b as [b|]; [|congruence]. cbn in *. replace a with 0 by lra. ring.
Qed.

Lemma fold_max_le : forall l x, x <= fold_left Rmax l x /\ forall a, In a l -> a <= fold_left Rmax l x.
Proof.
  induction l as [|b l IH]; intros x; cbn [fold_left In]; [split; [lra|tauto]|]. destruct (IH (Rmax x b)) as [H1 H2].
  pose proof (Rmax_l x b). pose proof (Rmax_r x b). split; [lra|]. intros a [->|Ha]; [lra|apply H2; exact Ha].
Qed.
Lemma list_max_ge : forall l mx a, list_max l = Some mx -> In a l -> a <= mx.
Proof.
  intros [|x l] mx a H Ha; [destruct Ha|]. cbn [list_max] in H. inversion H; subst mx. destruct (fold_max_le l x) as [H1 H2].
  destruct Ha as [->|Ha]; [exact H1|apply H2; exact Ha].
Qed.
Lemma sharpe_found : forall sv w o u m rf r s, exact_solver sv -> complete_solver sv -> open_ef w o u -> e_add o = [] ->
  psd (e_n o) (e_cov o) ->
  Forall (fun ic => constant_on_one_side (e_w o) (snd ic)) u ->
  Forall (fun ic => known_vars (List.length (w_sizes w)) (snd ic)) u ->
  Forall (fun b => b <> None) (e_lb o) -> Forall (fun b => b <> None) (e_ub o) ->
  e_mu o = Some m -> target_of rf = Some r -> Exists (fun a => r < a) m ->
  admissible w o u (e_lb o) (e_ub o) 1 s -> 0 < excess m r (s (e_w o)) ->
  (forall s', admissible w o u (e_lb o) (e_ub o) 1 s' ->
      excess m r (s' (e_w o)) * sqrt (qform (e_cov o) (s (e_w o)))
      <= excess m r (s (e_w o)) * sqrt (qform (e_cov o) (s' (e_w o)))) ->
  exists w' o' d, max_sharpe sv rf w o = (w', o', Ok d).
Proof.
  intros sv w o u m rf r s' Hex Hsv Hop Hadd Hpsd Hone Hkn Fl Fu Em Er Hmx Hadm' Hpos' Hbest.
  pose proof Hop as [Ho [[i0 [j0 Hc]] [Hl [Hu [Hn [Hq [Hm [Ha [Has Hus]]]]]]]]].
  assert (exists mx, list_max m = Some mx /\ r < mx) as [mx [Emx Hlt]].
  { destruct (list_max m) as [mx|] eqn:E.
    - exists mx. split; [reflexivity|]. apply Exists_exists in Hmx. destruct Hmx as [a [Ha1 Ha2]]. pose proof (list_max_ge _ _ _ E Ha1). lra.
    - destruct m; [inversion Hmx|discriminate E]. }
  assert (Htr : Forall (fun ic => transformable (List.length (w_sizes w)) (snd ic)) u).
  { eapply Forall_impl; [|exact Hone]. intros ic Hic. eapply one_side_transformable. exact Hic. }
  destruct (max_sharpe_run sv w o u m rf r mx Hop Em Er Emx Hlt Htr)
    as [w1 [o1 [i [X [l1 [l2 [l3 [l4 [l5 [E [S1 [S2 [S3 [S4 [S5 [S6 [S7 [S8 S9]]]]]]]]]]]]]]]]]].
  set (k := List.length (w_sizes w)) in *. set (v := e_w o) in *. pose proof (Hm m Em) as Hml.
  rewrite Hadd in S7. unfold add_all in S7. cbn [fold_left] in S7.
  assert (Hv : (v < k)%nat) by (apply nth_error_Some; rewrite Hn; discriminate).
  assert (Evk : Nat.eqb v k = false) by (apply Nat.eqb_neq; lia).
  assert (Ekv : Nat.eqb k v = false) by (apply Nat.eqb_neq; lia).
  set (e' := excess m r (s' v)) in *.
  set (t' := / e'). assert (Ht' : 0 < t') by (apply Rinv_0_lt_compat; exact Hpos').
  set (s1 := fun i => if Nat.eqb i k then [t'] else s' i). set (s2 := scaled v t' s1).
  assert (H2k : s2 k = [t']) by (unfold s2, scaled, s1; rewrite Ekv, Nat.eqb_refl; reflexivity).
  assert (H2v : s2 v = vscale t' (s' v)) by (unfold s2, scaled, s1; rewrite Nat.eqb_refl, Evk; reflexivity).
  assert (Hw2 : well_sized (w_sizes w ++ [1%nat]) s2).
  { intros j Hj. unfold s2. rewrite scaled_length. unfold s1. destruct (Nat.eqb j k) eqn:Ejk.
    - apply Nat.eqb_eq in Ejk. subst j. rewrite app_nth2 by (unfold k; lia).
      replace (k - List.length (w_sizes w))%nat with 0%nat by (unfold k; lia). reflexivity.
    - apply Nat.eqb_neq in Ejk. rewrite app_length in Hj. cbn [List.length] in Hj. fold k in Hj.
      rewrite app_nth1 by (fold k; lia). destruct Hadm' as [Hw' _]. apply Hw'. fold k. lia. }
  assert (Hag : forall j, j <> k -> scaled v (/ t') s2 j = s' j).
  { intros j Hj. assert (Ej : Nat.eqb j k = false) by (apply Nat.eqb_neq; exact Hj).
    unfold s2, scaled, s1. destruct (Nat.eqb j v) eqn:Ejv; rewrite Ej; [|reflexivity].
    rewrite map_map. rewrite <- (map_id (s' j)) at 2. apply map_ext. intros. field. lra. }
  assert (Hadm2 : admissible w o u (e_lb o) (e_ub o) 1 (scaled v (/ t') s2)).
  { destruct Hadm' as [A1 [A2 [A3 A4]]]. fold v in A2, A3. split; [|split; [|split]].
    - intros j Hj. fold k in Hj. rewrite Hag by lia. apply A1. exact Hj.
    - fold v. rewrite Hag by lia. exact A2.
    - fold v. rewrite Hag by lia. exact A3.
    - rewrite Forall_forall in A4, Hkn |- *. intros ic Hic. apply (sat_agree s'); [|apply A4; exact Hic].
      intros j Hj. symmetry. apply Hag. specialize (Hkn ic Hic). unfold known_vars in Hkn. rewrite Forall_forall in Hkn.
      specialize (Hkn j Hj). lia. }
  (* every feasible point has k > 0 *)
  assert (Hkpos : forall s3, feasible (w_sizes w1) (par_values w1) (map snd (e_cons o1)) s3 -> exists t3, s3 k = [t3] /\ 0 < t3).
  { rewrite S1, S2, S8. intros s3 [Hfs Hfc].
    pose proof (Hfs k ltac:(rewrite app_length; unfold k; cbn; lia)) as Hk1.
    rewrite app_nth2 in Hk1 by (unfold k; lia). replace (k - List.length (w_sizes w))%nat with 0%nat in Hk1 by (unfold k; lia).
    cbn [nth] in Hk1. destruct (s3 k) as [|t3 [|]] eqn:Hk; try discriminate Hk1. exists t3. split; [reflexivity|].
    cbn [map snd] in Hfc. rewrite !Forall_cons_iff' in Hfc. destruct Hfc as [H1 [_ [H3 [H4 [H5 _]]]]].
    rewrite (sat_ineq1 s3 (par_values w) (EScalar 0) (EVar k) 0 t3) in H3; [|reflexivity|exact Hk].
    destruct (Rle_lt_or_eq_dec 0 t3 H3) as [|E0]; [assumption|exfalso]. subst t3.
    assert (Lv : List.length (s3 v) = e_n o).
    { pose proof (Hfs v ltac:(rewrite app_length; fold k; lia)) as Q. rewrite app_nth1 in Q by (fold k; lia). rewrite Q. apply nth_error_nth. exact Hn. }
    assert (G4 : sat s3 (par_values w) (lower_con (nilled (e_lb o)) v)).
    { cbn [sat eval] in H4. rewrite Hk, bop_mult_const in H4. unfold lower_con. cbn [sat eval]. rewrite finite_vals_nilled, finite_ix_nilled. exact H4. }
    assert (G5 : sat s3 (par_values w) (upper_con (nilled (e_ub o)) v)).
    { cbn [sat eval] in H5. rewrite Hk, bop_mult_const in H5. unfold upper_con. cbn [sat eval]. rewrite finite_vals_nilled, finite_ix_nilled. exact H5. }
    rewrite sat_lower in G4 by (unfold nilled; rewrite map_length; congruence). rewrite sat_upper in G5 by (unfold nilled; rewrite map_length; congruence).
    rewrite (sat_eq1 s3 (par_values w) (EDot _ _) (EScalar 1) (inner (map (fun y => y - r) m) (s3 v)) 1) in H1;
      [|cbn [eval]; rewrite dot_inner; reflexivity|reflexivity].
    rewrite (zero_weights (e_lb o) (e_ub o) (s3 v) Fl G4 Fu G5) in H1. lra. }
  assert (Hopt : optimal (w_sizes w1) (par_values w1) (EQuad (e_cov o) (EVar v)) (map snd (e_cons o1)) s2).
  { split.
    - rewrite S1, S2, S8. split; [exact Hw2|].
      apply (sharpe_cons_iff w o u m r l1 l2 l3 l4 l5 X s2 t' Hl Hu Hn Hml Hone Hkn S9 Hw2 H2k Ht').
      split; [exact Hadm2|]. fold v. rewrite Hag by lia. fold e'. unfold t'. field. lra.
    - intros s3 Hf3. destruct (Hkpos s3 Hf3) as [t3 [Hk3 Ht3]]. rewrite S1, S2, S8 in Hf3. destruct Hf3 as [Hfs Hfc].
      apply (sharpe_cons_iff w o u m r l1 l2 l3 l4 l5 X s3 t3 Hl Hu Hn Hml Hone Hkn S9 Hfs Hk3 Ht3) in Hfc.
      fold v in Hfc. set (x := scaled v (/ t3) s3) in *. destruct Hfc as [Hadm Hex3].
      specialize (Hbest x Hadm). fold v e' in Hbest. fold v in Hpos'. fold e' in Hpos'.
      assert (Hsv' : s3 v = vscale t3 (x v)).
      { unfold x, scaled. rewrite Nat.eqb_refl. unfold vscale. rewrite map_map. rewrite <- (map_id (s3 v)) at 1. apply map_ext. intros. field. lra. }
      rewrite !evals_quad, H2v, Hsv', !qform_scale.
      assert (Hlx : List.length (x v) = e_n o) by (destruct Hadm as [A _]; apply (well_sized_w w o x A Hn)).
      assert (Hlx' : List.length (s' v) = e_n o) by (destruct Hadm' as [A _]; apply (well_sized_w w o s' A Hn)).
      destruct Hpsd as [_ Hpsd]. pose proof (Hpsd _ Hlx) as Q1. pose proof (Hpsd _ Hlx') as Q2.
      set (q1 := qform (e_cov o) (x v)) in *. set (q2 := qform (e_cov o) (s' v)) in *. set (e1 := excess m r (x v)) in *.
      assert (He1 : 0 < e1) by nra. assert (Et1 : t3 = / e1) by (apply (Rmult_eq_reg_l e1); [rewrite Hex3; field; lra|lra]).
      pose proof (sqrt_pos q1) as P1. pose proof (sqrt_pos q2) as P2.
      assert (Hsq : e1 * e1 * q2 <= e' * e' * q1).
      { rewrite <- (sqrt_sqrt q2 Q2), <- (sqrt_sqrt q1 Q1).
        replace (e1 * e1 * (sqrt q2 * sqrt q2)) with ((e1 * sqrt q2) * (e1 * sqrt q2)) by ring.
        replace (e' * e' * (sqrt q1 * sqrt q1)) with ((e' * sqrt q1) * (e' * sqrt q1)) by ring.
        apply Rmult_le_compat; try exact Hbest; apply Rmult_le_pos; lra. }
      unfold t'. rewrite Et1. apply (Rmult_le_reg_l (e1 * e1 * e' * e')); [repeat apply Rmult_lt_0_compat; assumption|].
      replace (e1 * e1 * e' * e' * (/ e' * / e' * q2)) with (e1 * e1 * q2) by (field; lra).
      replace (e1 * e1 * e' * e' * (/ e1 * / e1 * q1)) with (e' * e' * q1) by (field; lra). exact Hsq. }
  destruct (Hsv _ _ _ _ _ Hopt) as [s3 [val V]].
  destruct (Hex _ _ _ _ _ _ V) as [[Hf3 _] _]. destruct (Hkpos s3 Hf3) as [t3 [Hk3 Ht3]].
  rewrite E. unfold bind at 1. unfold solve_opt, bind, get. rewrite S7, S3. unfold modify, ret, world_get. cbn [p_obj p_cons snd]. rewrite V.
  cbn [fst]. cbv zeta. rewrite Hk3. cbn [scalar hd]. rewrite (proj2 (Reqb_false t3 0)) by lra.
  unfold output, get, lift_res, bind. cbn [e_base put_weights set_base set_opt b_weights make_output_weights]. eexists _, _, _. reflexivity.
Qed.

(** a long-short portfolio beats the risk-free rate, but no single asset does *)
Lemma sharpe_rejects_reachable : forall sv, exists o, ef_init (MIn (MuArray [1/100; 1/50])) (CIn (CovArray [[1; 0]; [0; 1]])) (BPair (Some (-1)) (Some 2))
    (mkWorld [] (fun _ => None) [] 0) = (mkWorld [2%nat] (fun _ => None) [] 2, Ok o) /\
  (exists s, admissible (mkWorld [2%nat] (fun _ => None) [] 2) o [] (e_lb o) (e_ub o) 1 s /\ 0 < excess [1/100; 1/50] (1/50) (s (e_w o))) /\
  max_sharpe sv (NFloat (1/50)) (mkWorld [2%nat] (fun _ => None) [] 2) o = (mkWorld [2%nat] (fun _ => None) [] 2, o, Err ValueError).
Proof.
  intros sv. eexists. split; [reflexivity|]. split.
  - exists (fun _ => [-1; 2]). cbn [e_w e_lb e_ub set_cons set_bounds]. split; [|unfold excess; cbn; lra].
    split; [intros v Hv; cbn in Hv; replace v with 0%nat by lia; reflexivity|]. split; [split; repeat constructor; cbn; lra|]. split; [cbn; lra|constructor].
  - unfold max_sharpe, bind at 1, get. cbn [e_mu set_cons set_bounds mu_values list_max fold_left].
    rewrite (proj2 (Rleb_true (Rmax (1/100) (1/50)) (1/50))); [reflexivity|]. unfold Rmax. destruct (Rle_dec (1/100) (1/50)); lra.
Qed.
