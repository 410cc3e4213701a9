(** * max_sharpe with added objectives (C126) *)
From Coq Require Import ZArith List String Bool Reals Lra Lia.
From Verif Require Import Num Py RBase PyLemmas MBase MConvex MEF SLin SBase SConvex Sums Mat PBase PConvex PEF PEF2 PEF3 PEF4 PEF6 SSharpe.
Import ListNotations.
Local Open Scope R_scope.

Lemma penalty_agree : forall s s' ps l, (forall e, In e l -> forall j, In j (evars e) -> s j = s' j) -> penalty s ps l = penalty s' ps l.
Proof.
  intros s s' ps l H. unfold penalty. f_equal. apply map_ext_in. intros e He. unfold evals. rewrite (eval_agree s s' ps e (H e He)). reflexivity.
Qed.

Lemma max_sharpe_added : forall sv w o u rf w' o' d, exact_solver sv -> open_ef w o u ->
  Forall (known_terms (List.length (w_sizes w))) (e_add o) ->
  Forall (fun ic => constant_on_one_side (e_w o) (snd ic)) u ->
  Forall (fun ic => known_vars (List.length (w_sizes w)) (snd ic)) u ->
  max_sharpe sv rf w o = (w', o', Ok d) ->
  exists m r, e_mu o = Some m /\ target_of rf = Some r /\
  exists s rr, e_weights o' = Some rr /\ Forall2 (rounded 16) (s (e_w o)) rr /\
    d = dict_of_pairs (combine (b_tickers (e_base o)) rr) /\
    admissible w o u (e_lb o) (e_ub o) 1 s /\
    0 < excess m r (s (e_w o)) /\
    forall s', admissible w o u (e_lb o) (e_ub o) 1 s' -> 0 < excess m r (s' (e_w o)) ->
      per_excess w o m r s <= per_excess w o m r s'.
Proof.
  intros sv w o u rf w' o' d Hsv Hop Hadd Hone Hkn H.
  pose proof Hop as [Ho [[i0 [j0 Hc]] [Hl [Hu [Hn [Hq [Hm [Ha [Has Hus]]]]]]]]].
  assert (exists m r mx, e_mu o = Some m /\ target_of rf = Some r /\ list_max m = Some mx /\ r < mx) as [m [r [mx [Em [Er [Emx Hlt]]]]]].
  { unfold max_sharpe in H. destruct rf as [x|z|]; [| |discriminate H]; unfold bind at 1, get in H;
      destruct (e_mu o) as [m|]; try discriminate H; destruct (list_max m) as [mx|] eqn:Emx; try discriminate H.
    - exists m, x, mx. destruct (Rleb mx x) eqn:E; [discriminate H|]. apply Rleb_false in E. auto.
    - exists m, (IZR z), mx. destruct (Rleb mx (IZR z)) eqn:E; [discriminate H|]. apply Rleb_false in E. auto. }
  exists m, r. split; [exact Em|]. split; [exact Er|].
  assert (Htr : Forall (fun ic => transformable (List.length (w_sizes w)) (snd ic)) u).
  { eapply Forall_impl; [|exact Hone]. intros ic Hic. eapply one_side_transformable. exact Hic. }
  destruct (max_sharpe_run sv w o u m rf r mx Hop Em Er Emx Hlt Htr)
    as [w1 [o1 [i [X [l1 [l2 [l3 [l4 [l5 [E [S1 [S2 [S3 [S4 [S5 [S6 [S7 [S8 S9]]]]]]]]]]]]]]]]]].
  set (k := List.length (w_sizes w)) in *. set (v := e_w o) in *.
  rewrite E in H. clear E. unfold bind at 1 in H.
  destruct (solve_opt sv w1 o1) as [[w2 o2] [[s val]|x]] eqn:Es; [|discriminate H].
  apply (solve_open sv w1 o1 i _ w2 o2 _ S3 S7) in Es. destruct Es as [_ Es].
  destruct (sv (w_sizes w1) (par_values w1) (add_all (EQuad (e_cov o) (EVar v)) (e_add o)) (map snd (e_cons o1))) as [s0 v0|upd|x0] eqn:Esv;
    [|destruct Es as [? [Es _]]; discriminate Es|destruct Es as [? [Es _]]; discriminate Es].
  destruct Es as [Es Eo2]. inversion Es; subst s0 v0. clear Es.
  destruct (Hsv _ _ _ _ _ _ Esv) as [[[Hfs Hfc] Hbest] _].
  rewrite S1, S2, S8 in *. fold v in Hbest, Hfc.
  cbn [fst] in H. cbv zeta in H.
  pose proof (Hfs k ltac:(rewrite app_length; unfold k; cbn; lia)) as Hk1.
  rewrite app_nth2 in Hk1 by (unfold k; lia). replace (k - List.length (w_sizes w))%nat with 0%nat in Hk1 by (unfold k; lia).
  cbn [nth] in Hk1. destruct (s k) as [|t [|]] eqn:Hk; try discriminate Hk1. clear Hk1. cbn [scalar hd] in H.
  destruct (Reqb t 0) eqn:Et; [discriminate H|]. apply Reqb_false in Et.
  assert (Ht : 0 < t).
  { cbn [map snd] in Hfc. rewrite !Forall_cons_iff' in Hfc. destruct Hfc as [_ [_ [H3 _]]].
    rewrite (sat_ineq1 s (par_values w) (EScalar 0) (EVar k) 0 t) in H3; [lra|reflexivity|exact Hk]. }
  pose proof (Hm m Em) as Hml.
  apply (sharpe_cons_iff w o u m r l1 l2 l3 l4 l5 X s t Hl Hu Hn Hml Hone Hkn S9 Hfs Hk Ht) in Hfc.
  fold v in Hfc. set (x := scaled v (/ t) s) in *. destruct Hfc as [Hadm Hex].
  assert (Hpos : 0 < excess m r (x v)) by nra.
  unfold bind, modify, output, get, lift_res in H. subst o2. cbn [e_base put_weights set_base set_opt b_weights make_output_weights] in H.
  exists x, (map (fun a => round16 (a / t)) (s v)).
  assert (Hxv : x v = map (fun a => a / t) (s v)).
  { unfold x, scaled. rewrite Nat.eqb_refl. apply map_ext. intros. unfold Rdiv. ring. }
  inversion H; subst w' o' d. clear H. rewrite S4. 
  split; [reflexivity|]. split.
  { rewrite Hxv. rewrite <- (map_map (fun a => a / t) round16). apply round16_rounded. }
  split; [cbn [b_tickers]; rewrite S5; reflexivity|]. split; [exact Hadm|]. split; [exact Hpos|].
  intros s' Hadm' Hpos'. fold v in Hpos'. set (e' := excess m r (s' v)) in *.
  set (t' := / e'). assert (Ht' : 0 < t') by (apply Rinv_0_lt_compat; exact Hpos').
  set (s1 := fun i => if Nat.eqb i k then [t'] else s' i).
  set (s2 := scaled v t' s1).
  assert (Hv : (v < k)%nat) by (apply nth_error_Some; rewrite Hn; discriminate).
  assert (Evk : Nat.eqb v k = false) by (apply Nat.eqb_neq; lia).
  assert (Ekv : Nat.eqb k v = false) by (apply Nat.eqb_neq; lia).
  assert (H2k : s2 k = [t']) by (unfold s2, scaled, s1; rewrite Ekv, Nat.eqb_refl; reflexivity).
  assert (H2v : s2 v = vscale t' (s' v)) by (unfold s2, scaled, s1; rewrite Nat.eqb_refl, Evk; reflexivity).
  assert (Hw2 : well_sized (w_sizes w ++ [1%nat]) s2).
  { intros j Hj. unfold s2. rewrite scaled_length. unfold s1. destruct (Nat.eqb j k) eqn:Ejk.
    - apply Nat.eqb_eq in Ejk. subst j. rewrite app_nth2 by (unfold k; lia).
      replace (k - List.length (w_sizes w))%nat with 0%nat by (unfold k; lia). reflexivity.
    - apply Nat.eqb_neq in Ejk. rewrite app_length in Hj. cbn [List.length] in Hj. fold k in Hj.
      rewrite app_nth1 by (fold k; lia). destruct Hadm' as [Hw' _]. apply Hw'. fold k. lia. }
  assert (Hag : forall j, j <> k -> scaled v (/ t') s2 j = s' j).
  { intros j Hj. assert (Ej : Nat.eqb j k = false) by (apply Nat.eqb_neq; exact Hj).
    unfold s2, scaled, s1. destruct (Nat.eqb j v) eqn:Ejv; rewrite Ej; [|reflexivity].
    rewrite map_map. rewrite <- (map_id (s' j)) at 2. apply map_ext. intros. field. lra. }
  assert (Hadm2 : admissible w o u (e_lb o) (e_ub o) 1 (scaled v (/ t') s2)).
  { destruct Hadm' as [A1 [A2 [A3 A4]]]. fold v in A2, A3. split; [|split; [|split]].
    - intros j Hj. fold k in Hj. rewrite Hag by lia. apply A1. exact Hj.
    - fold v. rewrite Hag by lia. exact A2.
    - fold v. rewrite Hag by lia. exact A3.
    - rewrite Forall_forall in A4, Hkn |- *. intros ic Hic. apply (sat_agree s'); [|apply A4; exact Hic].
      intros j Hj. symmetry. apply Hag. specialize (Hkn ic Hic). unfold known_vars in Hkn. rewrite Forall_forall in Hkn.
      specialize (Hkn j Hj). lia. }
  assert (Hf2 : feasible (w_sizes w ++ [1%nat]) (par_values w) (map snd (
     (l1, CEq (EDot (map (fun x => x - r) m) (EVar v)) (EScalar 1)) ::
     (l2, CEq (ESum (EVar v)) (EVar k)) :: (l3, CIneq (EScalar 0) (EVar k)) ::
     (l4, CIneq (EMul (EConst (finite_vals (e_lb o))) (EVar k)) (EIndex (finite_ix (e_lb o)) (EVar v))) ::
     (l5, CIneq (EIndex (finite_ix (e_ub o)) (EVar v)) (EMul (EConst (finite_vals (e_ub o))) (EVar k))) :: X)) s2).
  { split; [exact Hw2|]. apply (sharpe_cons_iff w o u m r l1 l2 l3 l4 l5 X s2 t' Hl Hu Hn Hml Hone Hkn S9 Hw2 H2k Ht').
    split; [exact Hadm2|]. fold v. rewrite Hag by lia. fold e'. unfold t'. field. lra. }
  specialize (Hbest s2 Hf2). rewrite !(evals_add_all _ _ _ _ (scalar_quad _ _) Ha) in Hbest. rewrite !evals_quad, H2v, qform_scale in Hbest.
  assert (Hsv' : s v = vscale t (x v)).
  { rewrite Hxv. unfold vscale. rewrite map_map. rewrite <- (map_id (s v)) at 1. apply map_ext. intros. field. lra. }
  rewrite Hsv', qform_scale in Hbest.
  unfold per_excess. fold v. fold e'. set (e1 := excess m r (x v)) in *.
  assert (Et1 : t = / e1). { apply (Rmult_eq_reg_l e1); [|lra]. rewrite Hex. field. lra. }
  rewrite (penalty_agree s (scaled v (/ e1) x)) in Hbest.
  2:{ intros e _ j _. rewrite <- Et1. unfold x. symmetry. apply scaled_inv. lra. }
  rewrite (penalty_agree s2 (scaled v (/ e') s')) in Hbest.
  2:{ intros e He j Hj. rewrite Forall_forall in Hadd. pose proof (Hadd e He) as Hk1. unfold known_terms in Hk1. rewrite Forall_forall in Hk1.
      specialize (Hk1 j Hj). fold k in Hk1. unfold s2, s1, scaled. destruct (Nat.eqb j k) eqn:Ejk; [apply Nat.eqb_eq in Ejk; lia|]. reflexivity. }
  replace (qform (e_cov o) (x v) / (e1 * e1)) with (t * t * qform (e_cov o) (x v)) by (rewrite Et1; field; lra).
  replace (qform (e_cov o) (s' v) / (e' * e')) with (t' * t' * qform (e_cov o) (s' v)) by (unfold t'; field; lra).
  exact Hbest.
Qed.

Lemma sharpe_added_found : forall sv w o u m rf r s, exact_solver sv -> complete_solver sv -> open_ef w o u ->
  Forall (known_terms (List.length (w_sizes w))) (e_add o) ->
  Forall (fun ic => constant_on_one_side (e_w o) (snd ic)) u ->
  Forall (fun ic => known_vars (List.length (w_sizes w)) (snd ic)) u ->
  Forall (fun b => b <> None) (e_lb o) -> Forall (fun b => b <> None) (e_ub o) ->
  e_mu o = Some m -> target_of rf = Some r -> Exists (fun a => r < a) m ->
  admissible w o u (e_lb o) (e_ub o) 1 s -> 0 < excess m r (s (e_w o)) ->
  (forall s', admissible w o u (e_lb o) (e_ub o) 1 s' -> 0 < excess m r (s' (e_w o)) ->
      per_excess w o m r s <= per_excess w o m r s') ->
  exists w' o' d, max_sharpe sv rf w o = (w', o', Ok d).
Proof.
  intros sv w o u m rf r s' Hex Hsv Hop Hadd Hone Hkn Fl Fu Em Er Hmx Hadm' Hpos' Hbest.
  pose proof Hop as [Ho [[i0 [j0 Hc]] [Hl [Hu [Hn [Hq [Hm [Ha [Has Hus]]]]]]]]].
  assert (exists mx, list_max m = Some mx /\ r < mx) as [mx [Emx Hlt]].
  { destruct (list_max m) as [mx|] eqn:E.
    - exists mx. split; [reflexivity|]. apply Exists_exists in Hmx. destruct Hmx as [a [Ha1 Ha2]]. pose proof (list_max_ge _ _ _ E Ha1). lra.
    - destruct m; [inversion Hmx|discriminate E]. }
  assert (Htr : Forall (fun ic => transformable (List.length (w_sizes w)) (snd ic)) u).
  { eapply Forall_impl; [|exact Hone]. intros ic Hic. eapply one_side_transformable. exact Hic. }
  destruct (max_sharpe_run sv w o u m rf r mx Hop Em Er Emx Hlt Htr)
    as [w1 [o1 [i [X [l1 [l2 [l3 [l4 [l5 [E [S1 [S2 [S3 [S4 [S5 [S6 [S7 [S8 S9]]]]]]]]]]]]]]]]]].
  set (k := List.length (w_sizes w)) in *. set (v := e_w o) in *. pose proof (Hm m Em) as Hml.
  assert (Hv : (v < k)%nat) by (apply nth_error_Some; rewrite Hn; discriminate).
  assert (Evk : Nat.eqb v k = false) by (apply Nat.eqb_neq; lia).
  assert (Ekv : Nat.eqb k v = false) by (apply Nat.eqb_neq; lia).
  set (e' := excess m r (s' v)) in *.
  set (t' := / e'). assert (Ht' : 0 < t') by (apply Rinv_0_lt_compat; exact Hpos').
  set (s1 := fun i => if Nat.eqb i k then [t'] else s' i). set (s2 := scaled v t' s1).
  assert (H2k : s2 k = [t']) by (unfold s2, scaled, s1; rewrite Ekv, Nat.eqb_refl; reflexivity).
  assert (H2v : s2 v = vscale t' (s' v)) by (unfold s2, scaled, s1; rewrite Nat.eqb_refl, Evk; reflexivity).
  assert (Hw2 : well_sized (w_sizes w ++ [1%nat]) s2).
  { intros j Hj. unfold s2. rewrite scaled_length. unfold s1. destruct (Nat.eqb j k) eqn:Ejk.
    - apply Nat.eqb_eq in Ejk. subst j. rewrite app_nth2 by (unfold k; lia).
      replace (k - List.length (w_sizes w))%nat with 0%nat by (unfold k; lia). reflexivity.
    - apply Nat.eqb_neq in Ejk. rewrite app_length in Hj. cbn [List.length] in Hj. fold k in Hj.
      rewrite app_nth1 by (fold k; lia). destruct Hadm' as [Hw' _]. apply Hw'. fold k. lia. }
  assert (Hag : forall j, j <> k -> scaled v (/ t') s2 j = s' j).
  { intros j Hj. assert (Ej : Nat.eqb j k = false) by (apply Nat.eqb_neq; exact Hj).
    unfold s2, scaled, s1. destruct (Nat.eqb j v) eqn:Ejv; rewrite Ej; [|reflexivity].
    rewrite map_map. rewrite <- (map_id (s' j)) at 2. apply map_ext. intros. field. lra. }
  assert (Hadm2 : admissible w o u (e_lb o) (e_ub o) 1 (scaled v (/ t') s2)).
  { destruct Hadm' as [A1 [A2 [A3 A4]]]. fold v in A2, A3. split; [|split; [|split]].
    - intros j Hj. fold k in Hj. rewrite Hag by lia. apply A1. exact Hj.
    - fold v. rewrite Hag by lia. exact A2.
    - fold v. rewrite Hag by lia. exact A3.
    - rewrite Forall_forall in A4, Hkn |- *. intros ic Hic. apply (sat_agree s'); [|apply A4; exact Hic].
      intros j Hj. symmetry. apply Hag. specialize (Hkn ic Hic). unfold known_vars in Hkn. rewrite Forall_forall in Hkn.
      specialize (Hkn j Hj). lia. }
  (* every feasible point has k > 0 *)
  assert (Hkpos : forall s3, feasible (w_sizes w1) (par_values w1) (map snd (e_cons o1)) s3 -> exists t3, s3 k = [t3] /\ 0 < t3).
  { rewrite S1, S2, S8. intros s3 [Hfs Hfc].
    pose proof (Hfs k ltac:(rewrite app_length; unfold k; cbn; lia)) as Hk1.
    rewrite app_nth2 in Hk1 by (unfold k; lia). replace (k - List.length (w_sizes w))%nat with 0%nat in Hk1 by (unfold k; lia).
    cbn [nth] in Hk1. destruct (s3 k) as [|t3 [|]] eqn:Hk; try discriminate Hk1. exists t3. split; [reflexivity|].
    cbn [map snd] in Hfc. rewrite !Forall_cons_iff' in Hfc. destruct Hfc as [H1 [_ [H3 [H4 [H5 _]]]]].
    rewrite (sat_ineq1 s3 (par_values w) (EScalar 0) (EVar k) 0 t3) in H3; [|reflexivity|exact Hk].
    destruct (Rle_lt_or_eq_dec 0 t3 H3) as [|E0]; [assumption|exfalso]. subst t3.
    assert (Lv : List.length (s3 v) = e_n o).
    { pose proof (Hfs v ltac:(rewrite app_length; fold k; lia)) as Q. rewrite app_nth1 in Q by (fold k; lia). rewrite Q. apply nth_error_nth. exact Hn. }
    assert (G4 : sat s3 (par_values w) (lower_con (nilled (e_lb o)) v)).
    { cbn [sat eval] in H4. rewrite Hk, bop_mult_const in H4. unfold lower_con. cbn [sat eval]. rewrite finite_vals_nilled, finite_ix_nilled. exact H4. }
    assert (G5 : sat s3 (par_values w) (upper_con (nilled (e_ub o)) v)).
    { cbn [sat eval] in H5. rewrite Hk, bop_mult_const in H5. unfold upper_con. cbn [sat eval]. rewrite finite_vals_nilled, finite_ix_nilled. exact H5. }
    rewrite sat_lower in G4 by (unfold nilled; rewrite map_length; congruence). rewrite sat_upper in G5 by (unfold nilled; rewrite map_length; congruence).
    rewrite (sat_eq1 s3 (par_values w) (EDot _ _) (EScalar 1) (inner (map (fun y => y - r) m) (s3 v)) 1) in H1;
      [|cbn [eval]; rewrite dot_inner; reflexivity|reflexivity].
    rewrite (zero_weights (e_lb o) (e_ub o) (s3 v) Fl G4 Fu G5) in H1. lra. }
  assert (Hopt : optimal (w_sizes w1) (par_values w1) (add_all (EQuad (e_cov o) (EVar v)) (e_add o)) (map snd (e_cons o1)) s2).
  { split.
    - rewrite S1, S2, S8. split; [exact Hw2|].
      apply (sharpe_cons_iff w o u m r l1 l2 l3 l4 l5 X s2 t' Hl Hu Hn Hml Hone Hkn S9 Hw2 H2k Ht').
      split; [exact Hadm2|]. fold v. rewrite Hag by lia. fold e'. unfold t'. field. lra.
    - intros s3 Hf3. destruct (Hkpos s3 Hf3) as [t3 [Hk3 Ht3]]. rewrite S1, S2, S8 in Hf3. destruct Hf3 as [Hfs Hfc].
      apply (sharpe_cons_iff w o u m r l1 l2 l3 l4 l5 X s3 t3 Hl Hu Hn Hml Hone Hkn S9 Hfs Hk3 Ht3) in Hfc.
      fold v in Hfc. set (x := scaled v (/ t3) s3) in *. destruct Hfc as [Hadm Hex3].
      fold v in Hpos'. fold e' in Hpos'. set (e1 := excess m r (x v)) in *.
      assert (He1 : 0 < e1) by nra. assert (Et1 : t3 = / e1) by (apply (Rmult_eq_reg_l e1); [rewrite Hex3; field; lra|lra]).
      specialize (Hbest x Hadm He1). unfold per_excess in Hbest. fold v in Hbest. fold e' e1 in Hbest.
      assert (Hsv' : s3 v = vscale t3 (x v)).
      { unfold x, scaled. rewrite Nat.eqb_refl. unfold vscale. rewrite map_map. rewrite <- (map_id (s3 v)) at 1. apply map_ext. intros. field. lra. }
      rewrite S2, !(evals_add_all _ _ _ _ (scalar_quad _ _) Ha).
      rewrite !evals_quad, H2v, Hsv', !qform_scale.
      rewrite (penalty_agree s3 (scaled v (/ e1) x)).
      2:{ intros e _ j _. rewrite <- Et1. unfold x. symmetry. apply scaled_inv. lra. }
      rewrite (penalty_agree s2 (scaled v (/ e') s')).
      2:{ intros e He j Hj. rewrite Forall_forall in Hadd. pose proof (Hadd e He) as Hk1. unfold known_terms in Hk1. rewrite Forall_forall in Hk1.
          specialize (Hk1 j Hj). fold k in Hk1. unfold s2, s1, scaled. destruct (Nat.eqb j k) eqn:Ejk; [apply Nat.eqb_eq in Ejk; lia|]. reflexivity. }
      replace (t3 * t3 * qform (e_cov o) (x v)) with (qform (e_cov o) (x v) / (e1 * e1)) by (rewrite Et1; field; lra).
      replace (t' * t' * qform (e_cov o) (s' v)) with (qform (e_cov o) (s' v) / (e' * e')) by (unfold t'; field; lra).
      exact Hbest. }
  destruct (Hsv _ _ _ _ _ Hopt) as [s3 [val V]].
  destruct (Hex _ _ _ _ _ _ V) as [[Hf3 _] _]. destruct (Hkpos s3 Hf3) as [t3 [Hk3 Ht3]].
  rewrite E. unfold bind at 1. unfold solve_opt, bind, get. rewrite S7, S3. unfold modify, ret, world_get. cbn [p_obj p_cons snd]. rewrite V.
  cbn [fst]. cbv zeta. rewrite Hk3. cbn [scalar hd]. rewrite (proj2 (Reqb_false t3 0)) by lra.
  unfold output, get, lift_res, bind. cbn [e_base put_weights set_base set_opt b_weights make_output_weights]. eexists _, _, _. reflexivity.
Qed.

(** ** Objectives that behave like a variance *)
Lemma penalty_scaled : forall v t s ps l, 0 < t -> Forall (variance_like v) l ->
  penalty (scaled v t s) ps l = t * t * penalty s ps l /\ 0 <= penalty s ps l.
Proof.
  intros v t s ps l Ht H. induction H as [|e l He _ IH]; unfold penalty in *; cbn [map total]; [lra|].
  destruct (He t s ps Ht) as [E1 E2]. rewrite E1. destruct IH as [-> I2]. split; [ring|lra].
Qed.
Lemma per_excess_variance : forall w o m r s, Forall (variance_like (e_w o)) (e_add o) -> 0 < excess m r (s (e_w o)) ->
  per_excess w o m r s = total_risk w o s / (excess m r (s (e_w o)) * excess m r (s (e_w o))).
Proof.
  intros w o m r s H Hg. unfold per_excess, total_risk. set (g := excess m r (s (e_w o))) in *.
  destruct (penalty_scaled (e_w o) (/ g) s (par_values w) (e_add o) (Rinv_0_lt_compat g Hg) H) as [-> _].
  field. lra.
Qed.
Lemma ratio_order : forall g1 g2 q1 q2, 0 < g1 -> 0 < g2 -> 0 <= q1 -> 0 <= q2 ->
  q1 / (g1 * g1) <= q2 / (g2 * g2) <-> g2 * sqrt q1 <= g1 * sqrt q2.
Proof.
  intros g1 g2 q1 q2 H1 H2 Q1 Q2. pose proof (sqrt_pos q1) as P1. pose proof (sqrt_pos q2) as P2.
  assert (Hg : 0 < g1 * g1 * g2 * g2) by (repeat apply Rmult_lt_0_compat; assumption).
  assert (HA : q1 / (g1 * g1) <= q2 / (g2 * g2) <-> g2 * g2 * q1 <= g1 * g1 * q2).
  { replace (g2 * g2 * q1) with (g1 * g1 * g2 * g2 * (q1 / (g1 * g1))) by (field; lra).
    replace (g1 * g1 * q2) with (g1 * g1 * g2 * g2 * (q2 / (g2 * g2))) by (field; lra).
    split; intros H; [apply Rmult_le_compat_l; lra|apply Rmult_le_reg_l in H; lra]. }
  rewrite HA. split; intros H.
  - apply Rsqr_incr_0_var; [|apply Rmult_le_pos; lra]. rewrite !Rsqr_mult, !Rsqr_sqrt by assumption. unfold Rsqr. lra.
  - apply Rsqr_incr_1 in H; [|apply Rmult_le_pos; lra|apply Rmult_le_pos; lra].
    rewrite !Rsqr_mult, !Rsqr_sqrt in H by assumption. unfold Rsqr in H. lra.
Qed.
Lemma total_risk_nonneg : forall w o u lb ub sum s, open_ef w o u -> psd (e_n o) (e_cov o) -> Forall (variance_like (e_w o)) (e_add o) ->
  admissible w o u lb ub sum s -> 0 <= total_risk w o s.
Proof.
  intros w o u lb ub sum s [_ [_ [_ [_ [Hn _]]]]] [_ Hp] Hv [A _]. unfold total_risk.
  pose proof (Hp _ (well_sized_w w o s A Hn)). destruct (penalty_scaled (e_w o) 1 s (par_values w) (e_add o) ltac:(lra) Hv). lra.
Qed.
Lemma max_sharpe_regularised : forall sv w o u rf w' o' d, exact_solver sv -> open_ef w o u ->
  Forall (known_terms (List.length (w_sizes w))) (e_add o) -> Forall (variance_like (e_w o)) (e_add o) ->
  psd (e_n o) (e_cov o) ->
  Forall (fun ic => constant_on_one_side (e_w o) (snd ic)) u ->
  Forall (fun ic => known_vars (List.length (w_sizes w)) (snd ic)) u ->
  max_sharpe sv rf w o = (w', o', Ok d) ->
  exists m r, e_mu o = Some m /\ target_of rf = Some r /\
  exists s rr, e_weights o' = Some rr /\ Forall2 (rounded 16) (s (e_w o)) rr /\
    d = dict_of_pairs (combine (b_tickers (e_base o)) rr) /\
    admissible w o u (e_lb o) (e_ub o) 1 s /\
    0 < excess m r (s (e_w o)) /\
    forall s', admissible w o u (e_lb o) (e_ub o) 1 s' ->
      excess m r (s' (e_w o)) * sqrt (total_risk w o s) <= excess m r (s (e_w o)) * sqrt (total_risk w o s').
Proof.
  intros sv w o u rf w' o' d Hsv Hop Hk Hv Hpsd Hone Hkn H.
  destruct (max_sharpe_added sv w o u rf w' o' d Hsv Hop Hk Hone Hkn H) as [m [r [Em [Er [s [rr [H1 [H2 [H3 [H4 [H5 H6]]]]]]]]]]].
  exists m, r. split; [exact Em|]. split; [exact Er|]. exists s, rr. repeat (split; [assumption|]). intros s' Ha.
  pose proof (sqrt_pos (total_risk w o s)) as P1. pose proof (sqrt_pos (total_risk w o s')) as P2.
  destruct (Rle_dec (excess m r (s' (e_w o))) 0) as [Hneg|Hpos]; [nra|]. apply Rnot_le_lt in Hpos.
  specialize (H6 s' Ha Hpos). rewrite !per_excess_variance in H6 by assumption.
  apply ratio_order in H6; try assumption; eapply total_risk_nonneg; eassumption.
Qed.
Lemma sharpe_regularised_found : forall sv w o u m rf r s, exact_solver sv -> complete_solver sv -> open_ef w o u ->
  Forall (known_terms (List.length (w_sizes w))) (e_add o) -> Forall (variance_like (e_w o)) (e_add o) ->
  psd (e_n o) (e_cov o) ->
  Forall (fun ic => constant_on_one_side (e_w o) (snd ic)) u ->
  Forall (fun ic => known_vars (List.length (w_sizes w)) (snd ic)) u ->
  Forall (fun b => b <> None) (e_lb o) -> Forall (fun b => b <> None) (e_ub o) ->
  e_mu o = Some m -> target_of rf = Some r -> Exists (fun a => r < a) m ->
  admissible w o u (e_lb o) (e_ub o) 1 s -> 0 < excess m r (s (e_w o)) ->
  (forall s', admissible w o u (e_lb o) (e_ub o) 1 s' ->
      excess m r (s' (e_w o)) * sqrt (total_risk w o s) <= excess m r (s (e_w o)) * sqrt (total_risk w o s')) ->
  exists w' o' d, max_sharpe sv rf w o = (w', o', Ok d).
Proof.
  intros sv w o u m rf r s Hex Hc Hop Hk Hv Hpsd Hone Hkn Fl Fu Em Er Hmx Hadm Hpos Hbest.
  apply (sharpe_added_found sv w o u m rf r s Hex Hc Hop Hk Hone Hkn Fl Fu Em Er Hmx Hadm Hpos).
  intros s' Ha Hp. rewrite !per_excess_variance by assumption.
  apply ratio_order; try assumption; try (eapply total_risk_nonneg; eassumption). apply Hbest. exact Ha.
Qed.

(** the library's own L2 penalty is of this kind *)
Lemma evals_l2 : forall s ps v g, evals s ps (L2_reg_e (EVar v) g) = g * inner (s v) (s v).
Proof.
  intros. unfold evals, L2_reg_e. cbn [eval EScalar bop map scalar hd]. rewrite vsum_total. f_equal.
  induction (s v) as [|a l IH]; [reflexivity|]. cbn [map total]. rewrite IH. cbn [inner]. ring.
Qed.
Lemma l2_variance_like : forall v g, 0 <= g -> variance_like v (L2_reg_e (EVar v) g).
Proof.
  intros v g Hg t s ps Ht. rewrite !evals_l2. unfold scaled. rewrite Nat.eqb_refl. fold (vscale t (s v)).
  rewrite inner_scale_l, inner_scale_r. split; [ring|]. apply Rmult_le_pos; [exact Hg|].
  induction (s v) as [|a l IH]; [cbn; lra|]. cbn [inner]. nra.
Qed.
Lemma l2_known : forall v g k, (v < k)%nat -> known_terms k (L2_reg_e (EVar v) g).
Proof. intros. repeat constructor. assumption. Qed.
Lemma penalty_l2 : forall s ps v gs, penalty s ps (map (fun g => L2_reg_e (EVar v) g) gs) = total gs * inner (s v) (s v).
Proof.
  intros s ps v gs. unfold penalty. rewrite map_map. induction gs as [|g gs IH]; cbn [map total]; [ring|]. rewrite IH, evals_l2. ring.
Qed.
Lemma max_sharpe_l2 : forall sv w o u gs rf w' o' d, exact_solver sv -> open_ef w o u ->
  e_add o = map (fun g => L2_reg_e (EVar (e_w o)) g) gs -> Forall (fun g => 0 <= g) gs ->
  psd (e_n o) (e_cov o) ->
  Forall (fun ic => constant_on_one_side (e_w o) (snd ic)) u ->
  Forall (fun ic => known_vars (List.length (w_sizes w)) (snd ic)) u ->
  max_sharpe sv rf w o = (w', o', Ok d) ->
  exists m r, e_mu o = Some m /\ target_of rf = Some r /\
  exists s rr, e_weights o' = Some rr /\ Forall2 (rounded 16) (s (e_w o)) rr /\
    d = dict_of_pairs (combine (b_tickers (e_base o)) rr) /\
    admissible w o u (e_lb o) (e_ub o) 1 s /\
    0 < excess m r (s (e_w o)) /\
    forall s', admissible w o u (e_lb o) (e_ub o) 1 s' ->
      excess m r (s' (e_w o)) * sqrt (qform (e_cov o) (s (e_w o)) + total gs * inner (s (e_w o)) (s (e_w o)))
      <= excess m r (s (e_w o)) * sqrt (qform (e_cov o) (s' (e_w o)) + total gs * inner (s' (e_w o)) (s' (e_w o))).
Proof.
  intros sv w o u gs rf w' o' d Hsv Hop Hadd Hgs Hpsd Hone Hkn H.
  assert (Hv : (e_w o < List.length (w_sizes w))%nat).
  { destruct Hop as [_ [_ [_ [_ [Hn _]]]]]. apply nth_error_Some. rewrite Hn. discriminate. }
  assert (T : forall s, total_risk w o s = qform (e_cov o) (s (e_w o)) + total gs * inner (s (e_w o)) (s (e_w o))).
  { intros s. unfold total_risk. rewrite Hadd, penalty_l2. reflexivity. }
  destruct (max_sharpe_regularised sv w o u rf w' o' d Hsv Hop) as [m [r [Em [Er [s [rr [H1 [H2 [H3 [H4 [H5 H6]]]]]]]]]]]; try assumption.
  - rewrite Hadd. apply Forall_map. rewrite Forall_forall. intros g _. apply l2_known. exact Hv.
  - rewrite Hadd. apply Forall_map. eapply Forall_impl; [|exact Hgs]. intros g Hg. apply l2_variance_like. exact Hg.
  - exists m, r. split; [exact Em|]. split; [exact Er|]. exists s, rr. repeat (split; [assumption|]).
    intros s' Ha. rewrite <- !T. apply H6. exact Ha.
Qed.
