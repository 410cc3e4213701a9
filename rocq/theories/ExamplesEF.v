(** * Concrete cases for the theorems in PropertiesEF.v

    Two assets with expected returns 0.2 and 0.1, covariance the identity, long only, and the exact
    solver [best_solver]: every optimizer answers, so the hypotheses of the theorems are met. *)
From Coq Require Import ZArith List String Bool Reals Lra Lia.
From Verif Require Import Num Py RBase PyLemmas MBase MConvex MEF SLin SBase SConvex Sums Mat PBase PConvex PEF PEF2 PEF3 PEF4 PEFW PropertiesEF.
Import ListNotations.
Local Open Scope R_scope.

Definition o2 : ef := two_ef [1/5; 1/10] 0 1.
Definition pinv_id (m : list (list R)) : list (list R) := m.
Lemma o2_open : open_ef two_world o2 []. Proof. apply two_open. Qed.

(** C18, C19: three assets with different bounds; a sector constraint *)
Example ex_c18 : exists w1 o,
  ef_init (MIn (MuArray [1/5; 1/10; 0])) (CIn (CovArray [[1;0;0];[0;1;0];[0;0;1]]))
    (BSeq true [[Some 0; Some 0; Some (-1)]; [Some 1; Some (1/2); Some 1]]) empty_world = (w1, Ok o) /\
  e_lb o = [Some 0; Some 0; Some (-1)] /\ e_ub o = [Some 1; Some (1/2); Some 1].
Proof. eexists _, _. split; [reflexivity|]. split; reflexivity. Qed.
Example ex_c18_theorem :
  ef_init (MIn (MuArray [1/5; 1/10; 0])) (CIn (CovArray [[1;0;0];[0;1;0];[0;0;1]]))
    (BSeq true [[Some 0; Some 0; Some (-1)]; [Some 1; Some (1/2); Some 1]]) empty_world =
  ef_init (MIn (MuArray [1/5; 1/10; 0])) (CIn (CovArray [[1;0;0];[0;1;0];[0;0;1]]))
    (BSeq true [[Some 0; Some 1]; [Some 0; Some (1/2)]; [Some (-1); Some 1]]) empty_world.
Proof.
  refine (proj1 (c18_formats_agree (MuArray [1/5; 1/10; 0]) (CovArray [[1;0;0];[0;1;0];[0;0;1]]) empty_world
    [(0, 1); (0, 1/2); (-1, 1)] _ _ _ _)); cbn; try lia; try reflexivity.
  all: split; reflexivity.
Qed.
Example ex_c18_two : init_shape_ok (MuArray [1/5; 1/10]) (CovArray [[1;0];[0;1]]) /\
  List.length (init_tickers (MuArray [1/5; 1/10]) (CovArray [[1;0];[0;1]])) = 2%nat.
Proof. split; [split; reflexivity|reflexivity]. Qed.
Example ex_c19 : exists w' new,
  add_sector_constraints [(LInt 0, "tech"%string); (LInt 1, "utility"%string)] [("utility"%string, 1/10)] [("tech"%string, 1/2)]
    two_world o2 = (w', set_cons (e_cons o2 ++ new) o2, Ok tt) /\ List.length new = 2%nat.
Proof. eexists _, _. split; [reflexivity|reflexivity]. Qed.

(** optima *)
Lemma minvar_opt : forall lo hi extra ps x y, lo <= x <= hi -> lo <= y <= hi ->
  Forall (sat (fun _ => [x; y]) ps) extra ->
  (forall a b, lo <= a <= hi -> lo <= b <= hi -> forall s, s 0%nat = [a; b] -> Forall (sat s ps) extra -> x * x + y * y <= a * a + b * b) ->
  optimal [2%nat] ps (EQuad [[1; 0]; [0; 1]] (EVar 0)) (lower_con [Some lo; Some lo] 0 :: upper_con [Some hi; Some hi] 0 :: extra) (fun _ => [x; y]).
Proof.
  intros lo hi extra ps x y Hx Hy Hs Hb. destruct id2_psd as [_ [_ Hq]]. split.
  - apply two_feasible. exists x, y. auto.
  - intros s H. apply two_feasible in H. destruct H as [a [b [E [Ha [Hb' Hs']]]]]. rewrite !evals_quad, E, !Hq. eapply Hb; eassumption.
Qed.
Lemma half_sum : forall a b : R, a + b = 1 -> 1/2 * (1/2) + 1/2 * (1/2) <= a * a + b * b.
Proof. intros a b H. assert (E : b = 1 - a) by lra. subst b. pose proof (Rle_0_sqr (a - 1/2)) as Hs. unfold Rsqr in Hs. lra. Qed.

(** C25: min_volatility answers *)
Example ex_c25 : exists w' o' d, min_volatility best_solver two_world o2 = (w', o', Ok d).
Proof.
  destruct (minvol_first best_solver two_world o2 [] o2_open) as [w' [o' E]].
  assert (Hopt : optimal [2%nat] [] (EQuad [[1; 0]; [0; 1]] (EVar 0)) (lower_con [Some 0; Some 0] 0 :: upper_con [Some 1; Some 1] 0 :: [CEq (ESum (EVar 0)) (EScalar 1)])
    (fun _ => [1/2; 1/2])).
  { apply minvar_opt; try lra; [constructor; [apply sum_is_sat; cbn; lra|constructor]|].
    intros a b _ _ s Es H. rewrite Forall_cons_iff', sum_is_sat, Es in H. cbn in H. apply half_sum. lra. }
  destruct (best_solver_answers _ _ _ _ _ Hopt) as [s [Es _]].
  exists w', o'. cbv [add_all o2 two_ef e_cov e_w e_add fold_left two_world w_sizes par_values w_params map e_cons snd app e_base b_tickers] in E |- *.
  rewrite Es in E. eexists. exact E.
Qed.

(** C20: and then nothing can be added *)
Example ex_c20 : exists w1 o1, run best_solver (fun q => (nlp_x0 q, true)) pinv_id KMinVol two_world o2 = (w1, o1, Ok tt).
Proof. destruct ex_c25 as [w' [o' [d H]]]. exists w', o'. cbn [run]. unfold drop, bind. rewrite H. reflexivity. Qed.

(** C26 *)
Lemma ret_opt : forall extra ps, Forall (sat (fun _ => [1; 0]) ps) extra ->
  (forall s, Forall (sat s ps) extra -> total (s 0%nat) = 1) ->
  optimal [2%nat] ps (portfolio_return_e (EVar 0) [1/5; 1/10] true) (lower_con [Some 0; Some 0] 0 :: upper_con [Some 1; Some 1] 0 :: extra) (fun _ => [1; 0]).
Proof.
  intros extra ps H0 H1. split.
  - apply two_feasible. exists 1, 0. split; [reflexivity|]. split; [lra|]. split; [lra|exact H0].
  - intros s H. apply two_feasible in H. destruct H as [a [b [E [Ha [Hb Hs]]]]]. apply H1 in Hs. rewrite E in Hs. cbn in Hs.
    rewrite !evals_ret, E. cbn [sign_of]. rewrite !qret_two. lra.
Qed.
Lemma id_not_below : below_global_min pinv_id [[1; 0]; [0; 1]] 1 = false.
Proof.
  unfold below_global_min, pinv_id.
  assert (E : vsum (map vsum [[1; 0]; [0; 1]]) = 2).
  { rewrite vsum_total. cbn [map]. rewrite !vsum_total. cbn. lra. }
  rewrite E. assert (E1 : Reqb 2 0 = false) by (apply Reqb_false; lra). assert (E2 : Rltb 2 0 = false) by (apply Rltb_false; lra).
  rewrite E1, E2. apply Rltb_false. apply Rle_trans with (sqrt 1); [apply sqrt_le_1_alt; lra|rewrite sqrt_1; lra].
Qed.
Lemma sat_var_par : forall s ps p t a b v, nth p ps 0 = t -> s v = [a; b] ->
  (sat s ps (CIneq (EQuad [[1; 0]; [0; 1]] (EVar v)) (EPar p)) <-> a * a + b * b <= t).
Proof.
  intros s ps p t a b v Hp Hx. destruct id2_psd as [_ [_ Hq]].
  rewrite (sat_ineq1 s ps _ _ (qform [[1; 0]; [0; 1]] [a; b]) t); [rewrite Hq; reflexivity| |cbn [eval]; rewrite Hp; reflexivity].
  cbn [eval]. rewrite Hx, quad_qform. reflexivity.
Qed.
Example ex_c26 : exists w' o' d, efficient_risk best_solver pinv_id (NFloat 1) false two_world o2 = (w', o', Ok d).
Proof.
  destruct (risk_first best_solver two_world o2 [] [1/5; 1/10] o2_open eq_refl pinv_id false (NFloat 1) 1
     (two_unused _ _ _ _ _) eq_refl ltac:(lra) id_not_below) as [w' [o' E]].
  assert (Hopt : optimal [2%nat] [1 * 1] (portfolio_return_e (EVar 0) [1/5; 1/10] true)
     (lower_con [Some 0; Some 0] 0 :: upper_con [Some 1; Some 1] 0 ::
       [CIneq (EQuad [[1; 0]; [0; 1]] (EVar 0)) (EPar 0); CEq (ESum (EVar 0)) (EScalar 1)]) (fun _ => [1; 0])).
  { apply ret_opt.
    - constructor; [apply (sat_var_par _ _ 0 (1 * 1) 1 0); [reflexivity|reflexivity|lra]|]. constructor; [apply sum_is_sat; cbn; lra|constructor].
    - intros s H. rewrite !Forall_cons_iff', sum_is_sat in H. tauto. }
  destruct (best_solver_answers _ _ _ _ _ Hopt) as [s [Es _]].
  exists w', o'. change (risk_e o2 [1/5; 1/10]) with (portfolio_return_e (EVar 0) [1/5; 1/10] true) in E.
  change (risk_cs two_world o2 [] false) with (lower_con [Some 0; Some 0] 0 :: upper_con [Some 1; Some 1] 0 ::
       [CIneq (EQuad [[1; 0]; [0; 1]] (EVar 0)) (EPar 0); CEq (ESum (EVar 0)) (EScalar 1)]) in E.
  change (w_sizes two_world) with [2%nat] in E. change (par_values two_world ++ [1 * 1]) with [1 * 1] in E.
  rewrite Es in E. eexists. exact E.
Qed.
(** C21, C23: re-optimisation after other targets, and after min_volatility *)
Example ex_c21 : forall ts w1 o1, after (fun t => efficient_risk best_solver pinv_id t false) ts two_world o2 = (w1, o1) ->
  exists w' o' d, efficient_risk best_solver pinv_id (NFloat 1) false w1 o1 = (w', o', Ok d).
Proof.
  intros ts w1 o1 H. destruct ex_c26 as [wf [of [d E]]].
  destruct (efficient_risk best_solver pinv_id (NFloat 1) false w1 o1) as [[wh oh] rh] eqn:Eh.
  destruct (c21_efficient_risk best_solver two_world o2 [] [1/5; 1/10] o2_open eq_refl pinv_id false ts w1 o1 (NFloat 1)
    wf of (Ok d) wh oh rh (two_unused _ _ _ _ _) H E Eh) as [-> _]. eauto.
Qed.
Example ex_c23 : exists w1 o1 d w2 o2', efficient_risk best_solver pinv_id (NFloat 1) false two_world o2 = (w1, o1, Ok d) /\
  min_volatility best_solver w1 o1 = (w2, o2', Err InstantiationError) /\
  exists w3 o3, efficient_risk best_solver pinv_id (NFloat 1) false w2 o2' = (w3, o3, Err InstantiationError).
Proof.
  destruct ex_c26 as [w1 [o1 [d E]]]. destruct (min_volatility best_solver w1 o1) as [[w2 o2'] r] eqn:E2.
  destruct (efficient_risk best_solver pinv_id (NFloat 1) false w2 o2') as [[w3 o3] r'] eqn:E3.
  destruct (c23_risk_then_minvol best_solver two_world o2 [] [1/5; 1/10] o2_open eq_refl pinv_id false (NFloat 1) w1 o1 d w2 o2' r
    (NFloat 1) w3 o3 r' (two_unused _ _ _ _ _) E E2 E3) as [-> [_ [Hr [Hv _]]]].
  exists w1, o1, d, w2, o2'. split; [exact E|]. split; [exact E2|]. destruct Hr as [Hr | Hr]; subst r'; [eauto|].
  destruct (Hv eq_refl) as [w' [o' Hx]]. rewrite E in Hx. discriminate Hx.
Qed.
(** C24: a solver that fails after weights have been set *)
Example ex_c24 : let o := put_weights [1/2; 1/2] o2 in
  exists w' o', run (fun _ _ _ _ => ABad (fun _ => None)) (fun q => (nlp_x0 q, true)) pinv_id KMinVol two_world o
    = (w', o', Err OptimizationError) /\ e_weights o' = Some [1/2; 1/2].
Proof. eexists _, _. split; reflexivity. Qed.
(** C27 *)
Example ex_c27 : psd (e_n o2) (e_cov o2) /\ symmetric (e_n o2) (e_cov o2) /\
  right_inverse (e_n o2) (e_cov o2) (pinv_id (e_cov o2)) /\ 1/2 * (1/2) < 1 / total (map total (pinv_id (e_cov o2))).
Proof.
  destruct id2_psd as [H1 [H2 _]]. split; [exact H1|]. split; [exact H2|]. split.
  - split; [apply H1|]. intros x Hx. destruct x as [|a [|b [|]]]; try discriminate Hx. cbn. f_equal; [ring|]. f_equal. ring.
  - cbn. lra.
Qed.
(** C28 *)
Lemma o2_maxret : exists v, maxret_result best_solver two_world o2 [1/5; 1/10] = Ok v /\ 1/5 <= v.
Proof.
  assert (Hopt : optimal [2%nat] [] (portfolio_return_e (EVar 0) [1/5; 1/10] true)
     (lower_con [Some 0; Some 0] 0 :: upper_con [Some 1; Some 1] 0 :: [CEq (ESum (EVar 0)) (EScalar 1)]) (fun _ => [1; 0])).
  { apply ret_opt; [constructor; [apply sum_is_sat; cbn; lra|constructor]|]. intros s H. rewrite Forall_cons_iff', sum_is_sat in H. tauto. }
  destruct (best_solver_answers _ _ _ _ _ Hopt) as [s [Es [_ Hb]]].
  exists (- evals s [] (portfolio_return_e (EVar 0) [1/5; 1/10] true)). split.
  - unfold maxret_result, maxret_answer. change (w_sizes two_world) with [2%nat]. change (par_values two_world) with (@nil R).
    change (map snd (e_cons o2) ++ [CEq (ESum (EVar (e_w o2))) (EScalar 1)]) with
      (lower_con [Some 0; Some 0] 0 :: upper_con [Some 1; Some 1] 0 :: [CEq (ESum (EVar 0)) (EScalar 1)]).
    change (e_w o2) with 0%nat. rewrite Es. reflexivity.
  - specialize (Hb _ (proj1 Hopt)). rewrite (evals_ret (fun _ => [1; 0])) in Hb. cbn [sign_of] in Hb. rewrite qret_two in Hb. lra.
Qed.
Example ex_c28 : exists w' o' d, efficient_return best_solver (NFloat (3/20)) false two_world o2 = (w', o', Ok d).
Proof.
  destruct o2_maxret as [v [Ev Hv]].
  destruct (return_first best_solver two_world o2 [] [1/5; 1/10] o2_open eq_refl false (3/20) v (two_unused _ _ _ _ _) eq_refl Ev ltac:(lra))
    as [w' [o' E]].
  assert (Hopt : optimal [2%nat] [3/20] (EQuad [[1; 0]; [0; 1]] (EVar 0)) (lower_con [Some 0; Some 0] 0 :: upper_con [Some 1; Some 1] 0 ::
     [CIneq (EPar 0) (portfolio_return_e (EVar 0) [1/5; 1/10] false); CEq (ESum (EVar 0)) (EScalar 1)])
    (fun _ => [1/2; 1/2])).
  { apply minvar_opt; try lra.
    - constructor; [apply (sat_par_ret _ _ _ (3/20) _ _ [1/2; 1/2]); [reflexivity|reflexivity|rewrite qret_two; lra]|].
      constructor; [apply sum_is_sat; cbn; lra|constructor].
    - intros a b _ _ s Es H. rewrite !Forall_cons_iff', sum_is_sat, Es in H. destruct H as [_ [H _]]. cbn in H. apply half_sum. lra. }
  destruct (best_solver_answers _ _ _ _ _ Hopt) as [s [Es _]].
  exists w', o'. change (ret_e o2) with (EQuad [[1; 0]; [0; 1]] (EVar 0)) in E.
  change (ret_cs two_world o2 [] [1/5; 1/10] false) with (lower_con [Some 0; Some 0] 0 :: upper_con [Some 1; Some 1] 0 ::
     [CIneq (EPar 0) (portfolio_return_e (EVar 0) [1/5; 1/10] false); CEq (ESum (EVar 0)) (EScalar 1)]) in E.
  change (w_sizes two_world) with [2%nat] in E. change (par_values two_world ++ [3/20]) with [3/20] in E.
  rewrite Es in E. eexists. exact E.
Qed.
(** C29 *)
Example ex_c29 : exists w' o' d, max_quadratic_utility best_solver 1 false two_world o2 = (w', o', Ok d).
Proof.
  destruct (util_first best_solver two_world o2 [] [1/5; 1/10] o2_open eq_refl false 1 (two_unused _ _ _ _ _) ltac:(lra)) as [w' [o' E]].
  assert (Hopt : optimal [2%nat] [1] (quadratic_utility_e (EVar 0) [1/5; 1/10] [[1; 0]; [0; 1]] 0 true)
     (lower_con [Some 0; Some 0] 0 :: upper_con [Some 1; Some 1] 0 :: [CEq (ESum (EVar 0)) (EScalar 1)]) (fun _ => [11/20; 9/20])).
  { destruct id2_psd as [_ [_ Hq]]. split.
    - apply two_feasible. exists (11/20), (9/20). split; [reflexivity|]. split; [lra|]. split; [lra|].
      constructor; [apply sum_is_sat; cbn; lra|constructor].
    - intros s H. apply two_feasible in H. destruct H as [a [b [Ea [Ha [Hb H]]]]]. rewrite Forall_cons_iff', sum_is_sat, Ea in H. cbn in H.
      rewrite !evals_utility, Ea. cbn [sign_of nth]. rewrite !qret_two, !Hq. assert (Eb : b = 1 - a) by lra. subst b.
      pose proof (Rle_0_sqr (a - 11/20)) as Hs. unfold Rsqr in Hs. lra. }
  destruct (best_solver_answers _ _ _ _ _ Hopt) as [s [Es _]].
  exists w', o'. change (util_e two_world o2 [1/5; 1/10]) with (quadratic_utility_e (EVar 0) [1/5; 1/10] [[1; 0]; [0; 1]] 0 true) in E.
  change (util_cs o2 [] false) with (lower_con [Some 0; Some 0] 0 :: upper_con [Some 1; Some 1] 0 :: [CEq (ESum (EVar 0)) (EScalar 1)]) in E.
  change (w_sizes two_world) with [2%nat] in E. change (par_values two_world ++ [1]) with [1] in E.
  rewrite Es in E. eexists. exact E.
Qed.
(** C30: with the constraint w[0] <= 0.3 *)
Definition c30c (v : nat) : con := CIneq (EIndex [0%nat] (EVar v)) (EConst [3/10]).
Example ex_c30 : let o := two_c (1/5) (1/10) c30c in
  open_ef two_c_world o [(2%nat, c30c 0)] /\ constant_on_one_side (e_w o) (c30c 0) /\ known_vars 1 (c30c 0) /\
  exists w' o' d, max_sharpe best_solver (NFloat 0) two_c_world o = (w', o', Ok d).
Proof.
  split; [apply two_c_open; reflexivity|]. split; [apply hom_index|]. split; [repeat constructor|].
  set (c' := CIneq (EIndex [0%nat] (EVar 0)) (EMul (EConst [3/10]) (EVar 1))).
  assert (Hsat : forall s x y k, s 0%nat = [x; y] -> s 1%nat = [k] -> (sat s [] c' <-> x <= 3/10 * k)).
  { intros s x y k E0 E1. unfold c'. rewrite (sat_ineq1 s [] _ _ x (3/10 * k)); [reflexivity| |].
    - cbn. rewrite E0. reflexivity.
    - cbn. rewrite E1. reflexivity. }
  destruct id2_psd as [_ [_ Hq]].
  assert (Hopt : optimal [2%nat; 1%nat] [] (EQuad [[1; 0]; [0; 1]] (EVar 0)) (scaled_cons (1/5) (1/10) c')
     (fun i => match i with 0%nat => [30/13; 70/13] | _ => [100/13] end)).
  { split.
    - apply scaled_feasible. exists (30/13), (70/13), (100/13). repeat split; try lra. apply (Hsat _ (30/13) (70/13) (100/13) eq_refl eq_refl). lra.
    - intros s Hs. apply scaled_feasible in Hs. destruct Hs as [x [y [k [E0 [E1 [H1 [H2 [H3 [H4 [H5 H6]]]]]]]]]].
      apply (Hsat s x y k E0 E1) in H6. rewrite !evals_quad, E0, !Hq. assert (Ey : y = 10 - 2 * x) by lra. subst y.
      assert (Hx : x <= 30/13) by lra. nra. }
  destruct (best_solver_answers _ _ _ _ _ Hopt) as [s [Es [Hf _]]].
  pose proof (two_sharpe best_solver (1/5) (1/10) c30c c' ltac:(lra) eq_refl eq_refl best_solver_exact) as H. rewrite Es in H.
  destruct H as [x' [y' [k' [w' [o' [d [_ [_ [F _]]]]]]]]]; [|eauto].
  apply scaled_feasible in Hf. destruct Hf as [x [y [k [_ [E1 [H1 [H2 [H3 [H4 [H5 _]]]]]]]]]]. rewrite E1. intros Hk. injection Hk as Hk. lra.
Qed.
(** C32: long only becomes [-1, 1]; the given bounds are kept otherwise *)
Example ex_c32 : bounds_in_force true o2 [Some (-1); Some (-1)] [Some 1; Some 1] /\
  bounds_in_force true (two_ef [1/5; 1/10] (-1/2) 1) [Some (-1/2); Some (-1/2)] [Some 1; Some 1].
Proof.
  split.
  - left. split; [reflexivity|]. split; [|split; reflexivity]. repeat constructor; lra.
  - right. split; [|split; reflexivity]. right. intros H. inversion H; subst. lra.
Qed.
(** C33 *)
Example ex_c33 : (forall v, scalar_expr (ESumSq (EVar v))) /\
  exists w' o' d, convex_objective best_solver (fun v => ESumSq (EVar v)) true two_world o2 = (w', o', Ok d).
Proof.
  split; [intros v s ps; reflexivity|].
  assert (Hev : forall s ps a b, s 0%nat = [a; b] -> evals s ps (ESumSq (EVar 0)) = a * a + b * b).
  { intros s ps a b E. unfold evals. cbn [eval]. rewrite E, vsum_total. cbn. ring. }
  assert (Hopt : optimal [2%nat] [] (ESumSq (EVar 0)) (lower_con [Some 0; Some 0] 0 :: upper_con [Some 1; Some 1] 0 :: [CEq (ESum (EVar 0)) (EScalar 1)]) (fun _ => [1/2; 1/2])).
  { split.
    - apply two_feasible. exists (1/2), (1/2). split; [reflexivity|]. split; [lra|]. split; [lra|]. constructor; [apply sum_is_sat; cbn; lra|constructor].
    - intros s H. apply two_feasible in H. destruct H as [a [b [Ea [Ha [Hb H]]]]]. rewrite Forall_cons_iff', sum_is_sat, Ea in H. cbn in H.
      rewrite (Hev _ _ (1/2) (1/2) eq_refl), (Hev s [] a b Ea). apply half_sum. lra. }
  destruct (best_solver_answers _ _ _ _ _ Hopt) as [s [Es _]].
  unfold convex_objective. unfold bind at 1, get. unfold bind at 1. rewrite set_objective_full_run.
  unfold bind at 1. cbn [when]. unfold sum_is. rewrite add_constraint_open by reflexivity.
  set (w1 := mkWorld _ _ _ _). set (o1 := set_cons _ _).
  destruct (solve_output_run best_solver w1 o1 2 (ESumSq (EVar 0)) (e_cons o1) eq_refl eq_refl (or_introl eq_refl)) as [w' [o' [E _]]].
  exists w', o'. change (w_sizes w1) with [2%nat] in E. change (par_values w1) with (@nil R) in E.
  change (map snd (e_cons o1)) with (lower_con [Some 0; Some 0] 0 :: upper_con [Some 1; Some 1] 0 :: [CEq (ESum (EVar 0)) (EScalar 1)]) in E.
  rewrite Es in E. eexists. exact E.
Qed.
