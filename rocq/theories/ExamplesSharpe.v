(** * Concrete cases for C126 *)
From Coq Require Import ZArith List String Bool Reals Lra Lia.
From Verif Require Import Num Py RBase PyLemmas MBase MConvex MEF SLin SBase SConvex Sums Mat PBase PConvex PEF PEF2 PEF3 PEF4 PEFW PDownW SSharpe PSharpe PSharpeW PropertiesSharpe.
Import ListNotations.
Local Open Scope R_scope.

(** two assets of expected returns 1 and 2, uncorrelated; the user adds an L2 penalty of weight 3 *)
Definition oL : ef := set_add [L2_reg_e (EVar 0) 3] (two_ef [1; 2] 0 1).
Example ex_c126_call : add_objective (fun v => L2_reg_e (EVar v) 3) two_world (two_ef [1; 2] 0 1) = (two_world, oL, Ok tt).
Proof. reflexivity. Qed.
Lemma oL_open : open_ef two_world oL [].
Proof.
  unfold open_ef, e_n. cbn [oL set_add two_ef e_opt e_cons e_lb e_ub e_w e_base b_tickers e_cov e_mu e_add two_world w_sizes w_params].
  split; [reflexivity|]. split; [eexists; eexists; reflexivity|]. split; [reflexivity|]. split; [reflexivity|].
  split; [reflexivity|]. split; [split; [reflexivity|repeat constructor]|]. split; [intros m E; inversion E; reflexivity|].
  repeat constructor.
Qed.
Lemma oL_known : Forall (known_terms (List.length (w_sizes two_world))) (e_add oL).
Proof. repeat constructor. Qed.
Lemma oL_variance : Forall (variance_like (e_w oL)) (e_add oL).
Proof. constructor; [|constructor]. apply l2_variance_like. lra. Qed.
Lemma oL_adm : forall s, admissible two_world oL [] (e_lb oL) (e_ub oL) 1 s <->
  exists x y, s 0%nat = [x; y] /\ 0 <= x <= 1 /\ 0 <= y <= 1 /\ x + y = 1.
Proof. intros s. apply (two_admissible 1 2 0 1 1 s). Qed.
Lemma oL_risk : forall s x y, s 0%nat = [x; y] -> total_risk two_world oL s = 4 * (x * x + y * y).
Proof.
  intros s x y E. unfold total_risk. change (e_w oL) with 0%nat. change (e_cov oL) with [[1; 0]; [0; 1]]. destruct id2_psd as [_ [_ Hq]].
  rewrite E, Hq. unfold penalty. change (e_add oL) with [L2_reg_e (EVar 0) 3]. cbn [map total]. rewrite evals_l2, E. cbn [inner]. ring.
Qed.
Example ex_c126_regularised_found : exists w' o' d, max_sharpe best_solver (NFloat 0) two_world oL = (w', o', Ok d).
Proof.
  refine (c126_regularised_found _ _ _ [] [1; 2] (NFloat 0) 0 (fun _ => [1/3; 2/3]) best_solver_exact best_solver_complete oL_open oL_known oL_variance
    (proj1 id2_psd) ltac:(constructor) ltac:(constructor) ltac:(repeat constructor; discriminate) ltac:(repeat constructor; discriminate) eq_refl eq_refl _ _ _ _).
  - left. lra.
  - apply oL_adm. exists (1/3), (2/3). split; [reflexivity|lra].
  - unfold excess. change (0 < inner [1; 2] [1/3; 2/3] - 0). rewrite qret_two. lra.
  - intros s Ha. apply oL_adm in Ha. destruct Ha as [a [b [E [H1 [H2 H3]]]]].
    rewrite (oL_risk s a b E), (oL_risk (fun _ => [1/3; 2/3]) (1/3) (2/3) eq_refl). unfold excess. change (e_w oL) with 0%nat. rewrite E, !qret_two.
    apply Rsqr_incr_0_var; [|apply Rmult_le_pos; [lra|apply sqrt_pos]]. rewrite !Rsqr_mult, !Rsqr_sqrt by nra. unfold Rsqr.
    pose proof (Rle_0_sqr (2 * a - b)) as Q. unfold Rsqr in Q. nra.
Qed.
(** the hypotheses of the statements about the answer hold for it *)
Example ex_c126_l2 : exists w' o' d s rr, max_sharpe best_solver (NFloat 0) two_world oL = (w', o', Ok d) /\
  e_weights o' = Some rr /\ Forall2 (rounded 16) (s 0%nat) rr /\
  forall x y, 0 <= x <= 1 -> 0 <= y <= 1 -> x + y = 1 ->
    (x + 2 * y) * sqrt (qform [[1; 0]; [0; 1]] (s 0%nat) + 3 * inner (s 0%nat) (s 0%nat))
    <= inner [1; 2] (s 0%nat) * sqrt (4 * (x * x + y * y)).
Proof.
  destruct ex_c126_regularised_found as [w' [o' [d H]]].
  destruct (c126_l2 best_solver two_world oL [] [3] (NFloat 0) w' o' d best_solver_exact oL_open eq_refl ltac:(repeat constructor; lra) (proj1 id2_psd)
    ltac:(constructor) ltac:(constructor) H) as [m [r [Em [Er [s [rr [H1 [H2 [H3 [H4 [H5 H6]]]]]]]]]]].
  cbn in Em, Er. inversion Em; subst m. inversion Er; subst r. exists w', o', d, s, rr. split; [exact H|]. split; [exact H1|]. split; [exact H2|].
  intros x y Hx Hy Hs. specialize (H6 (fun _ => [x; y])). change (e_w oL) with 0%nat in H6. change (e_cov oL) with [[1; 0]; [0; 1]] in H6.
  assert (Ha : admissible two_world oL [] (e_lb oL) (e_ub oL) 1 (fun _ => [x; y])) by (apply oL_adm; exists x, y; auto).
  specialize (H6 Ha). unfold excess in H6. rewrite !Rminus_0_r in H6. destruct id2_psd as [_ [_ Hq]].
  rewrite qret_two, Hq in H6. replace (total [3]) with 3 in H6 by (cbn; ring).
  replace (x * x + y * y + 3 * inner [x; y] [x; y]) with (4 * (x * x + y * y)) in H6 by (cbn [inner]; ring).
  replace (1 * x + 2 * y) with (x + 2 * y) in H6 by ring. exact H6.
Qed.
Example ex_c126_regularised : exists w' o' d, max_sharpe best_solver (NFloat 0) two_world oL = (w', o', Ok d) /\
  exists s rr, e_weights o' = Some rr /\ Forall2 (rounded 16) (s 0%nat) rr /\ 0 < excess [1; 2] 0 (s 0%nat).
Proof.
  destruct ex_c126_regularised_found as [w' [o' [d H]]]. exists w', o', d. split; [exact H|].
  destruct (c126_regularised best_solver two_world oL [] (NFloat 0) w' o' d best_solver_exact oL_open oL_known oL_variance (proj1 id2_psd)
    ltac:(constructor) ltac:(constructor) H) as [m [r [Em [Er [s [rr [H1 [H2 [_ [_ [H5 _]]]]]]]]]]].
  cbn in Em, Er. inversion Em; subst m. inversion Er; subst r. exists s, rr. auto.
Qed.
(** and with a transaction cost *)
Example ex_c126_added : exists w' o' d, max_sharpe best_solver (NFloat 0) two_world cost_ef = (w', o', Ok d) /\
  exists s, per_excess two_world cost_ef [1; 2] 0 s <= per_excess two_world cost_ef [1; 2] 0 (fun _ => [1/3; 2/3]).
Proof.
  destruct (c126_cost_refuted best_solver best_solver_exact best_solver_complete) as [o [w' [o' [d [x [y [_ [A [_ [H _]]]]]]]]]].
  cbv [add_objective bind get modify ret] in A. cbn [two_ef e_opt e_add e_w app] in A. inversion A; subst o. fold cost_ef in H.
  exists w', o', d. split; [exact H|].
  destruct (c126_added best_solver two_world cost_ef [] (NFloat 0) w' o' d best_solver_exact cost_open ltac:(repeat constructor)
    ltac:(constructor) ltac:(constructor) H) as [m [r [Em [Er [s [rr [H1 [H2 [_ [_ [_ H6]]]]]]]]]]].
  cbn in Em, Er. inversion Em; subst m. inversion Er; subst r. exists s. apply H6.
  - apply cost_admissible. exists (1/3), (2/3). split; [reflexivity|lra].
  - unfold excess. change (0 < inner [1; 2] [1/3; 2/3] - 0). rewrite qret_two. lra.
Qed.
