(** * Concrete cases for the theorems in PropertiesDraw.v *)
From Coq Require Import ZArith List String Bool Reals Lra Lia.
From Verif Require Import Num Py RBase PyLemmas MBase MHRP MCLA MConvex MEF MDown MCalls MPlot MPlot2 MPlot3 SPlot SPlot3 PBase PConvex PEFW PPlot PPlot3 PDownW PropertiesObj ExamplesObj PropertiesDown ExamplesDown PropertiesDraw.
Import ListNotations.
Local Open Scope R_scope.

(** the two rejected risk aversions of [ex_c78_stale]: the point is drawn twice, both assets at risk 1, with their names, and the file is saved *)
Definition plain_io : io_args := mkIO (Some "frontier.png"%string) false 300.
Example ex_c103 : forall fuel inv ord sv, exists d,
  plot_efficient_frontier fuel inv ord sv (fun m => m) (OptEF o_plot) "utility" (Some [-1; -2]) 100 true true false plain_io two_world =
    (two_world, OptEF o_plot, Ok d) /\
  d_curve d = [(sqrt (1/2), Some (3/20)); (sqrt (1/2), Some (3/20))] /\ d_assets d = [(sqrt 1, 1/5); (sqrt 1, 1/10)] /\
  map fst (d_names d) = [LInt 0; LInt 1] /\ files (d_calls d) = [("frontier.png"%string, 300%Z)].
Proof.
  intros fuel inv ord sv.
  assert (E : plot_frontier sv (fun m => m) "utility" (Some [-1; -2]) 100 two_world o_plot = (two_world, o_plot, Ok [the_point; the_point]))
    by exact (ex_c78_stale sv).
  assert (A : ef_assets o_plot = Ok [(sqrt 1, 1/5); (sqrt 1, 1/10)]).
  { unfold ef_assets, asset_deviations, o_plot. cbn [put_weights set_base two_ef e_cov e_mu diagonal List.length seq map nth mapM]. rewrite !(proj2 (Rltb_false _ _)) by lra. reflexivity. }
  eexists. unfold plot_efficient_frontier. rewrite E. unfold draw_ef. rewrite A. cbn [rbind].
  split; [reflexivity|]. repeat split.
Qed.
(** a CVaR optimizer as constructed, and a target it can solve: the plot fails *)
Example ex_c103_tail : constructed (DCVaR cv2) o2 /\ forall fuel inv ord, exists w1 o1,
  plot_efficient_frontier fuel inv ord best_solver (fun m => m) (OptDown (DCVaR cv2) o2) "risk" (Some [1/10]) 100 true true false plain_io w_cv =
    (w1, OptDown (DCVaR cv2) o1, Err ValueError).
Proof.
  split; [eapply made_cvar; exact ex_c36_constructor|]. intros fuel inv ord. destruct ex_c37 as [wf [of [dd Ef]]]. exists wf, of.
  apply c103_tail_error; [discriminate|]. unfold attempt, g_methods. cbn [String.eqb Ascii.eqb Bool.eqb g_risk]. unfold drop, bind. rewrite Ef. reflexivity.
Qed.
(** a semivariance optimizer: one point is drawn, both assets at risk zero *)
Example ex_c103_semi : forall fuel inv ord, exists w1 o1 d,
  plot_efficient_frontier fuel inv ord best_solver (fun m => m) (OptDown (DSemi d34) o2) "risk" (Some [1/50]) 100 true false false plain_io two_world =
    (w1, OptDown (DSemi d34) o1, Ok d) /\ List.length (d_curve d) = 1%nat /\ d_assets d = [(0, 1/5); (0, 1/10)].
Proof.
  intros fuel inv ord. destruct ex_c34_risk as [wf [of [dd Ef]]].
  assert (A : attempt (g_methods best_solver (DSemi d34)) "risk" (1/50) two_world o2 = (wf, of, Ok tt)).
  { unfold attempt, g_methods. cbn [String.eqb Ascii.eqb Bool.eqb g_risk]. unfold drop, bind. rewrite Ef. reflexivity. }
  pose proof (sp_g_methods best_solver (DSemi d34) "risk" _ (1/50) eq_refl _ _ _ _ _ A) as [K1 [K2 K3]].
  destruct (semi2_ready (1/10) 0 1 (1/20, 1/10)) as [Hop Hr].
  destruct (c34_efficient_risk best_solver two_world o2 [] d34 (1/50) [1/5; 1/10] wf of dd Hop Hr best_solver_exact eq_refl (fresh_any _ _) ltac:(cbn; lra) Ef)
    as [_ Hpf].
  destruct (Hpf (2/100) _ ex_c34_rows) as [rt [dev [so [Hp _]]]].
  assert (L : plot_downside best_solver (DSemi d34) "risk" (Some [1/50]) two_world o2 = (wf, of, Ok [(Some rt, dev)])).
  { unfold plot_downside, bind, ret. cbn [plot_loop]. rewrite A. unfold g_point. rewrite Hp. reflexivity. }
  assert (S : ef_assets of = Ok [(0, 1/5); (0, 1/10)]).
  { unfold ef_assets. rewrite K1, K2. unfold asset_deviations. unfold diagonal; cbn [o2 semi2_ef init_ef cov_values mu_values e_cov e_mu List.length seq map nth mapM zeros repeat].
    rewrite !(proj2 (Rltb_false _ _)) by lra. cbn [rbind]. rewrite sqrt_0. reflexivity. }
  exists wf, of. eexists. unfold plot_efficient_frontier. rewrite L. unfold draw_ef. rewrite S. cbn [rbind]. split; [reflexivity|]. split; reflexivity.
Qed.
