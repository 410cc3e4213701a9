(** * Concrete cases for the theorems in PropertiesStatics.v *)
From Coq Require Import ZArith List String Bool Reals Lra Lia.
From Verif Require Import Num Py RBase PBase MBase MConvex MEF MDown SLin SBase SHRP SObj SConvex SDown SPrep SExist SCurve SStatics PObj PConvex PEF PEF2 PEF3 PEF4 PEFW PDown2 PDown5 PDownW PPerm2 PExist4 PropertiesFound PropertiesPrep PropertiesExist PropertiesDown PropertiesCurve PropertiesStatics ExamplesFound ExamplesPrep ExamplesDown ExamplesExist ExamplesCurve.
Import ListNotations.
Local Open Scope R_scope.

(** two uncorrelated assets; the second has half of the return of the first *)
Definition l2 (g : R) : preparation := AddObjective (fun v => L2_reg_e (EVar v) g).
Definition cap (l : R) : preparation := AddConstraint (fun v => CIneq (EIndex [0%nat] (EVar v)) (EConst [l])).
Lemma l2_ok : forall g, sensible (e_w oF) (List.length (w_params two_world)) (l2 g) /\ regular (e_n oF) (e_w oF) (par_values empty_world) (l2 g).
Proof. intros g. split; [split; [intros s ps; reflexivity|constructor]|]. apply c106_expressions; repeat split. Qed.
Lemma cap_ok : forall l, sensible (e_w oF) (List.length (w_params two_world)) (cap l) /\ regular (e_n oF) (e_w oF) (par_values empty_world) (cap l).
Proof. intros l. split; [constructor|]. apply c106_constraints; repeat split. Qed.
Lemma two_succeeds : forall steps ra, 0 < ra -> Forall (sensible (e_w oF) (List.length (w_params two_world))) steps -> Forall (regular (e_n oF) (e_w oF) (par_values empty_world)) steps ->
  Forall (demanded (b_tickers (e_base oF)) (e_w oF) (fun _ => [2/5; 3/5]) (par_values empty_world)) steps ->
  succeeds (with_steps steps (max_quadratic_utility best_solver ra false) two_world oF).
Proof.
  intros steps ra Hra Hs Hr Hd. destruct (c102_prepared steps two_world oF [] (two_open _ _ _ _) Hs) as (w2 & o2 & u2 & E & _). unfold with_steps. rewrite E.
  destruct (proj2 (c106_utility _ _ _ _ _ _ steps w2 o2 ex_c102_init id2_square eq_refl Hs E (proj1 oF_bounded) (proj2 oF_bounded) Hr
    best_solver [1/5; 1/10] ra false _ _ best_solver_exact best_solver_complete eq_refl ltac:(constructor) Hra oF_force)) as (w3 & o3 & d & R); [|rewrite R; exact I].
  exists (fun _ => [2/5; 3/5]). split; [|split; [|split; [cbn; lra|exact Hd]]].
  - intros v Hv. change (w_sizes two_world) with [2%nat] in *. destruct v as [|v]; [reflexivity|cbn in Hv; lia].
  - split; repeat constructor; cbn; lra.
Qed.
Lemma no_names : free_names empty_world. Proof. constructor. Qed.
(** more L2 weight spreads the portfolio and costs utility *)
Example ex_c114_weight : let run g := with_steps [l2 g] (max_quadratic_utility best_solver (1/10) false) two_world oF in
  exists x x', reports (run 1) x /\ reports (run 2) x' /\ inner x' x' <= inner x x /\
    1/10 / 2 * qform [[1; 0]; [0; 1]] x - inner [1/5; 1/10] x <= 1/10 / 2 * qform [[1; 0]; [0; 1]] x' - inner [1/5; 1/10] x'.
Proof.
  intros run. assert (K : forall g, succeeds (run g)).
  { intros g. apply two_succeeds; [lra|constructor; [apply l2_ok|constructor]|constructor; [apply l2_ok|constructor]|constructor; [exact I|constructor]]. }
  destruct (c114_weight _ _ _ _ _ _ [1/5; 1/10] ex_c102_init id2_square eq_refl eq_refl no_names _ _ (AimUtility (1/10) false) [] best_solver (fun v => v) best_solver (fun v => v) 1 2
    (proj1 (c114_terms 2)) ltac:(constructor) best_exact best_exact ltac:(lra) (K 1) (K 2)) as (x & x' & H1 & H2 & H3 & H4).
  exists x, x'. split; [exact H1|]. split; [exact H2|]. split; [exact H3|]. apply H4; [constructor|lra].
Qed.
(** a limit of 2/5 on the first asset costs utility *)
Example ex_c114_constraint : let run l := with_steps l (max_quadratic_utility best_solver (1/10) false) two_world oF in
  exists x x', reports (run []) x /\ reports (run [cap (2/5)]) x' /\
    1/10 / 2 * qform [[1; 0]; [0; 1]] x - inner [1/5; 1/10] x <= 1/10 / 2 * qform [[1; 0]; [0; 1]] x' - inner [1/5; 1/10] x'.
Proof.
  intros run. apply (c114_constraint _ _ _ _ _ _ [1/5; 1/10] ex_c102_init id2_square eq_refl eq_refl no_names (AimUtility (1/10) false) (cap (2/5)) [] best_solver (fun v => v) best_solver (fun v => v)).
  - constructor; [apply cap_ok|constructor].
  - constructor; [exact I|constructor].
  - exact best_exact.
  - exact best_exact.
  - apply two_succeeds; [lra|constructor|constructor|constructor].
  - apply two_succeeds; [lra|constructor; [apply cap_ok|constructor]|constructor; [apply cap_ok|constructor]|].
    constructor; [|constructor]. cbn [demanded cap]. apply (sat_ineq1 _ _ _ _ (2/5) (2/5)); try reflexivity. lra.
Qed.
Example ex_c114_aversion : let run ra := with_steps [] (max_quadratic_utility best_solver ra false) two_world oF in
  exists x x', reports (run (1/10)) x /\ reports (run 1) x' /\ qform [[1; 0]; [0; 1]] x' <= qform [[1; 0]; [0; 1]] x /\ inner [1/5; 1/10] x' <= inner [1/5; 1/10] x.
Proof.
  intros run. assert (K : forall ra, 0 < ra -> succeeds (run ra)) by (intros ra Hra; apply two_succeeds; [exact Hra|constructor|constructor|constructor]).
  destruct (c114_aversion _ _ _ _ _ _ [1/5; 1/10] ex_c102_init id2_square eq_refl eq_refl no_names (1/10) 1 false [] best_solver best_solver ltac:(constructor) best_exact best_exact ltac:(lra)
    (K (1/10) ltac:(lra)) (K 1 ltac:(lra))) as (x & x' & H1 & H2 & H3 & H4).
  exists x, x'. split; [exact H1|]. split; [exact H2|]. split; [exact H3|]. apply H4; [constructor|lra].
Qed.
(** rates of 0 and 15 percent *)
Example ex_c114_rate : let vol x := sqrt (qform [[1; 0]; [0; 1]] x) in
  exists x x', reports (max_sharpe best_solver (NFloat 0) two_world oF) x /\ reports (max_sharpe best_solver (NFloat (3/20)) two_world oF) x' /\ vol x <= vol x'.
Proof.
  destruct (c114_rate two_world oF [] [1/5; 1/10] (two_open _ _ _ _) eq_refl eq_refl id2_psd' ltac:(constructor) ltac:(constructor) best_solver best_solver 0 (3/20) best_exact best_exact ltac:(lra)) as (x & x' & H1 & H2 & H3 & _).
  - destruct ex_c30_found as (w' & o' & d & E). rewrite E. exact I.
  - destruct (proj1 (ex_c106_sharpe best_solver best_exact best_solver_complete)) as (w' & o' & d & E). rewrite E. exact I.
  - exists x, x'. auto.
Qed.
Lemma beta_0 : validate_beta 0 = Ok 0.
Proof. unfold validate_beta. rewrite (proj2 (Rleb_true 0 0)) by lra. rewrite (proj2 (Rltb_true 0 1)) by lra. reflexivity. Qed.
(** the plain mean (beta = 0) against the worse half *)
Example ex_c114_cvar : exists w1 o d w1' o' d', cvar_init (MIn (MuArray [1/5; 1/10])) (RTable 2 rows) 0 (BPair (Some 0) (Some 1)) empty_world = (w1, Ok (o, d)) /\
  cvar_init (MIn (MuArray [1/5; 1/10])) (RTable 2 rows) (1/2) (BPair (Some 0) (Some 1)) empty_world = (w1', Ok (o', d')) /\
  exists x x', reports (min_cvar best_solver d false w1 o) x /\ reports (min_cvar best_solver d' false w1' o') x' /\ cvar 0 (dropna rows) x <= cvar (1/2) (dropna rows) x'.
Proof.
  destruct ex_c106_cvar as (w1' & o' & d' & E' & T). destruct (T best_solver best_exact best_solver_complete) as ((w2 & o2 & x & R') & _). clear T.
  destruct (cvar_init (MIn (MuArray [1/5; 1/10])) (RTable 2 rows) 0 (BPair (Some 0) (Some 1)) empty_world) as [w1 [[o d]|e]] eqn:E; [|exfalso; revert E; unfold cvar_init; rewrite beta_0; discriminate].
  exists w1, o, d, w1', o', d'. split; [reflexivity|]. split; [exact E'|].
  apply (c114_cvar_level _ _ _ _ _ _ _ _ _ _ _ _ _ rows_good E E' ltac:(lra) best_solver best_solver false best_exact best_exact); [|rewrite R'; exact I].
  pose proof E as E0. unfold cvar_init in E0. rewrite beta_0 in E0. cbn in E0.
  assert (En : e_n o = 2%nat /\ e_lb o = [Some 0; Some 0] /\ e_ub o = [Some 1; Some 1]) by (injection E0 as _ <- _; repeat split). destruct En as (En & El & Eu).
  assert (Bl : bounded (e_lb o)) by (rewrite El; apply two_bounded). assert (Bu : bounded (e_ub o)) by (rewrite Eu; apply two_bounded).
  destruct (proj2 (c106_min_cvar _ _ _ _ _ _ _ _ _ rows_good E Bl Bu best_solver best_exact best_solver_complete false _ _ (or_intror (conj (or_introl eq_refl) (conj eq_refl eq_refl))))) as (w3 & o3 & y & R).
  - rewrite En, El, Eu. exact two_some.
  - rewrite R. exact I.
Qed.
Example ex_c114_cdar : exists w1 o d w1' o' d', cdar_init (MIn (MuArray [1/5; 1/10])) (RTable 2 rows) 0 (BPair (Some 0) (Some 1)) empty_world = (w1, Ok (o, d)) /\
  cdar_init (MIn (MuArray [1/5; 1/10])) (RTable 2 rows) (1/2) (BPair (Some 0) (Some 1)) empty_world = (w1', Ok (o', d')) /\
  exists x x', reports (min_cdar best_solver d false w1 o) x /\ reports (min_cdar best_solver d' false w1' o') x' /\ cdar 0 (dropna rows) x <= cdar (1/2) (dropna rows) x'.
Proof.
  destruct ex_c106_cdar as (w1' & o' & d' & E' & T). destruct (T best_solver best_exact best_solver_complete) as ((w2 & o2 & x & R') & _). clear T.
  destruct (cdar_init (MIn (MuArray [1/5; 1/10])) (RTable 2 rows) 0 (BPair (Some 0) (Some 1)) empty_world) as [w1 [[o d]|e]] eqn:E; [|exfalso; revert E; unfold cdar_init; rewrite beta_0; discriminate].
  exists w1, o, d, w1', o', d'. split; [reflexivity|]. split; [exact E'|].
  apply (c114_cdar_level _ _ _ _ _ _ _ _ _ _ _ _ _ rows_good E E' ltac:(lra) best_solver best_solver false best_exact best_exact); [|rewrite R'; exact I].
  pose proof E as E0. unfold cdar_init in E0. rewrite beta_0 in E0. cbn in E0.
  assert (En : e_n o = 2%nat /\ e_lb o = [Some 0; Some 0] /\ e_ub o = [Some 1; Some 1]) by (injection E0 as _ <- _; repeat split). destruct En as (En & El & Eu).
  assert (Bl : bounded (e_lb o)) by (rewrite El; apply two_bounded). assert (Bu : bounded (e_ub o)) by (rewrite Eu; apply two_bounded).
  destruct (proj2 (c106_min_cdar _ _ _ _ _ _ _ _ _ rows_good E Bl Bu best_solver best_exact best_solver_complete false _ _ (or_intror (conj (or_introl eq_refl) (conj eq_refl eq_refl))))) as (w3 & o3 & y & R).
  - rewrite En, El, Eu. exact two_some.
  - rewrite R. exact I.
Qed.
(** benchmarks of 0 and 5 percent *)
Example ex_c114_benchmark : exists w1 o d w1' o' d', semi_init (MIn (MuArray [1/5; 1/10])) (RTable 2 rows) 252 0 (BPair (Some 0) (Some 1)) empty_world = (w1, Ok (o, d)) /\
  semi_init (MIn (MuArray [1/5; 1/10])) (RTable 2 rows) 252 (1/20) (BPair (Some 0) (Some 1)) empty_world = (w1', Ok (o', d')) /\
  exists x x', reports (min_semivariance best_solver d false w1 o) x /\ reports (min_semivariance best_solver d' false w1' o') x' /\ semivariance (dropna rows) 0 x <= semivariance (dropna rows) (1/20) x'.
Proof.
  destruct ex_c106_semi as (w1 & o & d & E & T). destruct (T best_solver best_exact best_solver_complete) as ((w2 & o2 & x & R) & _). clear T.
  destruct (semi_init (MIn (MuArray [1/5; 1/10])) (RTable 2 rows) 252 (1/20) (BPair (Some 0) (Some 1)) empty_world) as [w1' [[o' d']|e]] eqn:E'; [|discriminate E'].
  exists w1, o, d, w1', o', d'. split; [exact E|]. split; [reflexivity|].
  apply (c114_benchmark _ _ _ _ _ _ _ _ _ _ _ _ _ _ rows_good E E' ltac:(lra) best_solver best_solver best_exact best_exact); [rewrite R; exact I|].
  pose proof E' as E0. cbn in E0.
  assert (En : e_n o' = 2%nat /\ e_lb o' = [Some 0; Some 0] /\ e_ub o' = [Some 1; Some 1]) by (injection E0 as _ <- _; repeat split). destruct En as (En & El & Eu).
  assert (Bl : bounded (e_lb o')) by (rewrite El; apply two_bounded). assert (Bu : bounded (e_ub o')) by (rewrite Eu; apply two_bounded).
  destruct (proj2 (c106_min_semivariance _ _ _ _ _ _ _ _ _ _ rows_good E' Bl Bu best_solver best_exact best_solver_complete false _ _ (or_intror (conj (or_introl eq_refl) (conj eq_refl eq_refl))))) as (w3 & o3 & y & R').
  - rewrite En, El, Eu. exact two_some.
  - rewrite R'. exact I.
Qed.
