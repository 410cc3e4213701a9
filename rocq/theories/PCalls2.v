(** * What the calls of MCalls.v and the parameters of a plot stand for (C95, C103) *)
From Coq Require Import ZArith List String Bool Reals Lra Lia.
From Verif Require Import Num Py MBase MCLA MConvex MEF MDown MCalls MPlot MPlot2 MPlot3 SLin SConvex SCalls SPlot SPlot3 PPlot PPlot2 PPlot3.
Import ListNotations.
Local Open Scope R_scope.

Lemma drop_effect : forall {X} (m : M ef X) w o, same_effect (drop m w o) (m w o).
Proof. intros X m w o. unfold drop, bind. destruct (m w o) as [[w1 o1] [x|e]]; split; cbn; auto. Qed.
Theorem g_run_is : forall sv ns w o,
  (forall k, same_effect (g_run sv ns k GMaxReturn w o) (max_return sv w o)) /\
  (forall k f b, same_effect (g_run sv ns k (GConvex f b) w o) (convex_objective sv f b w o)) /\
  (forall k f b cs g, same_effect (g_run sv ns k (GNonconvex f b cs g) w o) (nonconvex_objective ns f b cs g w o)) /\
  (forall k f, g_run sv ns k (GAddObjective f) w o = add_objective f w o) /\
  (forall k c, g_run sv ns k (GAddConstraint c) w o = add_constraint c w o) /\
  (forall k m l u, g_run sv ns k (GAddSector m l u) w o = add_sector_constraints m l u w o) /\
  (forall d ws, snd (fst (g_run sv ns (DSemi d) (GSetWeights ws) w o)) = set_base (fst (set_weights (e_base o) ws)) o /\
                snd (g_run sv ns (DSemi d) (GSetWeights ws) w o) = snd (set_weights (e_base o) ws)) /\
  (forall d mn, same_effect (g_run sv ns (DSemi d) (GMin mn) w o) (min_semivariance sv d mn w o)) /\
  (forall d mn, same_effect (g_run sv ns (DCVaR d) (GMin mn) w o) (min_cvar sv d mn w o)) /\
  (forall d mn, same_effect (g_run sv ns (DCDaR d) (GMin mn) w o) (min_cdar sv d mn w o)) /\
  (forall d ra mn, same_effect (g_run sv ns (DSemi d) (GUtility ra mn) w o) (semi_max_quadratic_utility sv d ra mn w o)) /\
  (forall d t mn, same_effect (g_run sv ns (DSemi d) (GRisk t mn) w o) (semi_efficient_risk sv d t mn w o)) /\
  (forall d t mn, same_effect (g_run sv ns (DCVaR d) (GRisk t mn) w o) (cvar_efficient_risk sv d t mn w o)) /\
  (forall d t mn, same_effect (g_run sv ns (DCDaR d) (GRisk t mn) w o) (cdar_efficient_risk sv d t mn w o)) /\
  (forall d t mn, same_effect (g_run sv ns (DSemi d) (GReturn t mn) w o) (semi_efficient_return sv d (NFloat t) mn w o)) /\
  (forall d t mn, same_effect (g_run sv ns (DCVaR d) (GReturn t mn) w o) (cvar_efficient_return sv d t mn w o)) /\
  (forall d t mn, same_effect (g_run sv ns (DCDaR d) (GReturn t mn) w o) (cdar_efficient_return sv d t mn w o)).
Proof.
  intros sv ns w o. repeat match goal with |- _ /\ _ => split end; intros; try (apply drop_effect); try reflexivity.
  unfold g_run, g_set_weights. destruct (set_weights (e_base o) ws). split; reflexivity.
Qed.
Theorem g_performance_is : forall rf w o,
  (forall d m s r, g_performance (DSemi d) rf w o = Ok (m, s, r) <-> exists v, s = Some v /\ semi_performance d o rf = Ok (m, v, r)) /\
  (forall d m s r, g_performance (DCVaR d) rf w o = Ok (m, s, r) <-> r = None /\ cvar_performance d w o = Ok (m, s)) /\
  (forall d m s r, g_performance (DCDaR d) rf w o = Ok (m, s, r) <-> r = None /\ cdar_performance d w o = Ok (m, s)).
Proof.
  intros rf w o. repeat split; unfold g_performance in *.
  - intros H. destruct (semi_performance d o rf) as [[[a b] c]|]; [|discriminate]. injection H as <- <- <-. eexists. split; reflexivity.
  - intros [v [-> H]]. rewrite H. reflexivity.
  - destruct (cvar_performance d w o) as [[a b]|]; [|discriminate]. injection H as <- <- <-. reflexivity.
  - destruct (cvar_performance d w o) as [[a b]|]; [|discriminate]. injection H as <- <- <-. reflexivity.
  - intros [-> H]. rewrite H. reflexivity.
  - destruct (cdar_performance d w o) as [[a b]|]; [|discriminate]. injection H as <- <- <-. reflexivity.
  - destruct (cdar_performance d w o) as [[a b]|]; [|discriminate]. injection H as <- <- <-. reflexivity.
  - intros [-> H]. rewrite H. reflexivity.
Qed.

Lemma name_cases : forall name, name <> "utility"%string -> name <> "risk"%string -> name <> "return"%string ->
  String.eqb name "utility" = false /\ String.eqb name "risk" = false /\ String.eqb name "return" = false.
Proof. intros. rewrite !String.eqb_neq. auto. Qed.
Theorem plot_parameters : forall sv pinv v w o,
  same_effect (attempt (ef_methods sv pinv) "utility" v w o) (max_quadratic_utility sv v false w o) /\
  same_effect (attempt (ef_methods sv pinv) "risk" v w o) (efficient_risk sv pinv (NFloat v) false w o) /\
  same_effect (attempt (ef_methods sv pinv) "return" v w o) (efficient_return sv (NFloat v) false w o) /\
  (forall name, name <> "utility"%string -> name <> "risk"%string -> name <> "return"%string ->
     attempt (ef_methods sv pinv) name v w o = (w, o, Err NotImplementedError)).
Proof.
  intros. repeat split; try (apply drop_effect). intros name A B C. unfold attempt, ef_methods. destruct (name_cases name A B C) as [-> [-> ->]]. reflexivity.
Qed.
Theorem plot_parameters_downside : forall sv ns k v w o,
  attempt (g_methods sv k) "utility" v w o = g_run sv ns k (GUtility v false) w o /\
  attempt (g_methods sv k) "risk" v w o = g_run sv ns k (GRisk v false) w o /\
  attempt (g_methods sv k) "return" v w o = g_run sv ns k (GReturn v false) w o /\
  (forall name, name <> "utility"%string -> name <> "risk"%string -> name <> "return"%string ->
     attempt (g_methods sv k) name v w o = (w, o, Err NotImplementedError)).
Proof.
  intros. split; [reflexivity|]. split; [reflexivity|]. split; [reflexivity|]. intros name A B C. unfold attempt, g_methods.
  destruct (name_cases name A B C) as [-> [-> ->]]. reflexivity.
Qed.
Theorem plot_cla_picture : forall fuel inv ord sv pinv o name range points sa st i io w w' opt' d,
  plot_efficient_frontier fuel inv ord sv pinv (OptCLA o) name range points sa st i io w = (w', opt', Ok d) ->
  exists o' mus sigmas fr ws, opt' = OptCLA o' /\ c_frontier o' = Some (mus, sigmas, fr) /\
    (c_frontier o = None -> snd (cla_frontier fuel inv ord points o) = Ok (mus, sigmas, fr)) /\
    d_curve d = combine sigmas (map Some mus) /\
    b_weights (c_base o') = Some ws /\ d_marker d = Some (sqrt (qform (c_cov o) ws), Some (inner ws (c_mean o))) /\
    (b_weights (c_base o) = Some ws \/
     b_weights (c_base o) = None /\ snd (cla_max_sharpe fuel inv ord o) = Ok (make_output_of (c_base o') ws)).
Proof.
  intros fuel inv ord sv pinv o name range points sa st i io w w' opt' d H. unfold plot_efficient_frontier in H.
  destruct (plot_cla fuel inv ord points o) as [o1 [p|e]] eqn:E; [|discriminate H]. unfold draw_cla in H.
  destruct (asset_markers _ _ _ _ _) as [x|] eqn:A; [|discriminate H]. cbn [rbind] in H. injection H as <- <- <-.
  destruct (plot_curve _ _ _ _ _ _ _ E) as [mu [sg [fr [C1 [C2 [C3 C4]]]]]]. destruct (plot_marker _ _ _ _ _ _ _ E) as [ws [M1 [M2 M3]]].
  exists o1, mu, sg, fr, ws. cbn [d_curve d_marker]. rewrite C2, C3, M2. split; [reflexivity|]. split; [exact C1|]. split; [exact C4|].
  split; [reflexivity|]. split; [exact M1|]. split; [reflexivity|exact M3].
Qed.
