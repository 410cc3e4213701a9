(** * Call sequences on EfficientSemivariance, EfficientCVaR and EfficientCDaR (C95) and the labels of results (C96) *)
From Coq Require Import ZArith List String Bool Reals Lra Lia.
From Verif Require Import Num Py MBase MConvex MEF MDown MCalls MFrame MHRP MBL MCLA SLin SBase SConvex SDown SCalls SLabels PCalls PCalls2 PDown7 PLabels.
Import ListNotations.
Local Open Scope R_scope.

(** C95: re-optimising with a new target equals a fresh optimisation, after any earlier targets, accepted or not *)
Theorem c95_efficient_risk : forall sv k w0 o0 u m mn, open_ef w0 o0 u -> e_mu o0 = Some m ->
  unused_name w0 o0 (risk_name k) -> reoptimises k (fun t => g_risk sv k t mn) w0 o0.
Proof. exact g_risk_reopt. Qed.
Print Assumptions c95_efficient_risk.
Theorem c95_efficient_return : forall sv k w0 o0 u m mn, open_ef w0 o0 u -> e_mu o0 = Some m ->
  unused_name w0 o0 "target_return" -> reoptimises k (fun t => g_return sv k t mn) w0 o0.
Proof. exact g_return_reopt. Qed.
Print Assumptions c95_efficient_return.
Theorem c95_max_quadratic_utility : forall sv k w0 o0 u m mn, open_ef w0 o0 u -> e_mu o0 = Some m ->
  unused_name w0 o0 "risk_aversion" -> reoptimises k (fun t => g_utility sv k t mn) w0 o0.
Proof. exact g_utility_reopt. Qed.
Print Assumptions c95_max_quadratic_utility.

(** a call that raises leaves the weights alone *)
Theorem c95_errors_keep_weights : forall sv ns k c w o w' o' e,
  g_run sv ns k c w o = (w', o', Err e) -> e_weights o' = e_weights o.
Proof. exact g_error_keeps_weights. Qed.
Print Assumptions c95_errors_keep_weights.
(** disabled methods change nothing *)
Theorem c95_disabled : forall sv ns k c w o, forbidden k c -> g_run sv ns k c w o = (w, o, Err NotImplementedError).
Proof. exact g_forbidden. Qed.
Print Assumptions c95_disabled.

(** after an optimisation, successful or not, the problem can no longer be changed, whatever is called in between *)
Theorem c95_frozen : forall sv ns k c w o w1 o1 r cs w2 o2 rs,
  g_run sv ns k c w o = (w1, o1, r) -> g_attempts k c -> r = Ok tt \/ r = Err OptimizationError ->
  g_run_all sv ns k cs w1 o1 = (w2, o2, rs) ->
  (forall f, add_objective f w2 o2 = (w2, o2, Err InstantiationError)) /\
  (forall f, add_constraint (CFun f) w2 o2 = (w2, o2, Err InstantiationError)) /\
  (forall mapper lower upper, lower ++ upper <> [] ->
     add_sector_constraints mapper lower upper w2 o2 = (w2, o2, Err InstantiationError)).
Proof. exact g_frozen. Qed.
Print Assumptions c95_frozen.
(** the minimum-risk methods work once per object *)
Theorem c95_min_once : forall sv k mn w o, e_opt o <> None ->
  exists w' o', g_min sv k mn w o = (w', o', Err InstantiationError) /\ e_weights o' = e_weights o.
Proof. exact min_blocked. Qed.
Print Assumptions c95_min_once.

(** the zero covariance matrix these classes hand to EfficientFrontier is never used: with any other
    matrix every sequence of calls has the same results, weights and performance *)
Theorem c95_covariance_unused : forall C sv ns k cs w o w' o' rs, g_run_all sv ns k cs w o = (w', o', rs) ->
  exists o2, g_run_all sv ns k cs w (with_cov C o) = (w', o2, rs) /\ e_weights o2 = e_weights o' /\
    forall rf, g_performance k rf w' o2 = g_performance k rf w' o'.
Proof. exact g_cov_unused. Qed.
Print Assumptions c95_covariance_unused.

(** negative targets are rejected, by the risk methods of CVaR and CDaR and the return methods of CDaR and semivariance *)
Theorem c95_negative_risk : forall sv w0 o0 u m mn, open_ef w0 o0 u -> e_mu o0 = Some m ->
  forall k t, (forall d, k <> DSemi d) -> unused_name w0 o0 (risk_name k) -> t < 0 ->
  exists w' o', g_risk sv k t mn w0 o0 = (w', o', Err ValueError).
Proof. exact neg_risk. Qed.
Print Assumptions c95_negative_risk.
Theorem c95_negative_return : forall sv w0 o0 u m mn, open_ef w0 o0 u -> e_mu o0 = Some m ->
  forall k t, (forall d, k <> DCVaR d) -> unused_name w0 o0 "target_return" -> t < 0 ->
  exists w' o', g_return sv k t mn w0 o0 = (w', o', Err ValueError).
Proof. exact neg_return. Qed.
Print Assumptions c95_negative_return.
(** EfficientSemivariance.efficient_risk does not reject a negative target: it takes its absolute value *)
Theorem c95_negative_semideviation_refuted : forall sv d t mn w o,
  g_risk sv (DSemi d) (- t) mn w o = g_risk sv (DSemi d) t mn w o.
Proof. exact semi_risk_sign. Qed.
Print Assumptions c95_negative_semideviation_refuted.

(** C96: the labels of an optimizer are those of its inputs, and positions if these have none *)
Theorem c96_efficient_frontier : forall mu cov b w0 w1 o,
  ef_init (MIn mu) (CIn cov) b w0 = (w1, Ok o) -> universe mu cov (b_tickers (e_base o)).
Proof. exact ef_labels. Qed.
Print Assumptions c96_efficient_frontier.
Theorem c96_cla : forall labels mean cov b (o : cla R), cla_init (Some (labels, mean)) cov b = Ok o ->
  match labels with Some ts => b_tickers (c_base o) = ts | None => positions (List.length mean) (b_tickers (c_base o)) end.
Proof. exact cla_labels. Qed.
Print Assumptions c96_cla.
Theorem c96_cla_without_returns : forall (o : cla R) cov b, cla_init None cov b <> Ok o /\ cla_init (A := R) None cov b = Err TypeError.
Proof. exact cla_no_returns. Qed.
Print Assumptions c96_cla_without_returns.
Theorem c96_black_litterman : forall a o, bl_init a = Ok o ->
  match a_cov a with
  | CovFrame cols _ => b_tickers (bl_base o) = cols
  | CovArray m => positions (List.length m) (b_tickers (bl_base o))
  end.
Proof. exact bl_labels. Qed.
Print Assumptions c96_black_litterman.
Theorem c96_hrp : forall r c h, hrp_init r c = Ok h ->
  match r, c with
  | HRetFrame f, _ => b_tickers (h_base h) = f_cols f
  | _, HCovFrame f => b_tickers (h_base h) = f_cols f
  | _, _ => False
  end.
Proof. exact hrp_labels. Qed.
Print Assumptions c96_hrp.
(** no call changes them *)
Theorem c96_kept : forall sv ns pinv cs w o w' o', run_all sv ns pinv cs w o = (w', o') ->
  b_tickers (e_base o') = b_tickers (e_base o).
Proof. exact run_all_labels. Qed.
Print Assumptions c96_kept.
Theorem c96_kept_downside : forall sv ns k cs w o w' o' rs, g_run_all sv ns k cs w o = (w', o', rs) ->
  b_tickers (e_base o') = b_tickers (e_base o).
Proof. exact g_run_all_labels. Qed.
Print Assumptions c96_kept_downside.
(** C95: what each call is, class by class *)
Theorem c95_methods : forall sv ns w o,
  (forall k, same_effect (g_run sv ns k GMaxReturn w o) (max_return sv w o)) /\
  (forall k f b, same_effect (g_run sv ns k (GConvex f b) w o) (convex_objective sv f b w o)) /\
  (forall k f b cs g, same_effect (g_run sv ns k (GNonconvex f b cs g) w o) (nonconvex_objective ns f b cs g w o)) /\
  (forall k f, g_run sv ns k (GAddObjective f) w o = add_objective f w o) /\
  (forall k c, g_run sv ns k (GAddConstraint c) w o = add_constraint c w o) /\
  (forall k m l u, g_run sv ns k (GAddSector m l u) w o = add_sector_constraints m l u w o) /\
  (forall d ws, snd (fst (g_run sv ns (DSemi d) (GSetWeights ws) w o)) = set_base (fst (set_weights (e_base o) ws)) o /\
                snd (g_run sv ns (DSemi d) (GSetWeights ws) w o) = snd (set_weights (e_base o) ws)) /\
  (forall d mn, same_effect (g_run sv ns (DSemi d) (GMin mn) w o) (min_semivariance sv d mn w o)) /\
  (forall d mn, same_effect (g_run sv ns (DCVaR d) (GMin mn) w o) (min_cvar sv d mn w o)) /\
  (forall d mn, same_effect (g_run sv ns (DCDaR d) (GMin mn) w o) (min_cdar sv d mn w o)) /\
  (forall d ra mn, same_effect (g_run sv ns (DSemi d) (GUtility ra mn) w o) (semi_max_quadratic_utility sv d ra mn w o)) /\
  (forall d t mn, same_effect (g_run sv ns (DSemi d) (GRisk t mn) w o) (semi_efficient_risk sv d t mn w o)) /\
  (forall d t mn, same_effect (g_run sv ns (DCVaR d) (GRisk t mn) w o) (cvar_efficient_risk sv d t mn w o)) /\
  (forall d t mn, same_effect (g_run sv ns (DCDaR d) (GRisk t mn) w o) (cdar_efficient_risk sv d t mn w o)) /\
  (forall d t mn, same_effect (g_run sv ns (DSemi d) (GReturn t mn) w o) (semi_efficient_return sv d (NFloat t) mn w o)) /\
  (forall d t mn, same_effect (g_run sv ns (DCVaR d) (GReturn t mn) w o) (cvar_efficient_return sv d t mn w o)) /\
  (forall d t mn, same_effect (g_run sv ns (DCDaR d) (GReturn t mn) w o) (cdar_efficient_return sv d t mn w o)).
Proof. exact g_run_is. Qed.
Print Assumptions c95_methods.
Theorem c95_performance : forall rf w o,
  (forall d m s r, g_performance (DSemi d) rf w o = Ok (m, s, r) <-> exists v, s = Some v /\ semi_performance d o rf = Ok (m, v, r)) /\
  (forall d m s r, g_performance (DCVaR d) rf w o = Ok (m, s, r) <-> r = None /\ cvar_performance d w o = Ok (m, s)) /\
  (forall d m s r, g_performance (DCDaR d) rf w o = Ok (m, s, r) <-> r = None /\ cdar_performance d w o = Ok (m, s)).
Proof. exact g_performance_is. Qed.
Print Assumptions c95_performance.
