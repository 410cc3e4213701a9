(** * Property theorems: the answers of the optimizers lie on one frontier *)
From Coq Require Import ZArith List String Bool Reals.
From Verif Require Import Num Py MBase MConvex MEF MDown SLin SBase SObj SConvex SDown SPrep SExist SCurve PCurve2 PCurve3.
Import ListNotations.
Local Open Scope R_scope.

(** C113 *)
Theorem c113_frontier : forall w o u mn m, open_ef w o u -> Forall (fun ic => convex_con (w_sizes w) (par_values w) (snd ic)) u -> e_add o = [] -> e_mu o = Some m ->
  psd (e_n o) (e_cov o) -> fresh_name w o "target_variance" -> fresh_name w o "target_return" ->
  forall sv sv' pinv, exact_solver sv -> exact_solver sv' ->
  one_frontier (fun t => efficient_risk sv pinv (NFloat t) mn w o) (fun r => efficient_return sv' (NFloat r) mn w o)
    (fun t => 0 <= t) (inner m) (fun x => sqrt (qform (e_cov o) x)).
Proof. exact ef_laws. Qed.
Print Assumptions c113_frontier.
Theorem c113_utility : forall w o u mn m, open_ef w o u -> e_add o = [] -> e_mu o = Some m ->
  psd (e_n o) (e_cov o) -> fresh_name w o "target_variance" -> fresh_name w o "target_return" -> fresh_name w o "risk_aversion" ->
  forall sv sv' sv'' pinv ra, exact_solver sv -> exact_solver sv' -> exact_solver sv'' -> succeeds (max_quadratic_utility sv'' ra mn w o) ->
  on_frontier (max_quadratic_utility sv'' ra mn w o) (fun t => efficient_risk sv pinv (NFloat t) mn w o) (fun r => efficient_return sv' (NFloat r) mn w o)
    (inner m) (fun x => sqrt (qform (e_cov o) x)).
Proof. exact ef_utility_on_frontier. Qed.
Print Assumptions c113_utility.
Theorem c113_min_volatility : forall w o u m, open_ef w o u -> e_add o = [] -> e_mu o = Some m ->
  psd (e_n o) (e_cov o) -> fresh_name w o "target_variance" -> fresh_name w o "target_return" ->
  forall sv sv' sv'' pinv, exact_solver sv -> exact_solver sv' -> exact_solver sv'' -> succeeds (min_volatility sv'' w o) ->
  frontier_start (min_volatility sv'' w o) (fun t => efficient_risk sv pinv (NFloat t) false w o) (fun r => efficient_return sv' (NFloat r) false w o)
    (fun t => 0 <= t) (inner m) (fun x => sqrt (qform (e_cov o) x)).
Proof. exact ef_min_starts. Qed.
Print Assumptions c113_min_volatility.
(** for a portfolio without risk nothing is claimed about the return found for no risk: any ratio is as good *)
Theorem c113_max_sharpe : forall w o u m, open_ef w o u -> e_add o = [] -> e_mu o = Some m ->
  psd (e_n o) (e_cov o) -> fresh_name w o "target_variance" -> fresh_name w o "target_return" ->
  Forall (fun ic => constant_on_one_side (e_w o) (snd ic)) u -> Forall (fun ic => known_vars (List.length (w_sizes w)) (snd ic)) u ->
  forall sv sv' sv'' pinv rf, exact_solver sv -> exact_solver sv' -> exact_solver sv'' -> succeeds (max_sharpe sv'' rf w o) ->
  let vol x := sqrt (qform (e_cov o) x) in
  exists x, reports (max_sharpe sv'' rf w o) x /\
    (succeeds (efficient_return sv' (NFloat (inner m x)) false w o) -> exists y, reports (efficient_return sv' (NFloat (inner m x)) false w o) y /\ vol y = vol x) /\
    (0 < vol x -> succeeds (efficient_risk sv pinv (NFloat (vol x)) false w o) -> exists y, reports (efficient_risk sv pinv (NFloat (vol x)) false w o) y /\ inner m y = inner m x).
Proof. exact ef_sharpe_on_frontier. Qed.
Print Assumptions c113_max_sharpe.
(** for a new optimizer with finite bounds the second call of a round trip always succeeds *)
Theorem c113_round_trips : forall mi c b w0 w1 o mu, ef_init (MIn mi) (CIn c) b w0 = (w1, Ok o) ->
  square (List.length (cov_values c)) (cov_values c) -> List.length (cov_values c) = e_n o -> bounded (e_lb o) -> bounded (e_ub o) ->
  mu_values mi = Some mu -> (0 < e_n o)%nat -> psd (e_n o) (cov_values c) -> symmetric (e_n o) (cov_values c) ->
  forall sv pinv, right_inverse (e_n o) (cov_values c) (pinv (cov_values c)) -> exact_solver sv -> complete_solver sv ->
  Forall (fun q => p_name q <> "target_variance"%string) (w_params w0) -> Forall (fun q => p_name q <> "target_return"%string) (w_params w0) ->
  let vol x := sqrt (qform (cov_values c) x) in
  let by_risk t := efficient_risk sv pinv (NFloat t) false w1 o in
  let by_ret r := efficient_return sv (NFloat r) false w1 o in
  (forall t, 0 <= t -> succeeds (by_risk t) -> exists x y, reports (by_risk t) x /\ vol x <= t /\ reports (by_ret (inner mu x)) y /\ inner mu y = inner mu x /\ vol y <= vol x) /\
  (forall r, succeeds (by_ret r) -> exists x y, reports (by_ret r) x /\ r <= inner mu x /\ reports (by_risk (vol x)) y /\ vol y = vol x /\ inner mu x <= inner mu y).
Proof. exact round_trips. Qed.
Print Assumptions c113_round_trips.

(** C113: semideviation, fully invested (C35 is about market neutral portfolios) *)
Theorem c113_semi_frontier : forall w o u d m, open_ef w o u -> semi_ready w o u d -> Forall (fun ic => convex_con (w_sizes w) (par_values w) (snd ic)) u ->
  e_add o = [] -> e_mu o = Some m -> 0 < sd_freq d -> fresh_name w o "target_semivariance" -> fresh_name w o "target_return" ->
  forall sv sv', exact_solver sv -> exact_solver sv' ->
  one_frontier (fun t => semi_efficient_risk sv d t false w o) (fun r => semi_efficient_return sv' d (NFloat r) false w o)
    (fun t => 0 <= t) (inner m) (fun x => sqrt (sd_freq d * semivariance (sd_returns d) (sd_bench d) x)).
Proof. exact semi_laws. Qed.
Print Assumptions c113_semi_frontier.
Theorem c113_min_semivariance : forall w o u d m, open_ef w o u -> semi_ready w o u d ->
  e_add o = [] -> e_mu o = Some m -> 0 < sd_freq d -> fresh_name w o "target_semivariance" -> fresh_name w o "target_return" ->
  forall sv sv' sv'', exact_solver sv -> exact_solver sv' -> exact_solver sv'' -> succeeds (min_semivariance sv'' d false w o) ->
  frontier_start (min_semivariance sv'' d false w o) (fun t => semi_efficient_risk sv d t false w o) (fun r => semi_efficient_return sv' d (NFloat r) false w o)
    (fun t => 0 <= t) (inner m) (fun x => sqrt (sd_freq d * semivariance (sd_returns d) (sd_bench d) x)).
Proof. exact semi_min_starts. Qed.
Print Assumptions c113_min_semivariance.
Theorem c113_semi_utility : forall w o u d m, open_ef w o u -> semi_ready w o u d ->
  e_add o = [] -> e_mu o = Some m -> 0 < sd_freq d -> fresh_name w o "target_semivariance" -> fresh_name w o "target_return" -> fresh_name w o "risk_aversion" ->
  forall sv sv' sv'', exact_solver sv -> exact_solver sv' -> exact_solver sv'' ->
  forall k, 0 < k -> succeeds (semi_max_quadratic_utility sv'' d k false w o) ->
  on_frontier (semi_max_quadratic_utility sv'' d k false w o) (fun t => semi_efficient_risk sv d t false w o) (fun r => semi_efficient_return sv' d (NFloat r) false w o)
    (inner m) (fun x => sqrt (sd_freq d * semivariance (sd_returns d) (sd_bench d) x)).
Proof. exact semi_utility_on_frontier. Qed.
Print Assumptions c113_semi_utility.

(** C113: conditional value and drawdown at risk *)
Theorem c113_cvar_frontier : forall w o u d m mn, open_ef w o u -> cvar_ready w o u d -> Forall (fun ic => convex_con (w_sizes w) (par_values w) (snd ic)) u ->
  e_add o = [] -> e_mu o = Some m -> fresh_name w o "target_cvar" -> fresh_name w o "target_return" ->
  forall sv sv', exact_solver sv -> exact_solver sv' ->
  one_frontier (fun t => cvar_efficient_risk sv d t mn w o) (fun r => cvar_efficient_return sv' d r mn w o)
    (fun _ => True) (inner m) (cvar (cv_beta d) (cv_returns d)).
Proof. exact cvar_laws. Qed.
Print Assumptions c113_cvar_frontier.
Theorem c113_min_cvar : forall w o u d m mn, open_ef w o u -> cvar_ready w o u d ->
  e_add o = [] -> e_mu o = Some m -> fresh_name w o "target_cvar" -> fresh_name w o "target_return" ->
  forall sv sv' sv'', exact_solver sv -> exact_solver sv' -> exact_solver sv'' -> succeeds (min_cvar sv'' d mn w o) ->
  frontier_start (min_cvar sv'' d mn w o) (fun t => cvar_efficient_risk sv d t mn w o) (fun r => cvar_efficient_return sv' d r mn w o)
    (fun _ => True) (inner m) (cvar (cv_beta d) (cv_returns d)).
Proof. exact cvar_min_starts. Qed.
Print Assumptions c113_min_cvar.
Theorem c113_cdar_frontier : forall w o u d m mn, open_ef w o u -> cdar_ready w o u d -> Forall (fun ic => convex_con (w_sizes w) (par_values w) (snd ic)) u ->
  e_add o = [] -> e_mu o = Some m -> fresh_name w o "target_cdar" -> fresh_name w o "target_return" ->
  forall sv sv', exact_solver sv -> exact_solver sv' ->
  one_frontier (fun t => cdar_efficient_risk sv d t mn w o) (fun r => cdar_efficient_return sv' d r mn w o)
    (fun _ => True) (inner m) (cdar (cd_beta d) (cd_returns d)).
Proof. exact cdar_laws. Qed.
Print Assumptions c113_cdar_frontier.
Theorem c113_min_cdar : forall w o u d m mn, open_ef w o u -> cdar_ready w o u d ->
  e_add o = [] -> e_mu o = Some m -> fresh_name w o "target_cdar" -> fresh_name w o "target_return" ->
  forall sv sv' sv'', exact_solver sv -> exact_solver sv' -> exact_solver sv'' -> succeeds (min_cdar sv'' d mn w o) ->
  frontier_start (min_cdar sv'' d mn w o) (fun t => cdar_efficient_risk sv d t mn w o) (fun r => cdar_efficient_return sv' d r mn w o)
    (fun _ => True) (inner m) (cdar (cd_beta d) (cd_returns d)).
Proof. exact cdar_min_starts. Qed.
Print Assumptions c113_min_cdar.
