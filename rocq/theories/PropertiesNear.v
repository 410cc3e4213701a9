(** * Properties C123, C124: what the optimizers return when the solver is only accurate up to a tolerance *)
From Coq Require Import ZArith List String Bool Reals.
From Verif Require Import Num Py MBase MConvex MEF MDown SLin SBase SConvex SDown SNear PEFW PNear1 PNear2 PNear3 PNear4 PNear5 PNear6 PNearW.
Import ListNotations.
Local Open Scope R_scope.

(** C123: a solver is exact if and only if its tolerance and its accuracy are zero *)
Theorem c123_exact : forall sv, exact_solver sv <-> accurate_solver 0 0 sv.
Proof. exact exact_accurate. Qed.
Print Assumptions c123_exact.

(** C123: min_volatility *)
Theorem c123_min_volatility : forall t g sv w o u w' o' d, accurate_solver t g sv -> open_ef w o u ->
  min_volatility sv w o = (w', o', Ok d) ->
  near_best t g w o u (e_lb o) (e_ub o) 1 (fun _ => True) (fun _ => True) (qform (e_cov o)) (e_weights o') d.
Proof. exact min_volatility_near. Qed.
Print Assumptions c123_min_volatility.

(** C123: efficient_risk *)
Theorem c123_efficient_risk : forall t g sv pinv w o u m tg mn w' o' d, accurate_solver t g sv -> open_ef w o u ->
  e_mu o = Some m -> fresh_name w o "target_variance" ->
  efficient_risk sv pinv tg mn w o = (w', o', Ok d) ->
  exists k lb ub, target_of tg = Some k /\ 0 <= k /\ bounds_in_force mn o lb ub /\
    near_best t g w o u lb ub (if mn then 0 else 1)
      (fun x => qform (e_cov o) x <= k * k + t) (fun x => qform (e_cov o) x <= k * k)
      (fun x => - inner m x) (e_weights o') d.
Proof. exact efficient_risk_near. Qed.
Print Assumptions c123_efficient_risk.

(** C123: efficient_return *)
Theorem c123_efficient_return : forall t g sv w o u m tg mn w' o' d, accurate_solver t g sv -> open_ef w o u ->
  e_mu o = Some m -> fresh_name w o "target_return" ->
  efficient_return sv tg mn w o = (w', o', Ok d) ->
  exists k lb ub, tg = NFloat k /\ bounds_in_force mn o lb ub /\
    near_best t g w o u lb ub (if mn then 0 else 1)
      (fun x => k - t <= inner m x) (fun x => k <= inner m x)
      (qform (e_cov o)) (e_weights o') d.
Proof. exact efficient_return_near. Qed.
Print Assumptions c123_efficient_return.

(** C123: efficient_return asks the solver for the largest return first: a target it refuses is out of reach or within [2 g] of it; one it accepts can be reached up to the tolerances *)
Theorem c123_refusal : forall t g sv w o u m k mn w' o' r v w1 o1,
  accurate_solver t g sv -> open_ef w o u -> e_mu o = Some m -> e_maxret o = None ->
  on_copy (max_return sv) w o = (w1, o1, Ok v) ->
  efficient_return sv (NFloat k) mn w o = (w', o', r) ->
  (v < k -> (forall s, admissible w o u (e_lb o) (e_ub o) 1 s -> inner m (s (e_w o)) < k + 2 * g) /\
            r = Err ValueError /\ e_weights o' = e_weights o) /\
  (k <= v -> exists s, nearly_admissible t w o u (e_lb o) (e_ub o) 1 s /\ k - g <= inner m (s (e_w o))).
Proof. exact efficient_return_refusal. Qed.
Print Assumptions c123_refusal.

(** C123: max_quadratic_utility *)
Theorem c123_utility : forall t g sv w o u m ra mn w' o' d, accurate_solver t g sv -> open_ef w o u ->
  e_mu o = Some m -> fresh_name w o "risk_aversion" ->
  max_quadratic_utility sv ra mn w o = (w', o', Ok d) ->
  0 < ra /\ exists lb ub, bounds_in_force mn o lb ub /\
    near_best t g w o u lb ub (if mn then 0 else 1) (fun _ => True) (fun _ => True)
      (fun x => - (inner m x - ra / 2 * qform (e_cov o) x)) (e_weights o') d.
Proof. exact utility_near. Qed.
Print Assumptions c123_utility.

(** C123: convex_objective *)
Theorem c123_convex_objective : forall t g sv w o u f b w' o' d, accurate_solver t g sv -> open_ef w o u ->
  (forall v, scalar_expr (f v)) ->
  convex_objective sv f b w o = (w', o', Ok d) ->
  exists s r, e_weights o' = Some r /\ Forall2 (rounded 16) (s (e_w o)) r /\
    d = dict_of_pairs (combine (b_tickers (e_base o)) r) /\
    well_sized (w_sizes w) s /\ nearly_within t (e_lb o) (e_ub o) (s (e_w o)) /\
    (b = true -> Rabs (total (s (e_w o)) - 1) <= t) /\
    Forall (fun ic => meets t s (par_values w) (snd ic)) u /\
    forall s', well_sized (w_sizes w) s' -> within (e_lb o) (e_ub o) (s' (e_w o)) ->
      (b = true -> total (s' (e_w o)) = 1) -> Forall (fun ic => sat s' (par_values w) (snd ic)) u ->
      evals s (par_values w) (f (e_w o)) + penalty s (par_values w) (e_add o)
      <= evals s' (par_values w) (f (e_w o)) + penalty s' (par_values w) (e_add o) + g.
Proof. exact convex_objective_near. Qed.
Print Assumptions c123_convex_objective.

(** C123: max_sharpe divides what the solver returns by a number the solver chose; while the tolerance is small against the excess returns and the bounds the constraints and the ratio are off by a controlled amount *)
Theorem c123_max_sharpe : forall e g c sv w o u rf w' o' d, accurate_solver e g sv -> open_ef w o u -> e_add o = [] ->
  psd (e_n o) (e_cov o) ->
  Forall (fun ic => constant_on_one_side (e_w o) (snd ic)) u ->
  Forall (fun ic => known_vars (List.length (w_sizes w)) (snd ic)) u ->
  bounded_by c (e_lb o) (e_ub o) -> 0 <= c ->
  (forall m r, e_mu o = Some m -> target_of rf = Some r ->
     e * (1 + total (map (fun x => Rabs (x - r)) m) * (1 + c)) < 1 /\ (1 + Rabs r) * e < 1) ->
  max_sharpe sv rf w o = (w', o', Ok d) ->
  exists m r, e_mu o = Some m /\ target_of rf = Some r /\
  exists s rr, e_weights o' = Some rr /\ Forall2 (rounded 16) (s (e_w o)) rr /\
    d = dict_of_pairs (combine (b_tickers (e_base o)) rr) /\
    nearly_admissible (enlarged e c m r) w o u (e_lb o) (e_ub o) 1 s /\
    0 < excess m r (s (e_w o)) /\
    forall s', admissible w o u (e_lb o) (e_ub o) 1 s' ->
      (1 - (1 + Rabs r) * e) * excess m r (s' (e_w o)) * sqrt (qform (e_cov o) (s (e_w o)))
      <= excess m r (s (e_w o)) * sqrt (qform (e_cov o) (s' (e_w o)) + g * (excess m r (s' (e_w o))) ^ 2).
Proof. exact max_sharpe_near. Qed.
Print Assumptions c123_max_sharpe.

(** C123: the returned numbers themselves: rounding adds half a unit in the 16th decimal to every weight *)
Theorem c123_returned : forall t g w o u lb ub sum near ok low cost ws d s,
  nth_error (w_sizes w) (e_w o) = Some (e_n o) ->
  near_at t g w o u lb ub sum near ok low cost ws d s ->
  exists r, ws = Some r /\ List.length r = e_n o /\ nearly_within (t + half_unit 16) lb ub r /\
    Rabs (total r - sum) <= t + INR (e_n o) * half_unit 16.
Proof. exact near_at_returned. Qed.
Print Assumptions c123_returned.

(** C123: nothing repairs the sum: with a solver of tolerance 1/1000 the weights of min_volatility can add up to more than 1.0009 *)
Theorem c123_sum_refuted : exists sv w o w' o' d, accurate_solver (1/1000) (1/100) sv /\
  two [1/5; 1/10] 0 1 = (w, Ok o) /\ min_volatility sv w o = (w', o', Ok d) /\
  exists r, e_weights o' = Some r /\ 1 + 9/10000 <= total r.
Proof. exact rough_sum_refuted. Qed.
Print Assumptions c123_sum_refuted.

(** C124: min_cvar; the true CVaR exceeds the reported one by at most [t / (1 - beta)] *)
Theorem c124_min_cvar : forall w o u d tol g sv mn w' o' dd, open_ef w o u -> cvar_ready w o u d -> accurate_solver tol g sv ->
  min_cvar sv d mn w o = (w', o', Ok dd) ->
  exists lb ub s, bounds_in_force mn o lb ub /\
    near_at tol (g + cvar_slack (cv_beta d) tol) w o u lb ub (if mn then 0 else 1) (fun _ => True) (fun _ => True)
      (cvar (cv_beta d) (cv_returns d)) (cvar (cv_beta d) (cv_returns d)) (e_weights o') dd s /\
    forall m, e_mu o = Some m -> exists r rep, e_weights o' = Some r /\
      cvar_performance d w' o' = Ok (inner m r, Some rep) /\
      cvar (cv_beta d) (cv_returns d) (s (e_w o)) <= rep + cvar_slack (cv_beta d) tol /\
      forall s', admissible w o u lb ub (if mn then 0 else 1) s' ->
        rep + penalty s (par_values w) (e_add o) <= cvar (cv_beta d) (cv_returns d) (s' (e_w o)) + penalty s' (par_values w) (e_add o) + g.
Proof. exact (fun w o u d tol g sv mn w' o' dd Hop Hr Hsv H => min_cvar_near w o u d Hop Hr tol g sv mn w' o' dd Hsv H). Qed.
Print Assumptions c124_min_cvar.

(** C124: efficient_return of EfficientCVaR *)
Theorem c124_cvar_efficient_return : forall w o u d tol g sv mn t m w' o' dd, open_ef w o u -> cvar_ready w o u d -> accurate_solver tol g sv ->
  e_mu o = Some m -> fresh_name w o "target_return" -> cvar_efficient_return sv d t mn w o = (w', o', Ok dd) ->
  exists lb ub s, bounds_in_force mn o lb ub /\
    near_at tol (g + cvar_slack (cv_beta d) tol) w o u lb ub (if mn then 0 else 1) (fun x => t <= inner m x + tol) (fun x => t <= inner m x)
      (cvar (cv_beta d) (cv_returns d)) (cvar (cv_beta d) (cv_returns d)) (e_weights o') dd s /\
    exists r rep, e_weights o' = Some r /\
      cvar_performance d w' o' = Ok (inner m r, Some rep) /\
      cvar (cv_beta d) (cv_returns d) (s (e_w o)) <= rep + cvar_slack (cv_beta d) tol /\
      forall s', admissible w o u lb ub (if mn then 0 else 1) s' -> t <= inner m (s' (e_w o)) ->
        rep + penalty s (par_values w) (e_add o) <= cvar (cv_beta d) (cv_returns d) (s' (e_w o)) + penalty s' (par_values w) (e_add o) + g.
Proof. exact (fun w o u d tol g sv mn t m w' o' dd Hop Hr Hsv Em Hf H => cvar_return_near w o u d Hop Hr tol g sv mn t m w' o' dd Hsv Em Hf H). Qed.
Print Assumptions c124_cvar_efficient_return.

(** C124: efficient_risk of EfficientCVaR *)
Theorem c124_cvar_efficient_risk : forall w o u d tol g sv mn t m w' o' dd, open_ef w o u -> cvar_ready w o u d -> accurate_solver tol g sv ->
  e_mu o = Some m -> fresh_name w o "target_cvar" -> cvar_efficient_risk sv d t mn w o = (w', o', Ok dd) ->
  0 <= t /\ exists lb ub s, bounds_in_force mn o lb ub /\
    near_at tol g w o u lb ub (if mn then 0 else 1) (fun x => cvar (cv_beta d) (cv_returns d) x <= t + (tol + cvar_slack (cv_beta d) tol))
      (fun x => cvar (cv_beta d) (cv_returns d) x <= t) (fun x => - inner m x) (fun x => - inner m x) (e_weights o') dd s /\
    exists r rep, e_weights o' = Some r /\ cvar_performance d w' o' = Ok (inner m r, Some rep) /\
      cvar (cv_beta d) (cv_returns d) (s (e_w o)) <= rep + cvar_slack (cv_beta d) tol /\ rep <= t + tol.
Proof. exact (fun w o u d tol g sv mn t m w' o' dd Hop Hr Hsv Em Hf H => cvar_risk_near w o u d Hop Hr tol g sv mn t m w' o' dd Hsv Em Hf H). Qed.
Print Assumptions c124_cvar_efficient_risk.

(** C124: min_cdar; the drawdown is a running sum, so the error grows with the number of periods *)
Theorem c124_min_cdar : forall w o u d tol g sv mn w' o' dd, open_ef w o u -> cdar_ready w o u d -> accurate_solver tol g sv ->
  min_cdar sv d mn w o = (w', o', Ok dd) ->
  exists lb ub s, bounds_in_force mn o lb ub /\
    near_at tol (g + cdar_slack (List.length (cd_returns d)) (cd_beta d) tol) w o u lb ub (if mn then 0 else 1) (fun _ => True) (fun _ => True)
      (cdar (cd_beta d) (cd_returns d)) (cdar (cd_beta d) (cd_returns d)) (e_weights o') dd s /\
    forall m, e_mu o = Some m -> exists r rep, e_weights o' = Some r /\
      cdar_performance d w' o' = Ok (inner m r, Some rep) /\
      cdar (cd_beta d) (cd_returns d) (s (e_w o)) <= rep + cdar_slack (List.length (cd_returns d)) (cd_beta d) tol /\
      forall s', admissible w o u lb ub (if mn then 0 else 1) s' ->
        rep + penalty s (par_values w) (e_add o) <= cdar (cd_beta d) (cd_returns d) (s' (e_w o)) + penalty s' (par_values w) (e_add o) + g.
Proof. exact (fun w o u d tol g sv mn w' o' dd Hop Hr Hsv H => min_cdar_near w o u d Hop Hr tol g sv mn w' o' dd Hsv H). Qed.
Print Assumptions c124_min_cdar.

(** C124: efficient_return of EfficientCDaR *)
Theorem c124_cdar_efficient_return : forall w o u d tol g sv mn t m w' o' dd, open_ef w o u -> cdar_ready w o u d -> accurate_solver tol g sv ->
  e_mu o = Some m -> fresh_name w o "target_return" -> cdar_efficient_return sv d t mn w o = (w', o', Ok dd) ->
  0 <= t /\ exists lb ub s, bounds_in_force mn o lb ub /\
    near_at tol (g + cdar_slack (List.length (cd_returns d)) (cd_beta d) tol) w o u lb ub (if mn then 0 else 1) (fun x => t <= inner m x + tol) (fun x => t <= inner m x)
      (cdar (cd_beta d) (cd_returns d)) (cdar (cd_beta d) (cd_returns d)) (e_weights o') dd s /\
    exists r rep, e_weights o' = Some r /\
      cdar_performance d w' o' = Ok (inner m r, Some rep) /\
      cdar (cd_beta d) (cd_returns d) (s (e_w o)) <= rep + cdar_slack (List.length (cd_returns d)) (cd_beta d) tol /\
      forall s', admissible w o u lb ub (if mn then 0 else 1) s' -> t <= inner m (s' (e_w o)) ->
        rep + penalty s (par_values w) (e_add o) <= cdar (cd_beta d) (cd_returns d) (s' (e_w o)) + penalty s' (par_values w) (e_add o) + g.
Proof. exact (fun w o u d tol g sv mn t m w' o' dd Hop Hr Hsv Em Hf H => cdar_return_near w o u d Hop Hr tol g sv mn t m w' o' dd Hsv Em Hf H). Qed.
Print Assumptions c124_cdar_efficient_return.

(** C124: efficient_risk of EfficientCDaR *)
Theorem c124_cdar_efficient_risk : forall w o u d tol g sv mn t m w' o' dd, open_ef w o u -> cdar_ready w o u d -> accurate_solver tol g sv ->
  e_mu o = Some m -> fresh_name w o "target_cdar" -> cdar_efficient_risk sv d t mn w o = (w', o', Ok dd) ->
  0 <= t /\ exists lb ub s, bounds_in_force mn o lb ub /\
    near_at tol g w o u lb ub (if mn then 0 else 1) (fun x => cdar (cd_beta d) (cd_returns d) x <= t + (tol + cdar_slack (List.length (cd_returns d)) (cd_beta d) tol))
      (fun x => cdar (cd_beta d) (cd_returns d) x <= t) (fun x => - inner m x) (fun x => - inner m x) (e_weights o') dd s /\
    exists r rep, e_weights o' = Some r /\ cdar_performance d w' o' = Ok (inner m r, Some rep) /\
      cdar (cd_beta d) (cd_returns d) (s (e_w o)) <= rep + cdar_slack (List.length (cd_returns d)) (cd_beta d) tol /\ rep <= t + tol.
Proof. exact (fun w o u d tol g sv mn t m w' o' dd Hop Hr Hsv Em Hf H => cdar_risk_near w o u d Hop Hr tol g sv mn t m w' o' dd Hsv Em Hf H). Qed.
Print Assumptions c124_cdar_efficient_risk.

(** C124: what [less_dev] means: the semideviation exceeds that of [q] by at most [c] *)
Theorem c124_semivariance_slack : forall c v q, 0 <= c -> 0 <= q -> (less_dev c v <= q <-> sqrt v <= sqrt q + c).
Proof. exact less_dev_le. Qed.
Print Assumptions c124_semivariance_slack.

(** C124: min_semivariance *)
Theorem c124_min_semivariance : forall w o u d tol g sv mn w' o' dd, open_ef w o u -> semi_ready w o u d -> accurate_solver tol g sv ->
  min_semivariance sv d mn w o = (w', o', Ok dd) ->
  exists lb ub s, bounds_in_force mn o lb ub /\
    near_at tol g w o u lb ub (if mn then 0 else 1) (fun _ => True) (fun _ => True)
      (fun x => less_dev (semi_slack (sd_T d) (sd_bench d) tol) (semivariance (sd_returns d) (sd_bench d * (if mn then 0 else 1)) x)) (semivariance (sd_returns d) (sd_bench d * (if mn then 0 else 1))) (e_weights o') dd s.
Proof. exact (fun w o u d tol g sv mn w' o' dd Hop Hr Hsv H => min_semivariance_near w o u d Hop Hr tol g sv mn Hsv w' o' dd H). Qed.
Print Assumptions c124_min_semivariance.

(** C124: efficient_risk of EfficientSemivariance *)
Theorem c124_semi_efficient_risk : forall w o u d tol g sv mn t m w' o' dd, open_ef w o u -> semi_ready w o u d -> accurate_solver tol g sv ->
  e_mu o = Some m -> fresh_name w o "target_semivariance" -> 0 <= sd_freq d -> semi_efficient_risk sv d t mn w o = (w', o', Ok dd) ->
  exists lb ub s, bounds_in_force mn o lb ub /\
    near_at tol g w o u lb ub (if mn then 0 else 1)
      (fun x => sd_freq d * less_dev (semi_slack (sd_T d) (sd_bench d) tol) (semivariance (sd_returns d) (sd_bench d * (if mn then 0 else 1)) x) <= t * t + tol) (fun x => sd_freq d * semivariance (sd_returns d) (sd_bench d * (if mn then 0 else 1)) x <= t * t)
      (fun x => - inner m x) (fun x => - inner m x) (e_weights o') dd s.
Proof. exact (fun w o u d tol g sv mn t m w' o' dd Hop Hr Hsv Em Hf Hq H => semi_risk_near w o u d Hop Hr tol g sv mn Hsv t m w' o' dd Em Hf Hq H). Qed.
Print Assumptions c124_semi_efficient_risk.

(** C124: efficient_return of EfficientSemivariance *)
Theorem c124_semi_efficient_return : forall w o u d tol g sv mn t m w' o' dd, open_ef w o u -> semi_ready w o u d -> accurate_solver tol g sv ->
  e_mu o = Some m -> fresh_name w o "target_return" -> semi_efficient_return sv d (NFloat t) mn w o = (w', o', Ok dd) ->
  0 <= t /\ exists lb ub s, bounds_in_force mn o lb ub /\
    near_at tol g w o u lb ub (if mn then 0 else 1) (fun x => t <= inner m x + tol) (fun x => t <= inner m x)
      (fun x => less_dev (semi_slack (sd_T d) (sd_bench d) tol) (semivariance (sd_returns d) (sd_bench d * (if mn then 0 else 1)) x)) (semivariance (sd_returns d) (sd_bench d * (if mn then 0 else 1))) (e_weights o') dd s.
Proof. exact (fun w o u d tol g sv mn t m w' o' dd Hop Hr Hsv Em Hf H => semi_return_near w o u d Hop Hr tol g sv mn Hsv t m w' o' dd Em Hf H). Qed.
Print Assumptions c124_semi_efficient_return.

(** C124: max_quadratic_utility of EfficientSemivariance *)
Theorem c124_semi_utility : forall w o u d tol g sv mn k m w' o' dd, open_ef w o u -> semi_ready w o u d -> accurate_solver tol g sv ->
  e_mu o = Some m -> fresh_name w o "risk_aversion" -> semi_max_quadratic_utility sv d k mn w o = (w', o', Ok dd) ->
  0 < k /\ exists lb ub s, bounds_in_force mn o lb ub /\
    near_at tol g w o u lb ub (if mn then 0 else 1) (fun _ => True) (fun _ => True)
      (fun x => - inner m x / sd_freq d + 1 / 2 * k * less_dev (semi_slack (sd_T d) (sd_bench d) tol) (semivariance (sd_returns d) (sd_bench d * (if mn then 0 else 1)) x))
      (fun x => - inner m x / sd_freq d + 1 / 2 * k * semivariance (sd_returns d) (sd_bench d * (if mn then 0 else 1)) x) (e_weights o') dd s.
Proof. exact (fun w o u d tol g sv mn k m w' o' dd Hop Hr Hsv Em Hf H => semi_utility_near w o u d Hop Hr tol g sv mn Hsv k m w' o' dd Em Hf H). Qed.
Print Assumptions c124_semi_utility.
