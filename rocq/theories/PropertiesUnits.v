(** * Property theorems: units of measurement do not matter (C129) *)
From Coq Require Import ZArith String List Bool Reals.
From Verif Require Import Num Py MAlloc SAlloc SBL MBase MFrame MConvex MEF SLin SBase SConvex SPerm MReturns MRisk SUnits PUnits PUnits2 PUnits3 PUnits4.
Import ListNotations.
Local Open Scope R_scope.

(** the data are accepted in every unit *)
Theorem c129_accepted : forall a k s cols rows b v1 v2 w1 o1, square (length s) rows ->
  ef_init (MIn (MuSeries s)) (CIn (CovFrame cols rows)) b v1 = (w1, Ok o1) ->
  exists w2 o2, ef_init (MIn (MuSeries (mu_times a s))) (CIn (CovFrame cols (cov_times k rows))) b v2 = (w2, Ok o2).
Proof. exact units_accepted. Qed.
Print Assumptions c129_accepted.
(** the calls succeed in both units or in neither, with the targets in the unit of the data *)
Theorem c129_min_volatility_both : forall a k s cols rows b v1 v2 w1 w2 o1 o2, measured a k s cols rows b v1 v2 w1 w2 o1 o2 ->
  forall sv1 sv2, exact_solver sv1 -> exact_solver sv2 -> complete_solver sv1 -> complete_solver sv2 ->
  (succeeds (min_volatility sv1) w1 o1 <-> succeeds (min_volatility sv2) w2 o2).
Proof. exact units_both_min_volatility. Qed.
Print Assumptions c129_min_volatility_both.
Theorem c129_utility_both : forall a k s cols rows b v1 v2 w1 w2 o1 o2, measured a k s cols rows b v1 v2 w1 w2 o1 o2 ->
  forall sv1 sv2, exact_solver sv1 -> exact_solver sv2 -> complete_solver sv1 -> complete_solver sv2 ->
  forall ra mn,  (succeeds (max_quadratic_utility sv1 ra mn) w1 o1 <-> succeeds (max_quadratic_utility sv2 (ra * a / k) mn) w2 o2).
Proof. exact units_both_utility. Qed.
Print Assumptions c129_utility_both.
Theorem c129_return_both : forall a k s cols rows b v1 v2 w1 w2 o1 o2, measured a k s cols rows b v1 v2 w1 w2 o1 o2 ->
  forall sv1 sv2, exact_solver sv1 -> exact_solver sv2 -> complete_solver sv1 -> complete_solver sv2 ->
  forall t mn,  (succeeds (efficient_return sv1 (NFloat t) mn) w1 o1 <-> succeeds (efficient_return sv2 (NFloat (a * t)) mn) w2 o2).
Proof. exact units_both_return. Qed.
Print Assumptions c129_return_both.
Theorem c129_risk_both : forall a k s cols rows b v1 v2 w1 w2 o1 o2, measured a k s cols rows b v1 v2 w1 w2 o1 o2 ->
  forall sv1 sv2, exact_solver sv1 -> exact_solver sv2 -> complete_solver sv1 -> complete_solver sv2 ->
  forall pinv1 pinv2 t mn, inverse_times k rows pinv1 pinv2 ->
  (succeeds (efficient_risk sv1 pinv1 (NFloat t) mn) w1 o1 <-> succeeds (efficient_risk sv2 pinv2 (NFloat (sqrt k * t)) mn) w2 o2).
Proof. exact units_both_risk. Qed.
Print Assumptions c129_risk_both.
Theorem c129_max_sharpe_both : forall a k s cols rows b v1 v2 w1 w2 o1 o2, measured a k s cols rows b v1 v2 w1 w2 o1 o2 ->
  forall sv1 sv2, exact_solver sv1 -> exact_solver sv2 -> complete_solver sv1 -> complete_solver sv2 ->
  forall rf, psd (length s) rows -> Forall (fun c => c <> None) (e_lb o1) -> Forall (fun c => c <> None) (e_ub o1) ->
  (succeeds (max_sharpe sv1 (NFloat rf)) w1 o1 <-> succeeds (max_sharpe sv2 (NFloat (a * rf))) w2 o2).
Proof. exact units_both_sharpe. Qed.
Print Assumptions c129_max_sharpe_both.
(** the weights found in either unit are best for the problem in the first unit *)
Theorem c129_min_volatility : forall a k s cols rows b v1 v2 w1 w2 o1 o2, measured a k s cols rows b v1 v2 w1 w2 o1 o2 ->
  forall sv1 sv2 x1 x2 y1 y2 d1 d2, NoDup (map fst s) -> exact_solver sv1 -> exact_solver sv2 ->
  min_volatility sv1 w1 o1 = (x1, y1, Ok d1) -> min_volatility sv2 w2 o2 = (x2, y2, Ok d2) ->
  answers (map fst s) (e_lb o1) (e_ub o1) 1 (fun _ => True) (qform rows) d1 /\
  answers (map fst s) (e_lb o1) (e_ub o1) 1 (fun _ => True) (qform rows) d2.
Proof. exact units_min_volatility. Qed.
Print Assumptions c129_min_volatility.
Theorem c129_utility : forall a k s cols rows b v1 v2 w1 w2 o1 o2, measured a k s cols rows b v1 v2 w1 w2 o1 o2 ->
  forall sv1 sv2 x1 x2 y1 y2 d1 d2, NoDup (map fst s) -> exact_solver sv1 -> exact_solver sv2 ->
  forall ra mn, max_quadratic_utility sv1 ra mn w1 o1 = (x1, y1, Ok d1) -> max_quadratic_utility sv2 (ra * a / k) mn w2 o2 = (x2, y2, Ok d2) ->
  exists lb ub, bounds_in_force mn o1 lb ub /\
  answers (map fst s) lb ub (if mn then 0 else 1) (fun _ => True) (fun x => - (inner (map snd s) x - ra / 2 * qform rows x)) d1 /\
  answers (map fst s) lb ub (if mn then 0 else 1) (fun _ => True) (fun x => - (inner (map snd s) x - ra / 2 * qform rows x)) d2.
Proof. exact units_utility. Qed.
Print Assumptions c129_utility.
Theorem c129_return : forall a k s cols rows b v1 v2 w1 w2 o1 o2, measured a k s cols rows b v1 v2 w1 w2 o1 o2 ->
  forall sv1 sv2 x1 x2 y1 y2 d1 d2, NoDup (map fst s) -> exact_solver sv1 -> exact_solver sv2 ->
  forall t mn, efficient_return sv1 (NFloat t) mn w1 o1 = (x1, y1, Ok d1) -> efficient_return sv2 (NFloat (a * t)) mn w2 o2 = (x2, y2, Ok d2) ->
  exists lb ub, bounds_in_force mn o1 lb ub /\
  answers (map fst s) lb ub (if mn then 0 else 1) (fun x => t <= inner (map snd s) x) (qform rows) d1 /\
  answers (map fst s) lb ub (if mn then 0 else 1) (fun x => t <= inner (map snd s) x) (qform rows) d2.
Proof. exact units_return. Qed.
Print Assumptions c129_return.
Theorem c129_risk : forall a k s cols rows b v1 v2 w1 w2 o1 o2, measured a k s cols rows b v1 v2 w1 w2 o1 o2 ->
  forall sv1 sv2 x1 x2 y1 y2 d1 d2, NoDup (map fst s) -> exact_solver sv1 -> exact_solver sv2 ->
  forall pinv1 pinv2 t mn, efficient_risk sv1 pinv1 (NFloat t) mn w1 o1 = (x1, y1, Ok d1) -> efficient_risk sv2 pinv2 (NFloat (sqrt k * t)) mn w2 o2 = (x2, y2, Ok d2) ->
  exists lb ub, bounds_in_force mn o1 lb ub /\
  answers (map fst s) lb ub (if mn then 0 else 1) (fun x => qform rows x <= t * t) (fun x => - inner (map snd s) x) d1 /\
  answers (map fst s) lb ub (if mn then 0 else 1) (fun x => qform rows x <= t * t) (fun x => - inner (map snd s) x) d2.
Proof. exact units_risk. Qed.
Print Assumptions c129_risk.
Theorem c129_max_sharpe : forall a k s cols rows b v1 v2 w1 w2 o1 o2, measured a k s cols rows b v1 v2 w1 w2 o1 o2 ->
  forall sv1 sv2 x1 x2 y1 y2 d1 d2, NoDup (map fst s) -> exact_solver sv1 -> exact_solver sv2 ->
  forall rf, psd (length s) rows -> max_sharpe sv1 (NFloat rf) w1 o1 = (x1, y1, Ok d1) -> max_sharpe sv2 (NFloat (a * rf)) w2 o2 = (x2, y2, Ok d2) ->
  ratio_answers (map fst s) (e_lb o1) (e_ub o1) (map snd s) rows rf d1 /\
  ratio_answers (map fst s) (e_lb o1) (e_ub o1) (map snd s) rows rf d2.
Proof. exact units_sharpe. Qed.
Print Assumptions c129_max_sharpe.
(** with a positive definite matrix the weights are the same in both units *)
Theorem c129_same_min_volatility : forall a k s cols rows b v1 v2 w1 w2 o1 o2, measured a k s cols rows b v1 v2 w1 w2 o1 o2 ->
  forall sv1 sv2 x1 x2 y1 y2 d1 d2, NoDup (map fst s) -> pos_def (length s) rows -> exact_solver sv1 -> exact_solver sv2 ->
  min_volatility sv1 w1 o1 = (x1, y1, Ok d1) -> min_volatility sv2 w2 o2 = (x2, y2, Ok d2) -> agree d1 d2.
Proof. exact units_same_min_volatility. Qed.
Print Assumptions c129_same_min_volatility.
Theorem c129_same_utility : forall a k s cols rows b v1 v2 w1 w2 o1 o2, measured a k s cols rows b v1 v2 w1 w2 o1 o2 ->
  forall sv1 sv2 x1 x2 y1 y2 d1 d2, NoDup (map fst s) -> pos_def (length s) rows -> exact_solver sv1 -> exact_solver sv2 ->
  forall ra mn, 0 < ra -> max_quadratic_utility sv1 ra mn w1 o1 = (x1, y1, Ok d1) -> max_quadratic_utility sv2 (ra * a / k) mn w2 o2 = (x2, y2, Ok d2) -> agree d1 d2.
Proof. exact units_same_utility. Qed.
Print Assumptions c129_same_utility.
Theorem c129_same_return : forall a k s cols rows b v1 v2 w1 w2 o1 o2, measured a k s cols rows b v1 v2 w1 w2 o1 o2 ->
  forall sv1 sv2 x1 x2 y1 y2 d1 d2, NoDup (map fst s) -> pos_def (length s) rows -> exact_solver sv1 -> exact_solver sv2 ->
  forall t mn, efficient_return sv1 (NFloat t) mn w1 o1 = (x1, y1, Ok d1) -> efficient_return sv2 (NFloat (a * t)) mn w2 o2 = (x2, y2, Ok d2) -> agree d1 d2.
Proof. exact units_same_return. Qed.
Print Assumptions c129_same_return.
Theorem c129_same_max_sharpe : forall a k s cols rows b v1 v2 w1 w2 o1 o2, measured a k s cols rows b v1 v2 w1 w2 o1 o2 ->
  forall sv1 sv2 x1 x2 y1 y2 d1 d2, NoDup (map fst s) -> pos_def (length s) rows -> exact_solver sv1 -> exact_solver sv2 ->
  forall rf, max_sharpe sv1 (NFloat rf) w1 o1 = (x1, y1, Ok d1) -> max_sharpe sv2 (NFloat (a * rf)) w2 o2 = (x2, y2, Ok d2) -> agree d1 d2.
Proof. exact units_same_sharpe. Qed.
Print Assumptions c129_same_max_sharpe.
(** the returns, and so all the estimates from prices, are the same whatever unit each asset is priced in: also for tables with gaps and zero prices *)
Theorem c129_returns : forall ks f log, price_units ks f -> returns_from_prices (repriced ks f) log = returns_from_prices f log.
Proof. exact units_returns. Qed.
Print Assumptions c129_returns.
Theorem c129_return_estimates : forall ks f, price_units ks f ->
  (forall compounding frequency log, mean_historical_return (repriced ks f) false compounding frequency log = mean_historical_return f false compounding frequency log) /\
  (forall compounding span frequency log, ema_historical_return (repriced ks f) false compounding span frequency log = ema_historical_return f false compounding span frequency log) /\
  (forall rf compounding frequency log, snd (capm_return (repriced ks f) None false rf compounding frequency log) = snd (capm_return f None false rf compounding frequency log)) /\
  (forall km mk rf compounding frequency log, price_units km mk ->
     snd (capm_return (repriced ks f) (Some (repriced km mk)) false rf compounding frequency log) = snd (capm_return f (Some mk) false rf compounding frequency log)) /\
  (forall method, return_model (repriced ks f) method = return_model f method).
Proof. exact units_return_estimates. Qed.
Print Assumptions c129_return_estimates.
Theorem c129_risk_estimates : forall ks f, price_units ks f -> forall eigh,
  (forall frequency log fx, sample_cov eigh (repriced ks f) false frequency log fx = sample_cov eigh f false frequency log fx) /\
  (forall benchmark frequency log fx, semicovariance eigh (repriced ks f) false benchmark frequency log fx = semicovariance eigh f false benchmark frequency log fx) /\
  (forall span frequency log fx, exp_cov eigh (repriced ks f) false span frequency log fx = exp_cov eigh f false span frequency log fx) /\
  (forall frequency log, shrinkage_init (repriced ks f) false frequency log = shrinkage_init f false frequency log) /\
  (forall sk_lw sk_oas method, risk_matrix eigh sk_lw sk_oas (repriced ks f) method = risk_matrix eigh sk_lw sk_oas f method).
Proof. exact units_risk_estimates. Qed.
Print Assumptions c129_risk_estimates.
(** with all the money in another unit the same shares are bought and the cash left is the same amount of money; the object afterwards is the same too *)
Theorem c129_da_init : forall k, 0 < k -> forall w p total sr,
  da_init w (series_times k p) (k * total) sr = match da_init w p total sr with Ok d => Ok (da_times k d) | Err e => Err e end.
Proof. exact units_constructor. Qed.
Print Assumptions c129_da_init.
Theorem c129_greedy : forall k, 0 < k -> forall fuel d r,
  greedy_portfolio fuel (da_times k d) r = (da_times k (fst (greedy_portfolio fuel d r)), money k (snd (greedy_portfolio fuel d r))).
Proof. exact units_greedy. Qed.
Print Assumptions c129_greedy.
Theorem c129_lp : forall k, 0 < k -> forall solver d r,
  lp_portfolio (in_units k solver) (da_times k d) r = (da_times k (fst (lp_portfolio solver d r)), money k (snd (lp_portfolio solver d r))).
Proof. exact units_lp. Qed.
Print Assumptions c129_lp.
(** the solver that converts the money is exact if the other one is, and every solver is one that converts *)
Theorem c129_lp_exact : forall k, 0 < k -> forall solver, exact_milp solver -> exact_milp (in_units k solver).
Proof. exact units_exact. Qed.
Print Assumptions c129_lp_exact.
Theorem c129_lp_solvers : forall k, 0 < k -> forall solver P, in_units k (in_units (/ k) solver) P = solver P.
Proof. exact units_solvers. Qed.
Print Assumptions c129_lp_solvers.
