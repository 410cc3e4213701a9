(** * Property theorems: missing and degenerate data (C119, C120) *)
From Coq Require Import ZArith List String Bool Reals.
From Verif Require Import Num Py MBase MConvex MEF MFrame MHRP MReturns MRisk SLin SHRP SReturns SRisk SGaps PGaps1 PGaps2 PGaps3 PGaps4 PGapsW PShape.
Import ListNotations.
Local Open Scope R_scope.

(** C119: returns between known prices; periods without any return are dropped *)
Theorem c119_returns : forall T dates names d p log, List.length dates = S T -> (forall t k v, In t names -> p t k = Some v -> priced log v) ->
  let r := fun t => step_return log (p t) in
  returns_from_prices (gappy (S T) dates names p) log =
  Ok (mkFrame (map (fun k => nth (S k) dates d) (kept T names r)) names (map (fun k => map (fun t => r t k) names) (kept T names r))).
Proof. exact returns_gappy. Qed.
Print Assumptions c119_returns.
(** C119: pseudo prices skip missing returns *)
Theorem c119_prices : forall T dates names r log,
  prices_from_returns (gappy (S T) dates names r) log = Ok (gappy (S T) dates names (fun t => pseudo_price (gain log) (r t))).
Proof. exact prices_gappy. Qed.
Print Assumptions c119_prices.
(** C119: arithmetic mean of the known returns, and when there is a warning *)
Theorem c119_mean : forall T dates names x fr log,
  exists w, mean_historical_return (gappy T dates names x) true false fr log =
    Ok (w, map (fun t => (t, match numbers T (x t) with [] => None | l => Some (average l * fr) end)) names) /\
  (w = true <-> exists t, In t names /\ interrupted T (x t)).
Proof. exact mean_gappy. Qed.
Print Assumptions c119_mean.
(** C119: growth rate behind the known returns *)
Theorem c119_mean_compounded : forall T dates names x fr log, 0 < fr -> (forall t, In t names -> Forall (fun v => -1 <= v) (numbers T (x t))) ->
  exists w v, mean_historical_return (gappy T dates names x) true true fr log = Ok (w, map (fun t => (t, v t)) names) /\
    (forall t, In t names -> column_rate fr (numbers T (x t)) (v t)) /\ (w = true <-> exists t, In t names /\ interrupted T (x t)).
Proof. exact mean_compounded_gappy. Qed.
Print Assumptions c119_mean_compounded.
(** C119: exponential average of the known returns, weighted by age *)
Theorem c119_ema : forall T dates names x span fr log, (1 <= T)%nat -> 1 < span ->
  exists w, ema_historical_return (gappy T dates names x) true false span fr log =
    Ok (w, map (fun t => (t, match numbers T (x t) with [] => None | _ => Some (aged_average ((span - 1) / (span + 1)) T (x t) * fr) end)) names) /\
  (w = true <-> exists t, In t names /\ interrupted T (x t)).
Proof. exact ema_gappy. Qed.
Print Assumptions c119_ema.
(** C119: CAPM with a market table: rows are matched by date *)
Theorem c119_capm_market : forall T T' dates mdates names name x q y rf (c : bool) fr log, ~ In mkt names -> List.length dates = T -> List.length mdates = T' -> NoDup mdates ->
  dated T dates mdates q y -> (c = true -> 0 < fr /\ Forall (fun v => -1 <= v) (numbers T y)) ->
  exists w m, capm_return (gappy T dates names x) (Some (gappy T' mdates [name] (fun _ => q))) true rf c fr log =
    (Some (gappy T' mdates [mkt] (fun _ => q)), Ok (w, map (fun t => (t, capm_value T rf (x t) y m)) names)) /\
    market_mean c fr (numbers T y) m /\ (w = true <-> interrupted T y \/ exists t, In t names /\ interrupted T (x t)).
Proof. exact capm_market. Qed.
Print Assumptions c119_capm_market.
(** C119: CAPM with the default market, the average of the known returns of each row *)
Theorem c119_capm_default : forall T dates names x rf (c : bool) fr log, ~ In mkt names -> 
  let y := row_average names x in (c = true -> 0 < fr /\ Forall (fun v => -1 <= v) (numbers T y)) ->
  exists w m, capm_return (gappy T dates names x) None true rf c fr log = (None, Ok (w, map (fun t => (t, capm_value T rf (x t) y m)) names)) /\
    market_mean c fr (numbers T y) m /\ (w = true <-> interrupted T y \/ exists t, In t names /\ interrupted T (x t)).
Proof. exact capm_default_gappy. Qed.
Print Assumptions c119_capm_default.
(** C119: a market that does not vary gives no estimate *)
Theorem c119_capm_flat_market : forall T rf x y m c, Forall (fun v => v = c) (numbers T y) -> capm_value T rf x y m = None.
Proof. exact capm_flat. Qed.
Print Assumptions c119_capm_flat_market.
(** C119: the market table must have exactly one column *)
Theorem c119_market_columns : forall prices m rf c fr log, List.length (f_cols m) <> 1%nat ->
  snd (capm_return prices (Some m) true rf c fr log) = Err ValueError /\
  (forall r s, returns_from_prices prices log = Ok r -> returns_from_prices m log = Ok s -> snd (capm_return prices (Some m) false rf c fr log) = Err ValueError).
Proof. exact capm_columns. Qed.
Print Assumptions c119_market_columns.
(** C119: prices of the assets and of the market *)
Theorem c119_capm_market_prices : forall T T' dates mdates names name p q rf c fr, names <> [] -> List.length dates = S T -> List.length mdates = S T' ->
  (forall t, In t names -> List.length (p t) = S T) -> List.length q = S T' -> (forall t, In t names -> Forall (fun v => v <> 0) (p t)) -> Forall (fun v => v <> 0) q ->
  snd (capm_return (history (S T) dates names p) (Some (history (S T') mdates [name] (fun _ => q))) false rf c fr false) =
  snd (capm_return (history T (tl dates) names (fun t => simple_returns (p t))) (Some (history T' (tl mdates) [name] (fun _ => simple_returns q))) true rf c fr false).
Proof. exact capm_market_prices. Qed.
Print Assumptions c119_capm_market_prices.
(** C120: each entry comes from the rows where both assets are known *)
Theorem c120_sample_cov : forall eigh T dates names x c fr log fm,
  (forall t u, In t names -> In u names -> common_covariance T (x t) (x u) = Some (c t u)) ->
  let C := labelled names (fun t u => c t u * fr) in psd (List.length names) (f_rows C) ->
  sample_cov eigh (gappy T dates names x) true fr log fm = Ok C.
Proof. exact sample_cov_gappy. Qed.
Print Assumptions c120_sample_cov.
(** C120: two common rows are needed for every pair *)
Theorem c120_sample_cov_too_short : forall eigh T dates names x fr log fm t u, In t names -> In u names -> common_covariance T (x t) (x u) = None ->
  sample_cov eigh (gappy T dates names x) true fr log fm = Err FloatSpecial.
Proof. exact sample_cov_too_short. Qed.
Print Assumptions c120_sample_cov_too_short.
(** C120: these entries need not form a covariance matrix; then the repair changes them *)
Theorem c120_sample_cov_refuted : exists T dates names x c, List.length dates = T /\
  (forall t u, In t names -> In u names -> common_covariance T (x t) (x u) = Some (c t u)) /\
  forall eigh fr log fm, 1 <= fr -> fm = "spectral"%string \/ fm = "diag"%string ->
  let C := labelled names (fun t u => c t u * fr) in
  eigen_of (List.length names) (f_rows C) (fst (eigh (f_rows C))) (snd (eigh (f_rows C))) ->
  exists F, sample_cov eigh (gappy T dates names x) true fr log fm = Ok F /\ F <> C.
Proof. exact gappy_repaired. Qed.
Print Assumptions c120_sample_cov_refuted.
Theorem c120_exp_cov : forall eigh T dates names x span fr log fm, 1 < span ->
  (forall t u, In t names -> In u names -> common T (x t) (x u) <> []) ->
  let C := labelled names (fun t u => common_ema T span (x t) (x u) * fr) in psd (List.length names) (f_rows C) ->
  exp_cov eigh (gappy T dates names x) true span fr log fm = Ok C.
Proof. exact exp_cov_gappy. Qed.
Print Assumptions c120_exp_cov.
(** C120: the scikit-learn estimators see a missing return as 0 and their intensity is reported *)
Theorem c120_missing_is_zero : forall eigh sk T dates names x fr log M i, List.length dates = T -> 0 <= fr -> sk (zero_filled T names x) = (M, i) -> psd (List.length names) M -> symmetric (List.length names) M ->
  exists sh, shrinkage_init (gappy T dates names x) true fr log = Ok sh /\
    oracle_approximating eigh sk sh = Ok (mkFrame names names (scale_rows fr M), i) /\
    ledoit_wolf eigh sk sh "constant_variance" = Ok (mkFrame names names (scale_rows fr M), i).
Proof. exact sklearn_gappy. Qed.
Print Assumptions c120_missing_is_zero.
Theorem c120_single_factor : forall eigh sk T dates ds names x fr log, List.length dates = T -> List.length ds = List.length (kept T names x) ->
  exists sh sh', shrinkage_init (gappy T dates names x) true fr log = Ok sh /\
    shrinkage_init (mkFrame ds names (map (map Some) (zero_filled T names x))) true fr log = Ok sh' /\
    ledoit_wolf eigh sk sh "single_factor" = ledoit_wolf eigh sk sh' "single_factor".
Proof. exact single_factor_gappy. Qed.
Print Assumptions c120_single_factor.
(** C25: a covariance that is not n x n *)
Theorem c25_wrong_shape : forall sv w o, ~ square (e_n o) (e_cov o) -> min_volatility sv w o = (w, o, Err ShapeError).
Proof. exact min_volatility_shape. Qed.
Print Assumptions c25_wrong_shape.
