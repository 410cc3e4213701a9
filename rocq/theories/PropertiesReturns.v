(** * Properties of the return estimates (C66-C69, C80-C82) *)
From Coq Require Import ZArith List String Bool Reals.
From Verif Require Import Num Py MFrame MReturns SLin SHRP SReturns PReturns PReturns2 PReturns3.
Import ListNotations.
Local Open Scope R_scope.

(** C66 *)
Theorem c66_returns : forall T dates names p, names <> [] -> List.length dates = S T -> (forall t, In t names -> List.length (p t) = S T) ->
  (forall t, In t names -> Forall (fun v => v <> 0) (p t)) ->
  returns_from_prices (history (S T) dates names p) false = Ok (history T (tl dates) names (fun t => simple_returns (p t))).
Proof. exact returns_history. Qed.
Print Assumptions c66_returns.
Theorem c66_prices_roundtrip : forall T dates names p, names <> [] -> List.length dates = S (S T) -> (forall t, In t names -> List.length (p t) = S (S T)) ->
  (forall t, In t names -> Forall (fun v => v <> 0) (p t)) ->
  exists f, returns_from_prices (history (S (S T)) dates names p) false = Ok f /\
    prices_from_returns f false = Ok (history (S T) (tl dates) names (fun t => map (fun v => v / nth 1 (p t) 0) (tl (p t)))).
Proof. exact prices_roundtrip. Qed.
Print Assumptions c66_prices_roundtrip.
Theorem c66_returns_roundtrip : forall T dates names r, names <> [] -> List.length dates = S T -> (forall t, In t names -> List.length (r t) = S T) ->
  (forall t, In t names -> Forall (fun x => 1 + x <> 0) (tl (r t))) ->
  exists f, prices_from_returns (history (S T) dates names r) false = Ok f /\
    returns_from_prices f false = Ok (history T (tl dates) names (fun t => tl (r t))).
Proof. exact returns_roundtrip. Qed.
Print Assumptions c66_returns_roundtrip.
Theorem c66_pseudo_prices_mean : forall T dates names r compounding frequency, names <> [] -> List.length dates = S T -> (forall t, In t names -> List.length (r t) = S T) ->
  (forall t, In t names -> Forall (fun x => 1 + x <> 0) (tl (r t))) ->
  exists f, prices_from_returns (history (S T) dates names r) false = Ok f /\
    mean_historical_return f false compounding frequency false =
    mean_historical_return (history T (tl dates) names (fun t => tl (r t))) true compounding frequency false.
Proof. exact mean_of_pseudo_prices. Qed.
Print Assumptions c66_pseudo_prices_mean.

(** C67 *)
Theorem c67_cagr : forall T dates names p fr, names <> [] -> (1 <= T)%nat -> List.length dates = S T -> (forall t, In t names -> List.length (p t) = S T) ->
  (forall t, In t names -> Forall (fun v => 0 < v) (p t)) ->
  mean_historical_return (history (S T) dates names p) false true fr false =
  Ok (false, map (fun t => (t, Some (growth_rate fr (p t)))) names).
Proof. exact mean_cagr. Qed.
Print Assumptions c67_cagr.
Theorem c67_arithmetic : forall T dates names x fr log, (1 <= T)%nat -> (forall t, In t names -> List.length (x t) = T) ->
  mean_historical_return (history T dates names x) true false fr log = Ok (false, map (fun t => (t, Some (average (x t) * fr))) names).
Proof. exact mean_arithmetic. Qed.
Print Assumptions c67_arithmetic.
Theorem c67_log_returns_refuted : forall T dates names p fr, names <> [] -> (1 <= T)%nat -> 0 < fr -> List.length dates = S T -> (forall t, In t names -> List.length (p t) = S T) ->
  (forall t, In t names -> Forall (fun v => 0 < v) (p t)) -> (forall t, In t names -> tame (p t)) ->
  exists v, mean_historical_return (history (S T) dates names p) false true fr true = Ok (false, map (fun t => (t, Some (v t))) names) /\
    forall t, In t names -> v t <= growth_rate fr (p t) /\ (Exists (fun x => x <> 0) (simple_returns (p t)) -> v t < growth_rate fr (p t)).
Proof. exact mean_log. Qed.
Print Assumptions c67_log_returns_refuted.

(** C68 *)
Theorem c68_average : forall T dates names x span fr log, (1 <= T)%nat -> 1 <= span -> (forall t, In t names -> List.length (x t) = T) ->
  ema_historical_return (history T dates names x) true false span fr log = Ok (false, map (fun t => (t, Some (ema_value span (x t) * fr))) names).
Proof. exact ema_arithmetic. Qed.
Print Assumptions c68_average.
Theorem c68_compounded : forall T dates names x span fr log, (1 <= T)%nat -> 1 <= span -> (forall t, In t names -> List.length (x t) = T) ->
  (forall t, In t names -> -1 < ema_value span (x t)) ->
  ema_historical_return (history T dates names x) true true span fr log = Ok (false, map (fun t => (t, Some (Rpower (1 + ema_value span (x t)) fr - 1))) names).
Proof. exact ema_compound. Qed.
Print Assumptions c68_compounded.
Theorem c68_prices : forall T dates names p compounding span fr, names <> [] -> List.length dates = S T -> (forall t, In t names -> List.length (p t) = S T) ->
  (forall t, In t names -> Forall (fun v => v <> 0) (p t)) ->
  ema_historical_return (history (S T) dates names p) false compounding span fr false =
  ema_historical_return (history T (tl dates) names (fun t => simple_returns (p t))) true compounding span fr false.
Proof. exact ema_prices. Qed.
Print Assumptions c68_prices.
Theorem c68_bounds : forall span x lo hi, 1 <= span -> (1 <= List.length x)%nat -> Forall (fun v => lo <= v <= hi) x -> lo <= ema_value span x <= hi.
Proof. exact ema_bounds. Qed.
Print Assumptions c68_bounds.
Theorem c68_weights : forall d T, 0 <= d -> (1 <= T)%nat ->
  total (map (decay_weight d T) (seq 0 T)) = 1 /\ (forall k, (k < T)%nat -> 0 <= decay_weight d T k) /\
  (d < 1 -> forall j k, (j < k)%nat -> (k < T)%nat -> decay_weight d T j <= decay_weight d T k /\ (0 < d -> decay_weight d T j < decay_weight d T k)).
Proof. exact decay_weights. Qed.
Print Assumptions c68_weights.
Theorem c68_missing_data : forall l span, 1 < span -> present l <> [] ->
  ewm_last (1 - 2 / (span + 1)) l = Some (decayed_average ((span - 1) / (span + 1)) l) /\
  (forall lo hi, Forall (fun v => lo <= v <= hi) (present l) -> lo <= decayed_average ((span - 1) / (span + 1)) l <= hi).
Proof. exact ema_missing. Qed.
Print Assumptions c68_missing_data.

(** C69 *)
Theorem c69_average_is_market : forall T dates names x rf (compounding : bool) fr mm log, names <> [] -> (2 <= T)%nat -> ~ In mkt names -> (forall t, In t names -> List.length (x t) = T) ->
  let m := market T names x in sample_covariance m m <> 0 ->
  (if compounding then (Forall (fun v => -1 < v) m /\ mm = Rpower (growth_factor m) (fr / INR T) - 1) else mm = average m * fr) ->
  exists v, capm_return (history T dates names x) None true rf compounding fr log = (None, Ok (false, map (fun t => (t, Some (v t))) names)) /\
    (forall t, In t names -> v t = rf + market_beta (x t) m * (mm - rf)) /\ average (map v names) = mm.
Proof. exact capm_default. Qed.
Print Assumptions c69_average_is_market.
Theorem c69_prices : forall T dates names p rf compounding fr, names <> [] -> List.length dates = S T -> (forall t, In t names -> List.length (p t) = S T) ->
  (forall t, In t names -> Forall (fun v => v <> 0) (p t)) ->
  capm_return (history (S T) dates names p) None false rf compounding fr false =
  capm_return (history T (tl dates) names (fun t => simple_returns (p t))) None true rf compounding fr false.
Proof. exact capm_prices. Qed.
Print Assumptions c69_prices.

(** C80 *)
Theorem c80_no_data_is_zero : forall f fr log w s j t, nth_error (f_cols f) j = Some t -> (forall x, In x (column (f_rows f) j) -> x = None) ->
  mean_historical_return f true true fr log = Ok (w, s) -> nth_error s j = Some (t, Some 0).
Proof. exact no_data. Qed.
Print Assumptions c80_no_data_is_zero.
Theorem c80_no_warning : forall f fr log w s,
  (forall j, (j < List.length (f_cols f))%nat -> (forall x, In x (column (f_rows f) j) -> x = None) \/ (forall x, In x (column (f_rows f) j) -> x <> None)) ->
  mean_historical_return f true true fr log = Ok (w, s) -> w = false.
Proof. exact no_data_no_warning. Qed.
Print Assumptions c80_no_warning.
Theorem c80_arithmetic_is_nan : forall f fr log j t, nth_error (f_cols f) j = Some t -> (forall x, In x (column (f_rows f) j) -> x = None) ->
  exists w s, mean_historical_return f true false fr log = Ok (w, s) /\ nth_error s j = Some (t, None).
Proof. exact no_data_arithmetic. Qed.
Print Assumptions c80_arithmetic_is_nan.

(** C81 *)
Theorem c81_never_mkt : forall prices market_prices rd rf c fr log w s, snd (capm_return prices market_prices rd rf c fr log) = Ok (w, s) -> ~ In mkt (map fst s).
Proof. exact capm_drops_mkt. Qed.
Print Assumptions c81_never_mkt.
Theorem c81_clash : forall prices m rf c fr log, In mkt (f_cols prices) -> snd (capm_return prices (Some m) true rf c fr log) = Err ValueError.
Proof. exact capm_mkt_clash. Qed.
Print Assumptions c81_clash.

(** C82 *)
Theorem c82_renames_callers_table : forall prices name rows dates rf c fr log,
  fst (capm_return prices (Some (mkFrame dates [name] rows)) true rf c fr log) = Some (mkFrame dates [mkt] rows).
Proof. exact capm_renames. Qed.
Print Assumptions c82_renames_callers_table.
Theorem c82_prices_kept : forall prices m rf c fr log, fst (capm_return prices (Some m) false rf c fr log) = Some m.
Proof. exact capm_prices_kept. Qed.
Print Assumptions c82_prices_kept.
