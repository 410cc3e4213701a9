(** * Properties of data that are not DataFrames (C111, C112) *)
From Coq Require Import ZArith String List Bool Reals.
From Verif Require Import Num Py MFrame MBase MHRP MReturns MRisk MRisk2 MArray SArray SConv PArray PArray2 PArray3 PConv.
Import ListNotations.
Local Open Scope R_scope.

(** C111: the estimates depend on the numbers of the table only, not on its dates and asset names *)
Theorem c111_labels_mean : forall f g rd comp fr log, same_table f g ->
  same_estimates (f_cols f) (f_cols g) (mean_historical_return f rd comp fr log) (mean_historical_return g rd comp fr log).
Proof. exact mean_same. Qed.
Print Assumptions c111_labels_mean.
Theorem c111_labels_ema : forall f g rd comp span fr log, same_table f g ->
  same_estimates (f_cols f) (f_cols g) (ema_historical_return f rd comp span fr log) (ema_historical_return g rd comp span fr log).
Proof. exact ema_same. Qed.
Print Assumptions c111_labels_ema.
Theorem c111_labels_capm : forall f g rd rf comp fr log, same_table f g ->
  NoDup (f_cols f) -> ~ In (LStr "mkt") (f_cols f) -> NoDup (f_cols g) -> ~ In (LStr "mkt") (f_cols g) ->
  same_estimates (f_cols f) (f_cols g) (snd (capm_return f None rd rf comp fr log)) (snd (capm_return g None rd rf comp fr log)).
Proof. exact capm_default_same. Qed.
Print Assumptions c111_labels_capm.
Theorem c111_labels_capm_market : forall f g m n rd rf comp fr log, same_table f g -> same_table m n ->
  aligned_alike (f_index f) (f_index m) (f_index g) (f_index n) ->
  NoDup (f_cols f) -> ~ In (LStr "mkt") (f_cols f) -> NoDup (f_cols g) -> ~ In (LStr "mkt") (f_cols g) ->
  same_estimates (f_cols f) (f_cols g) (snd (capm_return f (Some m) rd rf comp fr log)) (snd (capm_return g (Some n) rd rf comp fr log)).
Proof. exact capm_market_same. Qed.
Print Assumptions c111_labels_capm_market.
Theorem c111_labels_sample_cov : forall eigh f g rd fr log fm, same_table f g ->
  same_matrix (f_cols f) (f_cols g) (sample_cov eigh f rd fr log fm) (sample_cov eigh g rd fr log fm).
Proof. exact sample_same. Qed.
Print Assumptions c111_labels_sample_cov.
Theorem c111_labels_semicovariance : forall eigh f g rd b fr log fm, same_table f g ->
  same_matrix (f_cols f) (f_cols g) (semicovariance eigh f rd b fr log fm) (semicovariance eigh g rd b fr log fm).
Proof. exact semi_same. Qed.
Print Assumptions c111_labels_semicovariance.
Theorem c111_labels_exp_cov : forall eigh f g rd span fr log fm, same_table f g ->
  same_matrix (f_cols f) (f_cols g) (exp_cov eigh f rd span fr log fm) (exp_cov eigh g rd span fr log fm).
Proof. exact exp_same. Qed.
Print Assumptions c111_labels_exp_cov.
Theorem c111_labels_min_cov_determinant : forall eigh mcd f g rd fr log fm, same_table f g ->
  same_matrix (f_cols f) (f_cols g) (min_cov_determinant eigh mcd f rd fr log fm) (min_cov_determinant eigh mcd g rd fr log fm).
Proof. exact mcd_same. Qed.
Print Assumptions c111_labels_min_cov_determinant.

(** C111: an array is read like a table with the labels 0, 1, 2, ..., after a RuntimeWarning (first component) *)
Theorem c111_arrays_returns : forall n rows f rd comp fr log, holds n rows f -> exists ls, counted n ls /\
  (exists r r', mean_historical_return_any (TArray n rows) rd comp fr log = (true, r) /\
                mean_historical_return_any (TFrame f) rd comp fr log = (false, r') /\ same_estimates ls (f_cols f) r r') /\
  (forall span, exists r r', ema_historical_return_any (TArray n rows) rd comp span fr log = (true, r) /\
                ema_historical_return_any (TFrame f) rd comp span fr log = (false, r') /\ same_estimates ls (f_cols f) r r') /\
  (forall rf, NoDup (f_cols f) -> ~ In (LStr "mkt") (f_cols f) -> exists r r',
     capm_return_any (TArray n rows) None rd rf comp fr log = (true, false, r) /\
     capm_return_any (TFrame f) None rd rf comp fr log = (false, false, r') /\ same_estimates ls (f_cols f) r r').
Proof. exact array_returns. Qed.
Print Assumptions c111_arrays_returns.
Theorem c111_arrays_matrices : forall eigh n rows f rd fr log fm, holds n rows f -> exists ls, counted n ls /\
  (exists r r', sample_cov_any eigh (TArray n rows) rd fr log fm = (true, r) /\
                sample_cov_any eigh (TFrame f) rd fr log fm = (false, r') /\ same_matrix ls (f_cols f) r r') /\
  (forall b, exists r r', semicovariance_any eigh (TArray n rows) rd b fr log fm = (true, r) /\
                semicovariance_any eigh (TFrame f) rd b fr log fm = (false, r') /\ same_matrix ls (f_cols f) r r') /\
  (forall span, exists r r', exp_cov_any eigh (TArray n rows) rd span fr log fm = (true, r) /\
                exp_cov_any eigh (TFrame f) rd span fr log fm = (false, r') /\ same_matrix ls (f_cols f) r r') /\
  (forall mcd, exists r r', min_cov_determinant_any eigh mcd (TArray n rows) rd fr log fm = (true, r) /\
                min_cov_determinant_any eigh mcd (TFrame f) rd fr log fm = (false, r') /\ same_matrix ls (f_cols f) r r').
Proof. exact array_matrices. Qed.
Print Assumptions c111_arrays_matrices.
Theorem c111_arrays_shrinkage : forall eigh n rows f rd fr log, holds n rows f -> exists ls, counted n ls /\
  exists i j, shrinkage_init_any (TArray n rows) rd fr log = (true, i) /\ shrinkage_init_any (TFrame f) rd fr log = (false, j) /\
  (forall d, same_matrix ls (f_cols f) (do sh <- i ; shrunk_covariance eigh sh d) (do sh <- j ; shrunk_covariance eigh sh d)) /\
  (forall sk target, same_shrunk ls (f_cols f) (do sh <- i ; ledoit_wolf eigh sk sh target) (do sh <- j ; ledoit_wolf eigh sk sh target)) /\
  (forall sk, same_shrunk ls (f_cols f) (do sh <- i ; oracle_approximating eigh sk sh) (do sh <- j ; oracle_approximating eigh sk sh)).
Proof. exact array_shrinkage. Qed.
Print Assumptions c111_arrays_shrinkage.

(** C112: prices and market both as arrays of prices: rows are matched by position *)
Theorem c112_arrays : forall n rows f q m days rf comp fr log, holds n rows f -> holds 1 q m -> same_calendar days (f_index f) (f_index m) ->
  NoDup (f_cols f) -> ~ In (LStr "mkt") (f_cols f) -> exists ls r r', counted n ls /\
  capm_return_any (TArray n rows) (Some (TArray 1 q)) false rf comp fr log = (true, true, r) /\
  capm_return_any (TFrame f) (Some (TFrame m)) false rf comp fr log = (false, false, r') /\ same_estimates ls (f_cols f) r r'.
Proof. exact array_market. Qed.
Print Assumptions c112_arrays.
(** C112: dated prices, but the market as an array (or under other dates): every estimate is missing, and capm_return does not
    notice: the only warning about the data is the one that mean_historical_return gives for the asset prices alone *)
Theorem c112_array_market_refuted : forall f q rf comp fr log x y, returns_from_prices f log = Ok x -> returns_from_prices (frame_of (TArray 1 q)) log = Ok y ->
  (forall i, ~ In (LInt i) (f_index f)) -> NoDup (f_cols f) -> ~ In (LStr "mkt") (f_cols f) -> rectangular f ->
  exists b s, capm_return_any (TFrame f) (Some (TArray 1 q)) false rf comp fr log = (false, true, Ok (b, s)) /\
    map fst s = f_cols f /\ Forall (fun v => v = None) (map snd s) /\ exists s', mean_historical_return f false false fr log = Ok (b, s').
Proof. exact array_market_elsewhere. Qed.
Print Assumptions c112_array_market_refuted.
Theorem c112_no_common_date : forall p m rf comp fr log x y, returns_from_prices p log = Ok x -> returns_from_prices m log = Ok y ->
  length (f_cols m) = 1%nat -> disjoint_labels (f_index p) (f_index m) -> NoDup (f_cols p) -> ~ In (LStr "mkt") (f_cols p) -> rectangular p ->
  exists b s, snd (capm_return p (Some m) false rf comp fr log) = Ok (b, s) /\ map fst s = f_cols p /\ Forall (fun v => v = None) (map snd s) /\
  exists s', mean_historical_return p false false fr log = Ok (b, s').
Proof. exact market_elsewhere. Qed.
Print Assumptions c112_no_common_date.
(** C112: market returns are not converted: an array is an AttributeError whatever it contains *)
Theorem c112_array_market_returns_refuted : forall t k q rf comp fr log,
  capm_return_any t (Some (TArray k q)) true rf comp fr log = (not_frame t, false, Err AttributeError).
Proof. exact array_market_returns. Qed.
Print Assumptions c112_array_market_returns_refuted.
(** C112: a Series of market prices is read like a table with one column *)
Theorem c112_series_prices : forall t ix name vals l rf comp fr log,
  snd (capm_return_any t (Some (TSeries ix name vals)) false rf comp fr log) =
  snd (capm_return_any t (Some (TFrame (mkFrame ix [l] (map (fun v => [v]) vals)))) false rf comp fr log).
Proof. exact series_market_prices. Qed.
Print Assumptions c112_series_prices.
(** C112: a Series of market returns is accepted if and only if it happens to be called mkt *)
Theorem c112_series_returns_refuted : forall t ix name vals rf comp fr log,
  (name = Some (LStr "mkt") -> forall l,
     snd (capm_return_any t (Some (TSeries ix name vals)) true rf comp fr log) =
     snd (capm_return_any t (Some (TFrame (mkFrame ix [l] (map (fun v => [v]) vals)))) true rf comp fr log)) /\
  (name <> Some (LStr "mkt") -> ~ In (LStr "mkt") (f_cols (frame_of t)) -> exists e, (e = ValueError \/ e = KeyError) /\
     snd (capm_return_any t (Some (TSeries ix name vals)) true rf comp fr log) = Err e).
Proof. exact series_market_returns. Qed.
Print Assumptions c112_series_returns_refuted.

(** C111: a Series is the table with one column that is called like it, after a warning *)
Theorem c111_series_returns : forall ix name vals f rd comp fr log, one_column ix name vals f ->
  mean_historical_return_any (TSeries ix name vals) rd comp fr log = (true, mean_historical_return f rd comp fr log) /\
  (forall span, ema_historical_return_any (TSeries ix name vals) rd comp span fr log = (true, ema_historical_return f rd comp span fr log)) /\
  (forall rf, capm_return_any (TSeries ix name vals) None rd rf comp fr log = (true, false, snd (capm_return f None rd rf comp fr log))).
Proof. exact series_returns. Qed.
Print Assumptions c111_series_returns.
Theorem c111_series_matrices : forall eigh ix name vals f rd fr log fm, one_column ix name vals f ->
  sample_cov_any eigh (TSeries ix name vals) rd fr log fm = (true, sample_cov eigh f rd fr log fm) /\
  (forall b, semicovariance_any eigh (TSeries ix name vals) rd b fr log fm = (true, semicovariance eigh f rd b fr log fm)) /\
  (forall span, exp_cov_any eigh (TSeries ix name vals) rd span fr log fm = (true, exp_cov eigh f rd span fr log fm)) /\
  (forall mcd, min_cov_determinant_any eigh mcd (TSeries ix name vals) rd fr log fm = (true, min_cov_determinant eigh mcd f rd fr log fm)) /\
  shrinkage_init_any (TSeries ix name vals) rd fr log = (true, shrinkage_init f rd fr log).
Proof. exact series_matrices. Qed.
Print Assumptions c111_series_matrices.
(** C112: the same for a market given as a Series *)
Theorem c112_series_market : forall t ix name vals f rf comp fr log, one_column ix name vals f ->
  capm_return_any t (Some (TSeries ix name vals)) false rf comp fr log =
  (fst (fst (capm_return_any t (Some (TFrame f)) false rf comp fr log)), true, snd (capm_return_any t (Some (TFrame f)) false rf comp fr log)).
Proof. exact series_market. Qed.
Print Assumptions c112_series_market.
