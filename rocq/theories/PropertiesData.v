(** * Theorems: log returns (C66), min_cov_determinant (C104), keyword arguments (C105) *)
From Coq Require Import ZArith List String Bool Reals.
From Verif Require Import Num Py MFrame MHRP MReturns MRisk MRisk2 MKwargs SLin SHRP SReturns SRisk SRisk2 SKwargs PReturns PReturns4 PRisk2 PKwargs.
Import ListNotations.
Local Open Scope R_scope.

(** C66 for log returns *)
Theorem c66_log_returns : forall T dates names p, names <> [] -> List.length dates = S T -> (forall t, In t names -> List.length (p t) = S T) ->
  (forall t, In t names -> Forall (fun v => 0 < v) (p t)) ->
  returns_from_prices (history (S T) dates names p) true = Ok (history T (tl dates) names (fun t => logarithmic_returns (p t))).
Proof. exact log_returns_history. Qed.
Print Assumptions c66_log_returns.
Theorem c66_log_prices_roundtrip : forall T dates names p, names <> [] -> List.length dates = S (S T) -> (forall t, In t names -> List.length (p t) = S (S T)) ->
  (forall t, In t names -> Forall (fun v => 0 < v) (p t)) ->
  exists f, returns_from_prices (history (S (S T)) dates names p) true = Ok f /\
    prices_from_returns f true = Ok (history (S T) (tl dates) names (fun t => map (fun v => v / nth 1 (p t) 0) (tl (p t)))).
Proof. exact log_prices_roundtrip. Qed.
Print Assumptions c66_log_prices_roundtrip.
Theorem c66_log_returns_roundtrip : forall T dates names r, names <> [] -> List.length dates = S T -> (forall t, In t names -> List.length (r t) = S T) ->
  exists f, prices_from_returns (history (S T) dates names r) true = Ok f /\
    returns_from_prices f true = Ok (history T (tl dates) names (fun t => tl (r t))).
Proof. exact log_returns_roundtrip. Qed.
Print Assumptions c66_log_returns_roundtrip.

(** C104 *)
Theorem c104_rows : forall eigh mcd f g fr log log' fm xs, f_cols f = f_cols g -> complete_rows (f_rows f) xs -> complete_rows (f_rows g) xs ->
  min_cov_determinant eigh mcd f true fr log fm = min_cov_determinant eigh mcd g true fr log' fm.
Proof. exact mcd_rows. Qed.
Print Assumptions c104_rows.
Theorem c104_rows_exist : forall rows, exists xs, complete_rows rows xs.
Proof. exact complete_rows_exist. Qed.
Print Assumptions c104_rows_exist.
Theorem c104_estimate : forall eigh mcd f fr log fm xs, complete_rows (f_rows f) xs -> 0 <= fr ->
  let n := List.length (f_cols f) in psd n (mcd xs) -> symmetric n (mcd xs) ->
  exists M, min_cov_determinant eigh mcd f true fr log fm = Ok (mkFrame (f_cols f) (f_cols f) M) /\ psd n M /\ symmetric n M /\
    forall i j, (i < n)%nat -> (j < n)%nat -> entry M i j = fr * entry (mcd xs) i j.
Proof. exact mcd_good. Qed.
Print Assumptions c104_estimate.
Theorem c104_repaired : forall eigh mcd f fr log fm xs, complete_rows (f_rows f) xs -> fm = "spectral"%string \/ fm = "diag"%string ->
  let n := List.length (f_cols f) in square n (mcd xs) -> symmetric n (mcd xs) ->
  (forall M, square n M -> symmetric n M -> eigen_of n M (fst (eigh M)) (snd (eigh M))) ->
  exists M, min_cov_determinant eigh mcd f true fr log fm = Ok (mkFrame (f_cols f) (f_cols f) M) /\ symmetric n M /\ nearly_psd (/ 10 ^ 16) n M.
Proof. exact mcd_any. Qed.
Print Assumptions c104_repaired.
Theorem c104_shape : forall eigh mcd f fr log fm xs, complete_rows (f_rows f) xs -> ~ square (List.length (f_cols f)) (mcd xs) ->
  min_cov_determinant eigh mcd f true fr log fm = Err ValueError.
Proof. exact mcd_shape. Qed.
Print Assumptions c104_shape.
Theorem c104_prices : forall eigh mcd T dates names p fr fm, names <> [] -> List.length dates = S T ->
  (forall t, In t names -> List.length (p t) = S T) -> (forall t, In t names -> Forall (fun v => 0 < v) (p t)) -> forall log : bool,
  let r := fun t => if log then logarithmic_returns (p t) else simple_returns (p t) in
  min_cov_determinant eigh mcd (history (S T) dates names p) false fr log fm = min_cov_determinant eigh mcd (history T (tl dates) names r) true fr log fm.
Proof. exact mcd_prices. Qed.
Print Assumptions c104_prices.

(** C105 *)
Theorem c105_sample_cov : forall eigh sk_lw sk_oas prices kw, distinct kw -> forall rd fr lg fm,
  gets KBool kw "returns_data" false rd -> gets KNum kw "frequency" 252 fr ->
  gets KBool kw "log_returns" false lg -> gets KStr kw "fix_method" "spectral"%string fm ->
  risk_matrix_kw eigh sk_lw sk_oas prices "sample_cov" kw = sample_cov eigh prices rd fr lg fm.
Proof. exact kw_sample. Qed.
Print Assumptions c105_sample_cov.
Theorem c105_semicovariance : forall eigh sk_lw sk_oas prices kw, distinct kw -> forall m rd bm fr lg fm, m = "semicovariance"%string \/ m = "semivariance"%string ->
  gets KBool kw "returns_data" false rd -> gets KNum kw "benchmark" (79 / 10 ^ 6) bm -> gets KNum kw "frequency" 252 fr ->
  gets KBool kw "log_returns" false lg -> gets KStr kw "fix_method" "spectral"%string fm ->
  risk_matrix_kw eigh sk_lw sk_oas prices m kw = semicovariance eigh prices rd bm fr lg fm.
Proof. exact kw_semi. Qed.
Print Assumptions c105_semicovariance.
Theorem c105_exp_cov : forall eigh sk_lw sk_oas prices kw, distinct kw -> forall rd sp fr lg fm,
  gets KBool kw "returns_data" false rd -> gets KNum kw "span" 180 sp -> gets KNum kw "frequency" 252 fr ->
  gets KBool kw "log_returns" false lg -> gets KStr kw "fix_method" "spectral"%string fm ->
  risk_matrix_kw eigh sk_lw sk_oas prices "exp_cov" kw = exp_cov eigh prices rd sp fr lg fm.
Proof. exact kw_exp. Qed.
Print Assumptions c105_exp_cov.
Theorem c105_shrinkage : forall eigh sk_lw sk_oas prices kw, distinct kw -> forall m rd fr lg,
  In m ["ledoit_wolf"; "ledoit_wolf_constant_variance"; "ledoit_wolf_single_factor"; "ledoit_wolf_constant_correlation"; "oracle_approximating"]%string ->
  only ["returns_data"; "frequency"; "log_returns"]%string kw ->
  gets KBool kw "returns_data" false rd -> gets KNum kw "frequency" 252 fr -> gets KBool kw "log_returns" false lg ->
  risk_matrix_kw eigh sk_lw sk_oas prices m kw = match shrinkage_init prices rd fr lg with
                                                 | Ok sh => match shrink_with eigh sk_lw sk_oas m sh with Ok r => Ok (fst r) | Err e => Err e end
                                                 | Err e => Err e
                                                 end.
Proof. exact kw_shrink. Qed.
Print Assumptions c105_shrinkage.
Theorem c105_mean : forall prices kw, distinct kw -> forall rd c fr lg, only ["returns_data"; "compounding"; "frequency"; "log_returns"]%string kw ->
  gets KBool kw "returns_data" false rd -> gets KBool kw "compounding" true c -> gets KNum kw "frequency" 252 fr -> gets KBool kw "log_returns" false lg ->
  return_model_kw prices "mean_historical_return" kw = mean_historical_return prices rd c fr lg.
Proof. exact kw_mean. Qed.
Print Assumptions c105_mean.
Theorem c105_ema : forall prices kw, distinct kw -> forall rd c sp fr lg, only ["returns_data"; "compounding"; "span"; "frequency"; "log_returns"]%string kw ->
  gets KBool kw "returns_data" false rd -> gets KBool kw "compounding" true c -> gets KNum kw "span" 500 sp -> gets KNum kw "frequency" 252 fr ->
  gets KBool kw "log_returns" false lg ->
  return_model_kw prices "ema_historical_return" kw = ema_historical_return prices rd c sp fr lg.
Proof. exact kw_ema. Qed.
Print Assumptions c105_ema.
Theorem c105_capm : forall prices kw, distinct kw -> forall m rd rf c fr lg,
  only ["market_prices"; "returns_data"; "risk_free_rate"; "compounding"; "frequency"; "log_returns"]%string kw ->
  gets KTable kw "market_prices" None m -> gets KBool kw "returns_data" false rd -> gets KNum kw "risk_free_rate" 0 rf ->
  gets KBool kw "compounding" true c -> gets KNum kw "frequency" 252 fr -> gets KBool kw "log_returns" false lg ->
  return_model_kw prices "capm_return" kw = snd (capm_return prices m rd rf c fr lg).
Proof. exact kw_capm. Qed.
Print Assumptions c105_capm.
Theorem c105_defaults : forall eigh sk_lw sk_oas prices m, risk_matrix_kw eigh sk_lw sk_oas prices m [] = risk_matrix eigh sk_lw sk_oas prices m.
Proof. exact kw_none. Qed.
Print Assumptions c105_defaults.
Theorem c105_return_defaults : forall prices m, return_model_kw prices m [] = return_model prices m.
Proof. exact kw_none_return. Qed.
Print Assumptions c105_return_defaults.
(** a misspelt keyword is an error for the shrinkage methods and the return models ... *)
Theorem c105_misspelt : forall eigh sk_lw sk_oas prices m kw k,
  In m ["ledoit_wolf"; "ledoit_wolf_constant_variance"; "ledoit_wolf_single_factor"; "ledoit_wolf_constant_correlation"; "oracle_approximating"]%string ->
  In k (map fst kw) -> ~ In k ["returns_data"; "frequency"; "log_returns"]%string ->
  risk_matrix_kw eigh sk_lw sk_oas prices m kw = Err TypeError.
Proof. exact kw_refused. Qed.
Print Assumptions c105_misspelt.
Theorem c105_return_misspelt : forall prices m kw k,
  In (m, k) [("mean_historical_return", "span"); ("mean_historical_return", "risk_free_rate"); ("ema_historical_return", "risk_free_rate"); ("capm_return", "span")]%string \/
    In m ["mean_historical_return"; "ema_historical_return"; "capm_return"]%string /\
    ~ In k ["market_prices"; "returns_data"; "risk_free_rate"; "compounding"; "span"; "frequency"; "log_returns"]%string ->
  In k (map fst kw) -> return_model_kw prices m kw = Err TypeError.
Proof. exact kw_return_refused. Qed.
Print Assumptions c105_return_misspelt.
(** ... but the other risk models take it without effect *)
Theorem c105_misspelt_refuted : forall eigh sk_lw sk_oas prices m a b k v, In m ["sample_cov"; "semicovariance"; "semivariance"; "exp_cov"]%string ->
  ~ In k ["returns_data"; "benchmark"; "span"; "frequency"; "log_returns"; "fix_method"]%string ->
  risk_matrix_kw eigh sk_lw sk_oas prices m (a ++ (k, v) :: b) = risk_matrix_kw eigh sk_lw sk_oas prices m (a ++ b).
Proof. exact kw_ignored. Qed.
Print Assumptions c105_misspelt_refuted.
Theorem c105_unknown_method : forall eigh sk_lw sk_oas prices m kw,
  ~ In m ["sample_cov"; "semicovariance"; "semivariance"; "exp_cov"; "ledoit_wolf"; "ledoit_wolf_constant_variance"; "ledoit_wolf_single_factor"; "ledoit_wolf_constant_correlation"; "oracle_approximating"]%string ->
  risk_matrix_kw eigh sk_lw sk_oas prices m kw = Err NotImplementedError.
Proof. exact kw_unknown_method. Qed.
Print Assumptions c105_unknown_method.
Theorem c105_unknown_return_method : forall prices m kw, ~ In m ["mean_historical_return"; "ema_historical_return"; "capm_return"]%string ->
  return_model_kw prices m kw = Err NotImplementedError.
Proof. exact kw_return_unknown. Qed.
Print Assumptions c105_unknown_return_method.
