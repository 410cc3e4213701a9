(** * Properties of method names, shrinkage intensities and HRP inputs (C81, C98-C101) *)
From Coq Require Import ZArith List String Bool Reals Permutation.
From Verif Require Import Num Py MBase MFrame MHRP MReturns MRisk SLin SBase SHRP SHRP3 SHRP2 SReturns SRisk SShrink Sums PHRP3 PCov3 PShrink PNames PHRP5 SConv PConv.
Import ListNotations.
Local Open Scope R_scope.

(** C81 *)
Theorem c81_overwritten : forall T dates names x rf (compounding : bool) fr mm log, NoDup names -> (2 <= T)%nat -> In (LStr "mkt") names -> (forall t, In t names -> List.length (x t) = T) ->
  let m := market T names x in sample_covariance m m <> 0 ->
  (if compounding then (Forall (fun v => -1 < v) m /\ mm = Rpower (growth_factor m) (fr / INR T) - 1) else mm = average m * fr) ->
  capm_return (history T dates names x) None true rf compounding fr log =
  (None, Ok (false, map (fun t => (t, Some (rf + market_beta (x t) m * (mm - rf)))) (filter (fun t => negb (label_eqb t (LStr "mkt"))) names))).
Proof. exact capm_overwrites. Qed.
Print Assumptions c81_overwritten.

(** C98: complete positive prices over T + 1 dates *)
Theorem c98_sample_cov : forall eigh sk_lw sk_oas T dates names p, (2 <= T)%nat -> names <> [] -> List.length dates = S T ->
  (forall t, In t names -> List.length (p t) = S T) -> (forall t, In t names -> Forall (fun v => 0 < v) (p t)) ->
  risk_matrix eigh sk_lw sk_oas (history (S T) dates names p) "sample_cov" =
  Ok (labelled names (fun t u => sample_covariance (simple_returns (p t)) (simple_returns (p u)) * 252)).
Proof. exact risk_sample. Qed.
Print Assumptions c98_sample_cov.
Theorem c98_semicovariance : forall eigh sk_lw sk_oas T dates names p, (2 <= T)%nat -> names <> [] -> List.length dates = S T ->
  (forall t, In t names -> List.length (p t) = S T) -> (forall t, In t names -> Forall (fun v => 0 < v) (p t)) ->
  forall m, m = "semicovariance"%string \/ m = "semivariance"%string ->
  risk_matrix eigh sk_lw sk_oas (history (S T) dates names p) m =
  Ok (labelled names (fun t u => semi (79 / 10 ^ 6) (simple_returns (p t)) (simple_returns (p u)) * 252)).
Proof. exact risk_semi. Qed.
Print Assumptions c98_semicovariance.
Theorem c98_exp_cov : forall eigh sk_lw sk_oas T dates names p, (2 <= T)%nat -> names <> [] -> List.length dates = S T ->
  (forall t, In t names -> List.length (p t) = S T) -> (forall t, In t names -> Forall (fun v => 0 < v) (p t)) ->
  risk_matrix eigh sk_lw sk_oas (history (S T) dates names p) "exp_cov" =
  Ok (labelled names (fun t u => ema_covariance 180 (simple_returns (p t)) (simple_returns (p u)) * 252)).
Proof. exact risk_exp. Qed.
Print Assumptions c98_exp_cov.
Theorem c98_ledoit_wolf : forall eigh sk_lw sk_oas T dates names p, (2 <= T)%nat -> names <> [] -> List.length dates = S T ->
  (forall t, In t names -> List.length (p t) = S T) -> (forall t, In t names -> Forall (fun v => 0 < v) (p t)) ->
  let rows := map (fun k => map (fun t => nth k (simple_returns (p t)) 0) names) (seq 0 T) in
  forall m, m = "ledoit_wolf"%string \/ m = "ledoit_wolf_constant_variance"%string -> psd (List.length names) (fst (sk_lw rows)) -> symmetric (List.length names) (fst (sk_lw rows)) ->
  risk_matrix eigh sk_lw sk_oas (history (S T) dates names p) m = Ok (mkFrame names names (map (map (fun v => v * 252)) (fst (sk_lw rows)))).
Proof. exact risk_ledoit_wolf. Qed.
Print Assumptions c98_ledoit_wolf.
Theorem c98_oracle_approximating : forall eigh sk_lw sk_oas T dates names p, (2 <= T)%nat -> names <> [] -> List.length dates = S T ->
  (forall t, In t names -> List.length (p t) = S T) -> (forall t, In t names -> Forall (fun v => 0 < v) (p t)) ->
  let rows := map (fun k => map (fun t => nth k (simple_returns (p t)) 0) names) (seq 0 T) in
  psd (List.length names) (fst (sk_oas rows)) -> symmetric (List.length names) (fst (sk_oas rows)) ->
  risk_matrix eigh sk_lw sk_oas (history (S T) dates names p) "oracle_approximating" = Ok (mkFrame names names (map (map (fun v => v * 252)) (fst (sk_oas rows)))).
Proof. exact risk_oas. Qed.
Print Assumptions c98_oracle_approximating.
Theorem c98_single_factor : forall eigh sk_lw sk_oas T dates names p, (2 <= T)%nat -> names <> [] -> List.length dates = S T ->
  (forall t, In t names -> List.length (p t) = S T) -> (forall t, In t names -> Forall (fun v => 0 < v) (p t)) ->
  let x t := simple_returns (p t) in let n := List.length names in let V := sample_matrix names x in let xs i := x (nth i names (LInt 0)) in
  let m := market T names x in let k := 252 * ((INR T - 1) / INR T) in
  let b i := plain_covariance T (xs i) m in let s i j := plain_covariance T (xs i) (xs j) in let v := plain_covariance T m m in
  let g := lw_gamma n s (fun i j => b i * b j / v) in
  sample_covariance m m <> 0 -> g <> 0 ->
  let d := lw_intensity T (lw_pi T n xs s) (rho_market T n xs m s) g in
  exists r, risk_matrix eigh sk_lw sk_oas (history (S T) dates names p) "ledoit_wolf_single_factor" = Ok (mkFrame names names r) /\
    (forall i, (i < n)%nat -> entry r i i = k * entry V i i) /\
    (forall i j, (i < n)%nat -> (j < n)%nat -> i <> j -> entry r i j =
       k * (d * (sample_covariance (xs i) m * sample_covariance (xs j) m / sample_covariance m m) + (1 - d) * entry V i j)).
Proof. exact risk_single_factor. Qed.
Print Assumptions c98_single_factor.
Theorem c98_constant_correlation : forall eigh sk_lw sk_oas T dates names p, (2 <= T)%nat -> names <> [] -> List.length dates = S T ->
  (forall t, In t names -> List.length (p t) = S T) -> (forall t, In t names -> Forall (fun v => 0 < v) (p t)) ->
  let x t := simple_returns (p t) in let n := List.length names in let V := sample_matrix names x in let xs i := x (nth i names (LInt 0)) in
  (2 <= n)%nat -> (forall t, In t names -> 0 < sample_covariance (x t) (x t)) ->
  let s i j := sample_covariance (xs i) (xs j) in let rho := mean_correlation n V in
  let g := lw_gamma n s (fun i j => rho * sqrt (s i i * s j j)) in g <> 0 ->
  let d := lw_intensity T (lw_pi T n xs s) (rho_constant T n xs s rho) g in
  exists r, risk_matrix eigh sk_lw sk_oas (history (S T) dates names p) "ledoit_wolf_constant_correlation" = Ok (mkFrame names names r) /\
    (forall i, (i < n)%nat -> entry r i i = 252 * entry V i i) /\
    (forall i j, (i < n)%nat -> (j < n)%nat -> i <> j -> entry r i j =
       252 * (d * (rho * (sqrt (entry V i i) * sqrt (entry V j j))) + (1 - d) * entry V i j)).
Proof. exact risk_constant_correlation. Qed.
Print Assumptions c98_constant_correlation.
Theorem c98_unknown_target : forall eigh sk sh target, ~ In target ["constant_variance"; "single_factor"; "constant_correlation"]%string ->
  ledoit_wolf eigh sk sh target = Err NotImplementedError.
Proof. exact target_unknown. Qed.
Print Assumptions c98_unknown_target.
Theorem c98_mean_return : forall T dates names p, (2 <= T)%nat -> names <> [] -> List.length dates = S T ->
  (forall t, In t names -> List.length (p t) = S T) -> (forall t, In t names -> Forall (fun v => 0 < v) (p t)) ->
  return_model (history (S T) dates names p) "mean_historical_return" = Ok (false, map (fun t => (t, Some (growth_rate 252 (p t)))) names).
Proof. exact model_mean. Qed.
Print Assumptions c98_mean_return.
Theorem c98_ema_return : forall T dates names p, (2 <= T)%nat -> names <> [] -> List.length dates = S T ->
  (forall t, In t names -> List.length (p t) = S T) -> (forall t, In t names -> Forall (fun v => 0 < v) (p t)) ->
  (forall t, In t names -> -1 < ema_value 500 (simple_returns (p t))) ->
  return_model (history (S T) dates names p) "ema_historical_return" = Ok (false, map (fun t => (t, Some (Rpower (1 + ema_value 500 (simple_returns (p t))) 252 - 1))) names).
Proof. exact model_ema. Qed.
Print Assumptions c98_ema_return.
Theorem c98_capm_return : forall T dates names p, (2 <= T)%nat -> names <> [] -> List.length dates = S T ->
  (forall t, In t names -> List.length (p t) = S T) -> (forall t, In t names -> Forall (fun v => 0 < v) (p t)) ->
  ~ In (LStr "mkt") names -> let m := market T names (fun t => simple_returns (p t)) in sample_covariance m m <> 0 -> Forall (fun v => -1 < v) m ->
  return_model (history (S T) dates names p) "capm_return" =
  Ok (false, map (fun t => (t, Some (0 + market_beta (simple_returns (p t)) m * (Rpower (growth_factor m) (252 / INR T) - 1 - 0)))) names).
Proof. exact model_capm. Qed.
Print Assumptions c98_capm_return.
Theorem c98_unknown_return : forall prices method, ~ In method ["mean_historical_return"; "ema_historical_return"; "capm_return"]%string ->
  return_model prices method = Err NotImplementedError.
Proof. exact model_unknown. Qed.
Print Assumptions c98_unknown_return.

(** C99 *)
Theorem c99_constant_correlation : forall eigh sk T dates names x fr log, (2 <= T)%nat -> (2 <= List.length names)%nat -> List.length dates = T -> (forall t, In t names -> List.length (x t) = T) -> 0 <= fr ->
  (forall t, In t names -> 0 < sample_covariance (x t) (x t)) ->
  let n := List.length names in let xs i := x (nth i names (LInt 0)) in let s i j := sample_covariance (xs i) (xs j) in
  let r := mean_correlation n (sample_matrix names x) in
  let g := lw_gamma n s (fun i j => r * sqrt (s i i * s j j)) in
  g <> 0 ->
  exists sh F, shrinkage_init (history T dates names x) true fr log = Ok sh /\
    ledoit_wolf eigh sk sh "constant_correlation" = Ok (F, lw_intensity T (lw_pi T n xs s) (rho_constant T n xs s r) g).
Proof. exact constant_intensity_init. Qed.
Print Assumptions c99_constant_correlation.
Theorem c99_single_factor : forall eigh sk T dates names x fr log, (2 <= T)%nat -> names <> [] -> List.length dates = T -> (forall t, In t names -> List.length (x t) = T) -> 0 <= fr ->
  let n := List.length names in let xs i := x (nth i names (LInt 0)) in let m := market T names x in
  let s i j := plain_covariance T (xs i) (xs j) in let b i := plain_covariance T (xs i) m in let v := plain_covariance T m m in
  let g := lw_gamma n s (fun i j => b i * b j / v) in
  v <> 0 -> g <> 0 ->
  exists sh F, shrinkage_init (history T dates names x) true fr log = Ok sh /\
    ledoit_wolf eigh sk sh "single_factor" = Ok (F, lw_intensity T (lw_pi T n xs s) (rho_market T n xs m s) g).
Proof. exact market_intensity_init. Qed.
Print Assumptions c99_single_factor.

(** C100 *)
Theorem c100_leaf_order : forall n link, valid_linkage n link -> exists ix, get_quasi_diag link = Ok ix /\ gathered n link (2 * n - 2) ix.
Proof. exact quasi_diag_gathered. Qed.
Print Assumptions c100_leaf_order.
Theorem c100_clusters_together : forall n link ix, valid_linkage n link -> get_quasi_diag link = Ok ix ->
  forall i, (i <= 2 * n - 2)%nat -> exists before l after, gathered n link i l /\ ix = before ++ l ++ after.
Proof. exact clusters_together. Qed.
Print Assumptions c100_clusters_together.
Theorem c100_returns : forall lk m T dates names x cov, In m linkage_methods -> (2 <= List.length names)%nat -> NoDup names -> (2 <= T)%nat ->
  (forall t, In t names -> List.length (x t) = T) ->
  let c := fun t u => sample_covariance (x t) (x u) in
  positive_risk c names -> linkage_valid lk m (List.length names) ->
  let link := lk m (pair_distances (fun t u => correlation_distance (correlation_of c t u)) names) in
  exists h0 h d ix w, hrp_init (HRetFrame (history T dates names x)) cov = Ok h0 /\ hrp_optimize lk m h0 = (h, Ok d) /\ h_clusters h = Some link /\
    gathered (List.length names) link (2 * List.length names - 2) ix /\ bisected (first_share c) 1 (map (fun i => nth i names (LInt 0)) ix) w /\ Permutation d w.
Proof. exact optimize_returns_traced. Qed.
Print Assumptions c100_returns.
Theorem c100_covariance : forall lk m names c, In m linkage_methods -> (2 <= List.length names)%nat -> NoDup names ->
  positive_risk c names -> linkage_valid lk m (List.length names) ->
  exists h0 h d ix w r, let link := lk m (pair_distances (fun t u => correlation_distance (r t u)) names) in
    hrp_init HRetNone (HCovFrame (labelled names c)) = Ok h0 /\ hrp_optimize lk m h0 = (h, Ok d) /\ h_clusters h = Some link /\
    (forall t u, In t names -> In u names -> rounded 6 (correlation_of c t u) (r t u)) /\
    gathered (List.length names) link (2 * List.length names - 2) ix /\ bisected (first_share c) 1 (map (fun i => nth i names (LInt 0)) ix) w /\ Permutation d w.
Proof. exact optimize_cov_traced. Qed.
Print Assumptions c100_covariance.
Theorem c100_no_inputs : hrp_init HRetNone HCovNone = Err ValueError /\ forall c, hrp_init HRetOther c = Err TypeError.
Proof. exact (conj init_nothing init_not_a_table). Qed.
Print Assumptions c100_no_inputs.

(** C101 *)
Theorem c101_returns : forall T dates names x cov h0 w rf fr, (2 <= T)%nat -> (forall t, In t names -> List.length (x t) = T) ->
  hrp_init (HRetFrame (history T dates names x)) cov = Ok h0 -> List.length w = List.length names ->
  let C := f_rows (labelled names (fun t u => sample_covariance (x t) (x u) * fr)) in
  0 < qform C w -> forall h, h_returns h = h_returns h0 -> b_weights (h_base h) = Some w ->
  exists r s, hrp_performance h rf fr = Ok (Some r, s, Some ((r - rf) / s)) /\ r = inner w (map (fun t => average (x t) * fr) names) /\ 0 < s /\ s * s = qform C w.
Proof. exact performance_returns. Qed.
Print Assumptions c101_returns.
Theorem c101_covariance : forall names c h0 w rf fr, hrp_init HRetNone (HCovFrame (labelled names c)) = Ok h0 -> List.length w = List.length names ->
  let C := f_rows (labelled names c) in 0 <= qform C w -> forall h, h_returns h = h_returns h0 -> h_cov h = h_cov h0 -> b_weights (h_base h) = Some w ->
  exists s, hrp_performance h rf fr = Ok (None, s, None) /\ 0 <= s /\ s * s = qform C w.
Proof. exact performance_cov. Qed.
Print Assumptions c101_covariance.
Theorem c101_before : forall r c h0 rf fr, hrp_init r c = Ok h0 -> forall t, hrp_performance h0 rf fr <> Ok t.
Proof. exact performance_before. Qed.
Print Assumptions c101_before.
Theorem c101_inputs_kept : forall lk m h0 h r, hrp_optimize lk m h0 = (h, r) -> h_returns h = h_returns h0 /\ h_cov h = h_cov h0.
Proof. exact optimize_keeps. Qed.
Print Assumptions c101_inputs_kept.

(** C100: the names of methods that are accepted *)
Theorem c100_methods : forall m, In m linkage_methods <-> known_method m.
Proof. exact methods_known. Qed.
Print Assumptions c100_methods.
Theorem c100_unknown_method : forall lk m h, ~ known_method m -> hrp_optimize lk m h = (h, Err ValueError).
Proof. exact methods_unknown. Qed.
Print Assumptions c100_unknown_method.
