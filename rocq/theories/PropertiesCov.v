(** * Properties of the risk models (C70-C75, C83-C85) *)
From Coq Require Import ZArith List String Bool Reals.
From Verif Require Import Num Py MFrame MHRP MReturns MRisk SLin SHRP SReturns SRisk Sums PCov1 PCov2 PCov3 PCov4.
Import ListNotations.
Local Open Scope R_scope.

(** C70: nothing but the sample covariances, for returns and for prices *)
Theorem c70_sample_cov : forall eigh T dates names x fr log fm, (2 <= T)%nat -> 0 <= fr -> (forall t, In t names -> List.length (x t) = T) ->
  sample_cov eigh (history T dates names x) true fr log fm = Ok (labelled names (fun t u => sample_covariance (x t) (x u) * fr)).
Proof. exact sample_cov_complete. Qed.
Print Assumptions c70_sample_cov.
Theorem c70_sample_cov_prices : forall eigh T dates names p fr fm, (2 <= T)%nat -> 0 <= fr -> names <> [] -> List.length dates = S T ->
  (forall t, In t names -> List.length (p t) = S T) -> (forall t, In t names -> Forall (fun v => 0 < v) (p t)) -> forall log : bool,
  sample_cov eigh (history (S T) dates names p) false fr log fm =
  Ok (labelled names (fun t u => (if log then sample_covariance (logarithmic_returns (p t)) (logarithmic_returns (p u))
                                  else sample_covariance (simple_returns (p t)) (simple_returns (p u))) * fr)).
Proof. exact sample_cov_prices. Qed.
Print Assumptions c70_sample_cov_prices.
Theorem c70_portfolio_variance : forall T names x fr w, (2 <= T)%nat -> (forall t, In t names -> List.length (x t) = T) -> List.length w = List.length names ->
  qform (f_rows (labelled names (fun t u => sample_covariance (x t) (x u) * fr))) w =
  fr * sample_covariance (portfolio_series T names x w) (portfolio_series T names x w).
Proof. exact sample_variance. Qed.
Print Assumptions c70_portfolio_variance.
Theorem c70_psd : forall T (names : list label) (x : label -> list R) fr, (2 <= T)%nat -> 0 <= fr -> (forall t, In t names -> List.length (x t) = T) ->
  let M := f_rows (labelled names (fun t u => sample_covariance (x t) (x u) * fr)) in psd (List.length names) M /\ symmetric (List.length names) M.
Proof. exact sample_good. Qed.
Print Assumptions c70_psd.

(** C71 *)
Theorem c71_semicovariance : forall eigh T dates names x b fr log fm, (1 <= T)%nat -> 0 <= fr -> (forall t, In t names -> List.length (x t) = T) ->
  let C := labelled names (fun t u => semi b (x t) (x u) * fr) in
  semicovariance eigh (history T dates names x) true b fr log fm = Ok C /\ psd (List.length names) (f_rows C) /\ symmetric (List.length names) (f_rows C).
Proof. exact semicovariance_complete. Qed.
Print Assumptions c71_semicovariance.
Theorem c71_exp_cov : forall eigh T dates names x span fr log fm, (1 <= T)%nat -> 1 <= span -> 0 <= fr -> (forall t, In t names -> List.length (x t) = T) ->
  let C := labelled names (fun t u => ema_covariance span (x t) (x u) * fr) in
  exp_cov eigh (history T dates names x) true span fr log fm = Ok C /\ psd (List.length names) (f_rows C) /\ symmetric (List.length names) (f_rows C).
Proof. exact exp_cov_complete. Qed.
Print Assumptions c71_exp_cov.

(** C72 *)
Theorem c72_check : forall n M, square n M -> symmetric n M ->
  (psd n M -> is_psd M = true) /\ (is_psd M = true -> nearly_psd (/ 10 ^ 16) n M).
Proof. exact check_sound. Qed.
Print Assumptions c72_check.
Theorem c72_unchanged : forall eigh M fm, is_psd M = true -> fix_psd eigh M fm = Ok M.
Proof. exact fix_passing. Qed.
Print Assumptions c72_unchanged.
Theorem c72_spectral : forall eigh n M, square n M -> symmetric n M -> eigen_of n M (fst (eigh M)) (snd (eigh M)) ->
  exists F, fix_psd eigh M "spectral" = Ok F /\ symmetric n F /\ nearly_psd (/ 10 ^ 16) n F /\
    (F = M \/ (psd n F /\ forall P, psd n P -> distance2 n M F <= distance2 n M P)).
Proof. exact fix_spectral. Qed.
Print Assumptions c72_spectral.
Theorem c72_diag : forall eigh n M, square n M -> symmetric n M -> eigen_of n M (fst (eigh M)) (snd (eigh M)) ->
  exists F, fix_psd eigh M "diag" = Ok F /\ symmetric n F /\ nearly_psd (/ 10 ^ 16) n F /\
    (F = M \/ (psd n F /\ is_psd F = true /\ exists c, 0 < c /\ forall i j, (i < n)%nat -> (j < n)%nat -> entry F i j = entry M i j + (if Nat.eqb i j then c else 0))).
Proof. exact fix_diag. Qed.
Print Assumptions c72_diag.
Theorem c72_unknown : forall eigh M fm, fm <> "spectral"%string -> fm <> "diag"%string ->
  fix_psd eigh M fm = if is_psd M then Ok M else Err NotImplementedError.
Proof. exact fix_unknown. Qed.
Print Assumptions c72_unknown.
Theorem c72_sample_cov_any_data : forall eigh returns fr log fm C, whole (f_rows (frame_cov returns)) = Ok C -> fm = "spectral"%string \/ fm = "diag"%string ->
  let n := List.length (f_cols returns) in let M := scale_rows fr C in
  eigen_of n M (fst (eigh M)) (snd (eigh M)) ->
  exists rows, sample_cov eigh returns true fr log fm = Ok (mkFrame (f_cols returns) (f_cols returns) rows) /\ symmetric n rows /\ nearly_psd (/ 10 ^ 16) n rows.
Proof. exact sample_cov_any. Qed.
Print Assumptions c72_sample_cov_any_data.
(** the exact claim fails: a matrix just below zero passes the check and is returned as it is *)
Theorem c72_exactly_psd_refuted : exists M, square 1 M /\ symmetric 1 M /\ ~ psd 1 M /\ forall eigh fm, fix_psd eigh M fm = Ok M.
Proof. exact fix_not_exact. Qed.
Print Assumptions c72_exactly_psd_refuted.

(** C73 *)
Theorem c73_round_trip : forall names c, (forall t, In t names -> 0 < c t t) ->
  exists r, cov_to_corr (labelled names c) = Ok (labelled names r) /\
    (forall t u, In t names -> In u names -> r t u = c t u / (sqrt (c t t) * sqrt (c u u))) /\
    (forall t, In t names -> r t t = 1) /\
    corr_to_cov (labelled names r) (map (fun t => sqrt (c t t)) names) = Ok (labelled names c).
Proof. exact correlation_round_trip. Qed.
Print Assumptions c73_round_trip.
Theorem c73_range : forall names c, (forall t, In t names -> 0 < c t t) -> psd (List.length names) (f_rows (labelled names c)) -> symmetric (List.length names) (f_rows (labelled names c)) ->
  forall t u, In t names -> In u names -> -1 <= c t u / (sqrt (c t t) * sqrt (c u u)) <= 1.
Proof. exact correlation_range. Qed.
Print Assumptions c73_range.

(** C74 *)
Theorem c74_shrunk : forall eigh T dates names x fr log d, (2 <= T)%nat -> names <> [] -> List.length dates = T -> (forall t, In t names -> List.length (x t) = T) -> 0 <= fr -> 0 <= d <= 1 ->
  let n := List.length names in let V := sample_matrix names x in
  exists sh rows, shrinkage_init (history T dates names x) true fr log = Ok sh /\ shrunk_covariance eigh sh d = Ok (mkFrame names names rows) /\ square n rows /\
    (forall i j, (i < n)%nat -> (j < n)%nat -> entry rows i j = fr * (d * (if Nat.eqb i j then trace n V / INR n else 0) + (1 - d) * entry V i j)) /\
    trace n rows = fr * trace n V /\ psd n rows /\ symmetric n rows.
Proof. exact shrunk_init. Qed.
Print Assumptions c74_shrunk.
Theorem c74_ends : forall eigh T dates names x fr log fm, (2 <= T)%nat -> names <> [] -> List.length dates = T -> (forall t, In t names -> List.length (x t) = T) -> 0 <= fr ->
  exists sh, shrinkage_init (history T dates names x) true fr log = Ok sh /\
    shrunk_covariance eigh sh 0 = sample_cov eigh (history T dates names x) true fr log fm /\
    exists c rows, shrunk_covariance eigh sh 1 = Ok (mkFrame names names rows) /\ square (List.length names) rows /\
      forall i j, (i < List.length names)%nat -> (j < List.length names)%nat -> entry rows i j = if Nat.eqb i j then c else 0.
Proof. exact shrunk_ends. Qed.
Print Assumptions c74_ends.

(** C75 *)
Theorem c75_intensity : forall sh r, single_factor sh = Ok r \/ constant_correlation sh = Ok r -> 0 <= snd r <= 1.
Proof. exact intensity_range. Qed.
Print Assumptions c75_intensity.
Theorem c75_constant_correlation : forall eigh sk T dates names x fr log, (2 <= T)%nat -> (2 <= List.length names)%nat -> List.length dates = T -> (forall t, In t names -> List.length (x t) = T) -> 0 <= fr ->
  let n := List.length names in let V := sample_matrix names x in
  (forall t, In t names -> 0 < sample_covariance (x t) (x t)) ->
  exists sh rows d, shrinkage_init (history T dates names x) true fr log = Ok sh /\ ledoit_wolf eigh sk sh "constant_correlation" = Ok (mkFrame names names rows, d) /\ 0 <= d <= 1 /\
    psd n rows /\ symmetric n rows /\
    (forall i, (i < n)%nat -> entry rows i i = fr * entry V i i) /\
    (forall i j, (i < n)%nat -> (j < n)%nat -> i <> j -> entry rows i j =
       fr * (d * (mean_correlation n V * (sqrt (entry V i i) * sqrt (entry V j j))) + (1 - d) * entry V i j)).
Proof. exact constant_correlation_init. Qed.
Print Assumptions c75_constant_correlation.
(** the single factor estimator keeps the variances with divisor T, not T - 1 *)
Theorem c75_single_factor : forall eigh sk T dates names x fr log, (2 <= T)%nat -> names <> [] -> List.length dates = T -> (forall t, In t names -> List.length (x t) = T) -> 0 <= fr ->
  let n := List.length names in let V := sample_matrix names x in let m := market T names x in let k := fr * ((INR T - 1) / INR T) in
  sample_covariance m m <> 0 ->
  exists sh rows d, shrinkage_init (history T dates names x) true fr log = Ok sh /\ ledoit_wolf eigh sk sh "single_factor" = Ok (mkFrame names names rows, d) /\ 0 <= d <= 1 /\
    psd n rows /\ symmetric n rows /\
    (forall i, (i < n)%nat -> entry rows i i = k * entry V i i) /\
    (forall i j, (i < n)%nat -> (j < n)%nat -> i <> j -> entry rows i j =
       k * (d * (sample_covariance (x (nth i names (LInt 0))) m * sample_covariance (x (nth j names (LInt 0))) m / sample_covariance m m) + (1 - d) * entry V i j)).
Proof. exact single_factor_init. Qed.
Print Assumptions c75_single_factor.
Theorem c75_single_factor_variance_refuted : forall eigh sk T dates names x fr log fm, (2 <= T)%nat -> names <> [] -> List.length dates = T -> (forall t, In t names -> List.length (x t) = T) -> 0 < fr ->
  let m := market T names x in sample_covariance m m <> 0 ->
  exists sh F d C, shrinkage_init (history T dates names x) true fr log = Ok sh /\ ledoit_wolf eigh sk sh "single_factor" = Ok (F, d) /\
    sample_cov eigh (history T dates names x) true fr log fm = Ok C /\
    forall i, (i < List.length names)%nat -> 0 < entry (f_rows C) i i -> entry (f_rows F) i i < entry (f_rows C) i i.
Proof. exact single_factor_smaller. Qed.
Print Assumptions c75_single_factor_variance_refuted.

(** C83 *)
Theorem c83_semicovariance_any_data : forall eigh T dates names x b fr log fm, (1 <= T)%nat -> 0 <= fr ->
  let C := labelled names (fun t u => semi_partial T b (x t) (x u) * fr) in
  semicovariance eigh (partial_history T dates names x) true b fr log fm = Ok C /\ psd (List.length names) (f_rows C) /\ symmetric (List.length names) (f_rows C).
Proof. exact semicovariance_any. Qed.
Print Assumptions c83_semicovariance_any_data.
Theorem c83_missing_understates : forall T b x, List.length x = T -> present x <> [] ->
  semi_partial T b x x = INR (List.length (present x)) / INR T * semi b (present x) (present x).
Proof. exact semicovariance_missing. Qed.
Print Assumptions c83_missing_understates.

(** C84 *)
Theorem c84_two_assets : forall eigh sk T dates names x fr log fm, (2 <= T)%nat -> List.length names = 2%nat -> List.length dates = T -> (forall t, In t names -> List.length (x t) = T) -> 0 <= fr ->
  (forall t, In t names -> 0 < sample_covariance (x t) (x t)) ->
  exists sh F d, shrinkage_init (history T dates names x) true fr log = Ok sh /\
    sample_cov eigh (history T dates names x) true fr log fm = Ok F /\ ledoit_wolf eigh sk sh "constant_correlation" = Ok (F, d).
Proof. exact constant_correlation_two_init. Qed.
Print Assumptions c84_two_assets.

(** C85 *)
Theorem c85_risk_matrix : forall eigh sk_lw sk_oas T dates names p, (2 <= T)%nat -> names <> [] -> List.length dates = S T ->
  (forall t, In t names -> List.length (p t) = S T) -> (forall t, In t names -> Forall (fun v => 0 < v) (p t)) ->
  psd_oracle (List.length names) sk_lw -> psd_oracle (List.length names) sk_oas ->
  (forall t, In t names -> 0 < sample_covariance (simple_returns (p t)) (simple_returns (p t))) ->
  let m := market T names (fun t => simple_returns (p t)) in sample_covariance m m <> 0 -> (2 <= List.length names)%nat ->
  forall method, In method known_methods ->
  exists rows, risk_matrix eigh sk_lw sk_oas (history (S T) dates names p) method = Ok (mkFrame names names rows) /\ psd (List.length names) rows /\ symmetric (List.length names) rows.
Proof. exact risk_matrix_good. Qed.
Print Assumptions c85_risk_matrix.
Theorem c85_unknown : forall eigh sk_lw sk_oas prices method, ~ In method known_methods -> risk_matrix eigh sk_lw sk_oas prices method = Err NotImplementedError.
Proof. exact risk_matrix_unknown. Qed.
Print Assumptions c85_unknown.
