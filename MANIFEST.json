{
 "claims": [
  {
   "property": "C01",
   "status": "proved",
   "theorems": [
    "c01_greedy_conserves_money"
   ],
   "note": ""
  },
  {
   "property": "C02",
   "status": "proved",
   "theorems": [
    "c02_greedy_whole_shares"
   ],
   "note": ""
  },
  {
   "property": "C03",
   "status": "proved",
   "theorems": [
    "c03_greedy_terminates"
   ],
   "note": ""
  },
  {
   "property": "C04",
   "status": "proved",
   "theorems": [
    "c04_no_assertion_failure",
    "c04_greedy_succeeds",
    "c04_cleaned_weights_refuted",
    "c04_binary64_refuted"
   ],
   "note": "positive for weights summing to at most 1 over exact numbers; refuted for rounded weights and for binary64"
  },
  {
   "property": "C05",
   "status": "proved",
   "theorems": [
    "c05_long_short_accounting",
    "c05_both_sides_follow_their_targets"
   ],
   "note": ""
  },
  {
   "property": "C06",
   "status": "proved",
   "theorems": [
    "c06_empty_portfolio",
    "c06_only_shorts",
    "c06_zero_longs",
    "c06_short_ratio_zero",
    "c06_integer_prices"
   ],
   "note": ""
  },
  {
   "property": "C07",
   "status": "proved",
   "theorems": [
    "c07_stopping_rule",
    "c07_more_than_ten_assets_refuted"
   ],
   "note": "positive for at most ten assets; refuted for more"
  },
  {
   "property": "C08",
   "status": "proved",
   "theorems": [
    "c08_greedy_repeatable"
   ],
   "note": ""
  },
  {
   "property": "C09",
   "status": "proved",
   "theorems": [
    "c09_lp_allocation",
    "c09_found"
   ],
   "note": ""
  },
  {
   "property": "C10",
   "status": "proved",
   "theorems": [
    "c10_label_order_refuted"
   ],
   "note": "the order dependence is real: witness with an exact solver"
  },
  {
   "property": "C11",
   "status": "proved",
   "theorems": [
    "c11_latest_prices"
   ],
   "note": ""
  },
  {
   "property": "C12",
   "status": "proved",
   "theorems": [
    "c12_constructor_accepts",
    "c12_constructor_errors"
   ],
   "note": ""
  },
  {
   "property": "C13",
   "status": "proved",
   "theorems": [
    "c13_set_weights",
    "c13_missing_ticker",
    "c13_output_fed_back"
   ],
   "note": ""
  },
  {
   "property": "C14",
   "status": "proved",
   "theorems": [
    "c14_clean_weights",
    "c14_error_bound",
    "c14_errors"
   ],
   "note": ""
  },
  {
   "property": "C15",
   "status": "proved",
   "theorems": [
    "c15_clean_idempotent",
    "c15_default_cutoff_on_grid",
    "c15_off_grid_refuted"
   ],
   "note": "idempotence is proved for cutoffs on the rounding grid and refuted off it"
  },
  {
   "property": "C16",
   "status": "proved",
   "theorems": [
    "c16_dict_like_array",
    "c16_values",
    "c16_sharpe",
    "c16_without_returns",
    "c16_missing_weights"
   ],
   "note": ""
  },
  {
   "property": "C17",
   "status": "proved",
   "theorems": [
    "c17_save",
    "c17_no_file_touched"
   ],
   "note": ""
  },
  {
   "property": "C18",
   "status": "proved",
   "theorems": [
    "c18_cla_formats_agree",
    "c18_cla_two_assets_refuted",
    "c18_formats_agree",
    "c18_two_assets_refuted",
    "c18_missing_pairs",
    "c18_missing_arrays",
    "c18_missing_scalars",
    "c18_missing_two_assets_refuted"
   ],
   "note": "bounds are enforced as given; refuted for a pair of arrays with exactly two assets, for EfficientFrontier and for CLA; missing bounds default as written, except that two assets with the scalar pair (None, u) are rejected with IndexError"
  },
  {
   "property": "C19",
   "status": "proved",
   "theorems": [
    "c19_sectors"
   ],
   "note": ""
  },
  {
   "property": "C20",
   "status": "proved",
   "theorems": [
    "c20_frozen"
   ],
   "note": ""
  },
  {
   "property": "C21",
   "status": "proved",
   "theorems": [
    "c21_efficient_risk",
    "c21_max_quadratic_utility",
    "c21_efficient_return",
    "c21_name_clash_utility",
    "c21_name_clash_risk",
    "c21_name_clash_return"
   ],
   "note": ""
  },
  {
   "property": "C22",
   "status": "proved",
   "theorems": [
    "c22_zero_return_stuck",
    "c22_zero_return_refuted"
   ],
   "note": "proved for maximum returns other than 0; a cached 0 is treated as missing (refuted part)"
  },
  {
   "property": "C23",
   "status": "proved",
   "theorems": [
    "c23_risk_then_minvol",
    "c23_return_then_minvol"
   ],
   "note": ""
  },
  {
   "property": "C24",
   "status": "proved",
   "theorems": [
    "c24_errors_keep_weights"
   ],
   "note": ""
  },
  {
   "property": "C25",
   "status": "proved",
   "theorems": [
    "c25_min_volatility",
    "c25_found",
    "c25_wrong_shape"
   ],
   "note": ""
  },
  {
   "property": "C26",
   "status": "proved",
   "theorems": [
    "c26_efficient_risk",
    "c26_bad_target",
    "c26_found"
   ],
   "note": ""
  },
  {
   "property": "C27",
   "status": "proved",
   "theorems": [
    "c27_check_sound",
    "c27_market_neutral_refuted",
    "c27_reachable_accepted",
    "c27_rejected_unreachable"
   ],
   "note": "refuted for market_neutral=True (reachable targets rejected)"
  },
  {
   "property": "C28",
   "status": "proved",
   "theorems": [
    "c28_efficient_return",
    "c28_too_high",
    "c28_rejects_only_unreachable",
    "c28_market_neutral_refuted",
    "c28_found"
   ],
   "note": "refuted for market_neutral=True (reachable targets rejected)"
  },
  {
   "property": "C29",
   "status": "proved",
   "theorems": [
    "c29_utility",
    "c29_bad_aversion",
    "c29_found"
   ],
   "note": ""
  },
  {
   "property": "C30",
   "status": "proved",
   "theorems": [
    "c30_max_sharpe",
    "c30_found",
    "c30_short_refuted"
   ],
   "note": "c30_short_refuted: long-short portfolios that beat rf are not looked for if no asset does"
  },
  {
   "property": "C31",
   "status": "proved",
   "theorems": [
    "c31_offset_refuted",
    "c31_squares_refuted",
    "c31_other_constraints"
   ],
   "note": "c31_offset_refuted and c31_squares_refuted are the two witnesses that the statement asks for, each with an exact solver; homogeneous constraints are C30"
  },
  {
   "property": "C32",
   "status": "proved",
   "theorems": [
    "c32_market_neutral"
   ],
   "note": ""
  },
  {
   "property": "C33",
   "status": "proved",
   "theorems": [
    "c33_convex_objective",
    "c33_nonconvex_given",
    "c33_nonconvex_ignores",
    "c33_nonconvex_refuted"
   ],
   "note": "given constraints are met; added constraints are ignored (refuted part)"
  },
  {
   "property": "C34",
   "status": "proved",
   "theorems": [
    "c34_constructor",
    "c34_min_semivariance",
    "c34_efficient_risk",
    "c34_efficient_return",
    "c34_max_quadratic_utility",
    "c34_performance",
    "c34_found"
   ],
   "note": ""
  },
  {
   "property": "C35",
   "status": "proved",
   "theorems": [
    "c35_min_semivariance_neutral",
    "c35_efficient_risk_neutral",
    "c35_target_missed"
   ],
   "note": ""
  },
  {
   "property": "C36",
   "status": "proved",
   "theorems": [
    "c36_constructor",
    "c36_min_cvar",
    "c36_efficient_return",
    "c36_found"
   ],
   "note": ""
  },
  {
   "property": "C37",
   "status": "proved",
   "theorems": [
    "c37_efficient_risk",
    "c37_reported_not_true",
    "c37_found"
   ],
   "note": ""
  },
  {
   "property": "C38",
   "status": "proved",
   "theorems": [
    "c38_constructor",
    "c38_min_cdar",
    "c38_efficient_risk",
    "c38_efficient_return",
    "c38_found"
   ],
   "note": ""
  },
  {
   "property": "C39",
   "status": "proved",
   "theorems": [
    "c39_cdar_rejects_none",
    "c39_others_accept_none"
   ],
   "note": ""
  },
  {
   "property": "C40",
   "status": "proved",
   "theorems": [
    "c40_copies_are_values",
    "c40_original_untouched",
    "c40_original_still_open",
    "c40_methods_grow",
    "c40_values_shared",
    "c40_interference"
   ],
   "note": "lists are independent; the shared variable values are the second half of the claim"
  },
  {
   "property": "C41",
   "status": "proved",
   "theorems": [
    "c41_best_portfolios_reordered",
    "c41_reordered_accepted",
    "c41_min_volatility_both",
    "c41_utility_both",
    "c41_return_both",
    "c41_risk_both",
    "c41_max_sharpe_both",
    "c41_min_volatility",
    "c41_utility",
    "c41_return",
    "c41_risk",
    "c41_max_sharpe",
    "c41_same_min_volatility",
    "c41_same_utility",
    "c41_same_return",
    "c41_same_max_sharpe",
    "c41_mismatch",
    "c41_labels_ignored"
   ],
   "note": "re-ordering both inputs changes nothing; labels in different orders are silently mixed (c41_mismatch)"
  },
  {
   "property": "C42",
   "status": "proved",
   "theorems": [
    "c42_raw_allocation",
    "c42_optimize_cov",
    "c42_optimize_returns"
   ],
   "note": ""
  },
  {
   "property": "C43",
   "status": "proved",
   "theorems": [
    "c43_terminates",
    "c43_recursive_bisection",
    "c43_any_arithmetic"
   ],
   "note": ""
  },
  {
   "property": "C44",
   "status": "proved",
   "theorems": [
    "c44_raw_inverse_variance",
    "c44_optimize_inverse_variance"
   ],
   "note": ""
  },
  {
   "property": "C45",
   "status": "proved",
   "theorems": [
    "c45_raw_scale",
    "c45_optimize_scale"
   ],
   "note": ""
  },
  {
   "property": "C46",
   "status": "proved",
   "theorems": [
    "c46_leaf_order"
   ],
   "note": ""
  },
  {
   "property": "C47",
   "status": "proved",
   "theorems": [
    "c47_start"
   ],
   "note": ""
  },
  {
   "property": "C48",
   "status": "proved",
   "theorems": [
    "c48_boundary"
   ],
   "note": ""
  },
  {
   "property": "C49",
   "status": "proved",
   "theorems": [
    "c49_kept_points",
    "c49_all_calls",
    "c49_after_failure_refuted"
   ],
   "note": "for objects whose run succeeded; refuted after a failed run (c49_after_failure_refuted)"
  },
  {
   "property": "C50",
   "status": "proved",
   "theorems": [
    "c50_stationary",
    "c50_lambda_reaches_bound"
   ],
   "note": ""
  },
  {
   "property": "C51",
   "status": "proved",
   "theorems": [
    "c51_purge",
    "c51_run"
   ],
   "note": ""
  },
  {
   "property": "C52",
   "status": "proved",
   "theorems": [
    "c52_least_turning_point"
   ],
   "note": ""
  },
  {
   "property": "C53",
   "status": "proved",
   "theorems": [
    "c53_equal_returns",
    "c53_wrong_answer"
   ],
   "note": "the first call fails and later calls return a wrong portfolio; concrete witness c53_wrong_answer"
  },
  {
   "property": "C54",
   "status": "proved",
   "theorems": [
    "c54_frontier",
    "c54_ends",
    "c54_order"
   ],
   "note": ""
  },
  {
   "property": "C55",
   "status": "proved",
   "theorems": [
    "c55_bracket",
    "c55_terminates"
   ],
   "note": ""
  },
  {
   "property": "C56",
   "status": "proved",
   "theorems": [
    "c56_bayes_estimate",
    "c56_formula"
   ],
   "note": ""
  },
  {
   "property": "C57",
   "status": "proved",
   "theorems": [
    "c57_views_equal_prior",
    "c57_certain_views"
   ],
   "note": ""
  },
  {
   "property": "C58",
   "status": "proved",
   "theorems": [
    "c58_idzorek_single",
    "c58_zero_confidence"
   ],
   "note": ""
  },
  {
   "property": "C59",
   "status": "proved",
   "theorems": [
    "c59_returns",
    "c59_zero_confidence",
    "c59_covariance",
    "c59_covariance_refuted"
   ],
   "note": "'posterior covariance always depends on tau' is proved for the default omega and for confidences below 1, and refuted for confidence 1"
  },
  {
   "property": "C60",
   "status": "proved",
   "theorems": [
    "c60_posterior_covariance"
   ],
   "note": ""
  },
  {
   "property": "C61",
   "status": "proved",
   "theorems": [
    "c61_sum",
    "c61_risk_aversion",
    "c61_equation",
    "c61_market"
   ],
   "note": ""
  },
  {
   "property": "C62",
   "status": "proved",
   "theorems": [
    "c62_dimensions",
    "c62_wrong_weights"
   ],
   "note": "for a singular matrix and as many views as assets: existence of wrong weights"
  },
  {
   "property": "C63",
   "status": "proved",
   "theorems": [
    "c63_caching",
    "c63_performance"
   ],
   "note": ""
  },
  {
   "property": "C64",
   "status": "proved",
   "theorems": [
    "c64_picking",
    "c64_known",
    "c64_unknown"
   ],
   "note": ""
  },
  {
   "property": "C65",
   "status": "proved",
   "theorems": [
    "c65_currency"
   ],
   "note": ""
  },
  {
   "property": "C66",
   "status": "proved",
   "theorems": [
    "c66_log_returns",
    "c66_log_prices_roundtrip",
    "c66_log_returns_roundtrip",
    "c66_returns",
    "c66_prices_roundtrip",
    "c66_returns_roundtrip",
    "c66_pseudo_prices_mean"
   ],
   "note": ""
  },
  {
   "property": "C67",
   "status": "proved",
   "theorems": [
    "c67_cagr",
    "c67_arithmetic",
    "c67_log_returns_refuted"
   ],
   "note": "proved for simple returns; refuted for log returns"
  },
  {
   "property": "C68",
   "status": "proved",
   "theorems": [
    "c68_average",
    "c68_compounded",
    "c68_prices",
    "c68_bounds",
    "c68_weights",
    "c68_missing_data"
   ],
   "note": ""
  },
  {
   "property": "C69",
   "status": "proved",
   "theorems": [
    "c69_average_is_market",
    "c69_prices"
   ],
   "note": ""
  },
  {
   "property": "C70",
   "status": "proved",
   "theorems": [
    "c70_sample_cov",
    "c70_sample_cov_prices",
    "c70_portfolio_variance",
    "c70_psd"
   ],
   "note": ""
  },
  {
   "property": "C71",
   "status": "proved",
   "theorems": [
    "c71_semicovariance",
    "c71_exp_cov"
   ],
   "note": ""
  },
  {
   "property": "C72",
   "status": "proved",
   "theorems": [
    "c72_check",
    "c72_unchanged",
    "c72_spectral",
    "c72_diag",
    "c72_unknown",
    "c72_sample_cov_any_data",
    "c72_exactly_psd_refuted"
   ],
   "note": "exact positive semidefiniteness is refuted for matrices within 1e-16 of it (returned unchanged); proved up to that tolerance, and exactly whenever a fix is applied"
  },
  {
   "property": "C73",
   "status": "proved",
   "theorems": [
    "c73_round_trip",
    "c73_range"
   ],
   "note": ""
  },
  {
   "property": "C74",
   "status": "proved",
   "theorems": [
    "c74_shrunk",
    "c74_ends"
   ],
   "note": ""
  },
  {
   "property": "C75",
   "status": "proved",
   "theorems": [
    "c75_intensity",
    "c75_constant_correlation",
    "c75_single_factor",
    "c75_single_factor_variance_refuted"
   ],
   "note": "for single_factor the variances kept are those with divisor T: smaller than those of sample_cov (c75_single_factor_variance_refuted)"
  },
  {
   "property": "C76",
   "status": "proved",
   "theorems": [
    "c76_variance",
    "c76_l2",
    "c76_cost",
    "c76_ex_ante",
    "c76_ex_post",
    "c76_utility",
    "c76_signs",
    "c76_values"
   ],
   "note": ""
  },
  {
   "property": "C77",
   "status": "proved",
   "theorems": [
    "c77_periods_times_variance",
    "c77_constant_shift"
   ],
   "note": ""
  },
  {
   "property": "C78",
   "status": "proved",
   "theorems": [
    "c78_points",
    "c78_stale_point",
    "c78_stale_first_point",
    "c78_first_failure",
    "c78_skip",
    "c78_unknown_parameter",
    "c78_default_range"
   ],
   "note": ""
  },
  {
   "property": "C79",
   "status": "proved",
   "theorems": [
    "c79_raw_single",
    "c79_optimize_single"
   ],
   "note": "the one-asset failure of optimize and the success of the bisection alone"
  },
  {
   "property": "C80",
   "status": "proved",
   "theorems": [
    "c80_no_data_is_zero",
    "c80_no_warning",
    "c80_arithmetic_is_nan"
   ],
   "note": ""
  },
  {
   "property": "C81",
   "status": "proved",
   "theorems": [
    "c81_overwritten",
    "c81_never_mkt",
    "c81_clash"
   ],
   "note": ""
  },
  {
   "property": "C82",
   "status": "proved",
   "theorems": [
    "c82_renames_callers_table",
    "c82_prices_kept"
   ],
   "note": ""
  },
  {
   "property": "C83",
   "status": "proved",
   "theorems": [
    "c83_semicovariance_any_data",
    "c83_missing_understates"
   ],
   "note": ""
  },
  {
   "property": "C84",
   "status": "proved",
   "theorems": [
    "c84_two_assets"
   ],
   "note": ""
  },
  {
   "property": "C85",
   "status": "proved",
   "theorems": [
    "c85_risk_matrix",
    "c85_unknown"
   ],
   "note": ""
  },
  {
   "property": "C86",
   "status": "proved",
   "theorems": [
    "c86_checks",
    "c86_prior",
    "c86_views",
    "c86_omega",
    "c86_inputs_constant",
    "c86_market_array_refuses"
   ],
   "note": ""
  },
  {
   "property": "C87",
   "status": "proved",
   "theorems": [
    "c87_market_return",
    "c87_prior",
    "c87_price_scale",
    "c87_frequency",
    "c87_risk_aversion"
   ],
   "note": ""
  },
  {
   "property": "C88",
   "status": "proved",
   "theorems": [
    "c88_leverage",
    "c88_horizon",
    "c88_order"
   ],
   "note": ""
  },
  {
   "property": "C89",
   "status": "proved",
   "theorems": [
    "c89_start_fails",
    "c89_integer_points",
    "c89_min_volatility",
    "c89_misses_minimum"
   ],
   "note": "includes a witness where the integer truncation doubles the variance"
  },
  {
   "property": "C90",
   "status": "proved",
   "theorems": [
    "c90_bound_points_dropped",
    "c90_sharpe_suffers"
   ],
   "note": "the loss in Sharpe ratio is shown by an exact witness"
  },
  {
   "property": "C91",
   "status": "proved",
   "theorems": [
    "c91_terminates",
    "c91_kept_points_optimal",
    "c91_segments_optimal",
    "c91_min_volatility",
    "c91_max_sharpe_succeeds",
    "c91_tie_refuted"
   ],
   "note": "under general position; without it refuted (c91_tie_refuted)"
  },
  {
   "property": "C92",
   "status": "proved",
   "theorems": [
    "c92_rmse_is_distance",
    "c92_rmse_undefined",
    "c92_rmse_zero_iff_exact",
    "c92_greedy_rmse_bounded",
    "c92_verbose_greedy_same",
    "c92_verbose_lp_same",
    "c92_verbose_lp_same_refuted"
   ],
   "note": "'verbose never raises' is proved for greedy and for LP with matching labels; refuted for LP when weight tickers have no price (c92_verbose_lp_same_refuted)"
  },
  {
   "property": "C93",
   "status": "proved",
   "theorems": [
    "c93_found",
    "c93_lp_long_short"
   ],
   "note": ""
  },
  {
   "property": "C94",
   "status": "proved",
   "theorems": [
    "c94_bars_show_all_weights"
   ],
   "note": ""
  },
  {
   "property": "C95",
   "status": "proved",
   "theorems": [
    "c95_efficient_risk",
    "c95_efficient_return",
    "c95_max_quadratic_utility",
    "c95_errors_keep_weights",
    "c95_disabled",
    "c95_frozen",
    "c95_min_once",
    "c95_covariance_unused",
    "c95_negative_risk",
    "c95_negative_return",
    "c95_negative_semideviation_refuted",
    "c95_methods",
    "c95_performance"
   ],
   "note": "Proved for all solvers and call sequences. c95_negative_semideviation_refuted: EfficientSemivariance.efficient_risk does not reject a negative target, it uses its absolute value (the last clause fails for this one method); EfficientCVaR.efficient_return accepts negative targets by design."
  },
  {
   "property": "C96",
   "status": "proved",
   "theorems": [
    "c96_efficient_frontier",
    "c96_cla",
    "c96_cla_without_returns",
    "c96_black_litterman",
    "c96_hrp",
    "c96_kept",
    "c96_kept_downside"
   ],
   "note": "Proved at the level of the tickers attribute; the result theorems of the individual methods state their dictionaries in terms of it."
  },
  {
   "property": "C97",
   "status": "proved",
   "theorems": [
    "c97_curve",
    "c97_marker",
    "c97_marker_refuted",
    "c97_keeps",
    "c97_second_plot",
    "c97_assets",
    "c97_frontier_assets",
    "c97_dendrogram",
    "c97_dendrogram_optimizes",
    "c97_dendrogram_again",
    "c97_covariance",
    "c97_correlation",
    "c97_correlation_array",
    "c97_covariance_array_refuted"
   ],
   "note": "c97_marker says what the marker is; c97_marker_refuted: with weights from an earlier min_volatility the marker labelled Max Sharpe Portfolio is not the best Sharpe ratio. c97_second_plot: the number of points of a second plot is ignored. c97_covariance_array_refuted: an array, a documented argument, raises AttributeError with the default arguments."
  },
  {
   "property": "C98",
   "status": "proved",
   "theorems": [
    "c98_sample_cov",
    "c98_semicovariance",
    "c98_exp_cov",
    "c98_ledoit_wolf",
    "c98_oracle_approximating",
    "c98_single_factor",
    "c98_constant_correlation",
    "c98_unknown_target",
    "c98_mean_return",
    "c98_ema_return",
    "c98_capm_return",
    "c98_unknown_return"
   ],
   "note": ""
  },
  {
   "property": "C99",
   "status": "proved",
   "theorems": [
    "c99_constant_correlation",
    "c99_single_factor"
   ],
   "note": ""
  },
  {
   "property": "C100",
   "status": "proved",
   "theorems": [
    "c100_leaf_order",
    "c100_clusters_together",
    "c100_returns",
    "c100_covariance",
    "c100_no_inputs",
    "c100_methods",
    "c100_unknown_method"
   ],
   "note": ""
  },
  {
   "property": "C101",
   "status": "proved",
   "theorems": [
    "c101_returns",
    "c101_covariance",
    "c101_before",
    "c101_inputs_kept"
   ],
   "note": ""
  },
  {
   "property": "C102",
   "status": "proved",
   "theorems": [
    "c102_prepared",
    "c102_min_volatility",
    "c102_utility",
    "c102_efficient_risk",
    "c102_efficient_return",
    "c102_not_callable"
   ],
   "note": ""
  },
  {
   "property": "C103",
   "status": "proved",
   "theorems": [
    "c103_other",
    "c103_engine",
    "c103_engine_back",
    "c103_saved",
    "c103_saved_refuted",
    "c103_names",
    "c103_hidden",
    "c103_assets",
    "c103_cla_assets",
    "c103_assets_refuted",
    "c103_default_refuted",
    "c103_tail_refuted",
    "c103_tail_error",
    "c103_curve",
    "c103_curve_semi",
    "c103_default_range",
    "c103_cla_ignores",
    "c103_parameters",
    "c103_parameters_downside",
    "c103_cla_picture"
   ],
   "note": "c103_saved_refuted: interactive plots ignore filename and showfig. c103_assets_refuted, c103_default_refuted, c103_tail_refuted: objects of the downside classes are accepted, but their assets are drawn at risk 0, the default parameter range raises NotImplementedError, and for CVaR and CDaR a parameter that can be solved ends the plot with ValueError, so their curve is always empty. c103_default_range: the default range consists of returns whatever ef_param is. For the rest the claim is proved."
  },
  {
   "property": "C104",
   "status": "proved",
   "theorems": [
    "c104_rows",
    "c104_rows_exist",
    "c104_estimate",
    "c104_repaired",
    "c104_shape",
    "c104_prices"
   ],
   "note": ""
  },
  {
   "property": "C105",
   "status": "proved",
   "theorems": [
    "c105_sample_cov",
    "c105_semicovariance",
    "c105_exp_cov",
    "c105_shrinkage",
    "c105_mean",
    "c105_ema",
    "c105_capm",
    "c105_defaults",
    "c105_return_defaults",
    "c105_misspelt",
    "c105_return_misspelt",
    "c105_misspelt_refuted",
    "c105_unknown_method",
    "c105_unknown_return_method"
   ],
   "note": "c105_misspelt_refuted: sample_cov, semicovariance and exp_cov accept unknown keywords without effect (the second clause fails for these); proved for the shrinkage methods and all return models."
  },
  {
   "property": "C106",
   "status": "proved",
   "theorems": [
    "c106_expressions",
    "c106_constraints",
    "c106_min_volatility",
    "c106_utility",
    "c106_efficient_risk",
    "c106_efficient_return",
    "c106_max_sharpe",
    "c106_min_semivariance",
    "c106_semi_efficient_risk",
    "c106_semi_efficient_return",
    "c106_semi_utility",
    "c106_min_cvar",
    "c106_cvar_efficient_risk",
    "c106_cvar_efficient_return",
    "c106_min_cdar",
    "c106_cdar_efficient_risk",
    "c106_cdar_efficient_return",
    "c106_unlimited_refuted"
   ],
   "note": "c106_efficient_risk and c106_efficient_return: in the market-neutral case a fully invested portfolio must reach the target too, because the checks before the solve know no other (C27, C28). c106_max_sharpe: for a new optimizer in which no portfolio is without risk, and some asset must beat the risk-free rate (C30). c106_semi_efficient_return: the target must not exceed the largest absolute expected return. c106_unlimited_refuted: without finite bounds portfolios may exist but none that is best."
  },
  {
   "property": "C107",
   "status": "proved",
   "theorems": [
    "c107_rate",
    "c107_performance",
    "c107_failed_call_refuted"
   ],
   "note": "c107_failed_call_refuted: the rate of a max_sharpe that failed after its checks is used too, instead of the one given to portfolio_performance."
  },
  {
   "property": "C108",
   "status": "proved",
   "theorems": [
    "c108_weights_to_shares",
    "c108_min_volatility",
    "c108_max_sharpe"
   ],
   "note": ""
  },
  {
   "property": "C109",
   "status": "proved",
   "theorems": [
    "c109_line_search",
    "c109_best_segment",
    "c109_well_posed",
    "c109_all_portfolios"
   ],
   "note": ""
  },
  {
   "property": "C110",
   "status": "proved",
   "theorems": [
    "c110_performance",
    "c110_weights_kept",
    "c110_no_weights",
    "c110_set_weights"
   ],
   "note": ""
  },
  {
   "property": "C111",
   "status": "proved",
   "theorems": [
    "c111_labels_mean",
    "c111_labels_ema",
    "c111_labels_capm",
    "c111_labels_capm_market",
    "c111_labels_sample_cov",
    "c111_labels_semicovariance",
    "c111_labels_exp_cov",
    "c111_labels_min_cov_determinant",
    "c111_arrays_returns",
    "c111_arrays_matrices",
    "c111_arrays_shrinkage",
    "c111_series_returns",
    "c111_series_matrices"
   ],
   "note": "capm_return: the asset names must differ from each other and from mkt (C81 has the other case)."
  },
  {
   "property": "C112",
   "status": "proved",
   "theorems": [
    "c112_arrays",
    "c112_array_market_refuted",
    "c112_no_common_date",
    "c112_array_market_returns_refuted",
    "c112_series_prices",
    "c112_series_returns_refuted",
    "c112_series_market"
   ],
   "note": "Half of the claim is false: c112_array_market_refuted (every estimate silently missing), c112_array_market_returns_refuted (AttributeError), c112_series_returns_refuted (only the name mkt is accepted)."
  },
  {
   "property": "C113",
   "status": "proved",
   "theorems": [
    "c113_frontier",
    "c113_utility",
    "c113_min_volatility",
    "c113_max_sharpe",
    "c113_round_trips",
    "c113_semi_frontier",
    "c113_min_semivariance",
    "c113_semi_utility",
    "c113_cvar_frontier",
    "c113_min_cvar",
    "c113_cdar_frontier",
    "c113_min_cdar"
   ],
   "note": ""
  },
  {
   "property": "C114",
   "status": "proved",
   "theorems": [
    "c114_weight",
    "c114_terms",
    "c114_constraint",
    "c114_aversion",
    "c114_rate",
    "c114_cvar_level",
    "c114_cdar_level",
    "c114_benchmark"
   ],
   "note": ""
  },
  {
   "property": "C115",
   "status": "proved",
   "theorems": [
    "c115_long_only",
    "c115_greedy_miss",
    "c115_lp_miss",
    "c115_long_short"
   ],
   "note": ""
  },
  {
   "property": "C116",
   "status": "proved",
   "theorems": [
    "c116_utility",
    "c116_sharpe",
    "c116_market",
    "c116_bl_weights"
   ],
   "note": ""
  },
  {
   "property": "C117",
   "status": "proved",
   "theorems": [
    "c117_min_volatility",
    "c117_max_sharpe"
   ],
   "note": ""
  },
  {
   "property": "C118",
   "status": "proved",
   "theorems": [
    "c118_hrp",
    "c118_hrp_nonnegative_covariances",
    "c118_greedy"
   ],
   "note": ""
  },
  {
   "property": "C119",
   "status": "proved",
   "theorems": [
    "c119_returns",
    "c119_prices",
    "c119_mean",
    "c119_mean_compounded",
    "c119_ema",
    "c119_capm_market",
    "c119_capm_default",
    "c119_capm_flat_market",
    "c119_market_columns",
    "c119_capm_market_prices"
   ],
   "note": ""
  },
  {
   "property": "C120",
   "status": "proved",
   "theorems": [
    "c120_sample_cov",
    "c120_sample_cov_too_short",
    "c120_sample_cov_refuted",
    "c120_exp_cov",
    "c120_missing_is_zero",
    "c120_single_factor"
   ],
   "note": "The claim that sample_cov returns the pairwise covariances holds when they form a positive semidefinite matrix; c120_sample_cov_refuted shows data where they do not and other numbers are returned."
  },
  {
   "property": "C121",
   "status": "proved",
   "theorems": [
    "c121_call",
    "c121_downside_call",
    "c121_calls",
    "c121_downside_calls",
    "c121_same_calls",
    "c121_same_downside_calls",
    "c121_same_functions",
    "c121_repair",
    "c121_untouched",
    "c121_repair_works",
    "c121_sample_cov",
    "c121_semicovariance",
    "c121_exp_cov",
    "c121_min_cov_determinant",
    "c121_span",
    "c121_removed",
    "c121_not_removed",
    "c121_beta",
    "c121_rate",
    "c121_rate_as_given",
    "c121_prior",
    "c121_dendrogram",
    "c121_plot",
    "c121_same_plot",
    "c121_plot_refuted",
    "c121_corr_of_array",
    "c121_corr_of_frame",
    "c121_cov_of_array",
    "c121_cov_of_frame",
    "c121_estimators",
    "c121_caps",
    "c121_black_litterman",
    "c121_capm"
   ],
   "note": "The part about plots is false: c121_plot_refuted (a parameter whose problem cannot be solved is left out silently; only rejected parameters are announced)."
  },
  {
   "property": "C122",
   "status": "proved",
   "theorems": [
    "c122_recombined",
    "c122_reordered",
    "c122_rescaled",
    "c122_dict_order",
    "c122_dict_order_default",
    "c122_repeated",
    "c122_recombined_refuted",
    "c122_rescaled_refuted"
   ],
   "note": "The exceptions (a)-(c) of the statement are c122_recombined_refuted, c122_repeated and c122_rescaled_refuted."
  },
  {
   "property": "C123",
   "status": "proved",
   "theorems": [
    "c123_exact",
    "c123_min_volatility",
    "c123_efficient_risk",
    "c123_efficient_return",
    "c123_refusal",
    "c123_utility",
    "c123_convex_objective",
    "c123_max_sharpe",
    "c123_returned",
    "c123_sum_refuted"
   ],
   "note": "That the weights sum to one exactly is false for such solvers: c123_sum_refuted. c123_max_sharpe carries the smallness conditions of the statement."
  },
  {
   "property": "C124",
   "status": "proved",
   "theorems": [
    "c124_min_cvar",
    "c124_cvar_efficient_return",
    "c124_cvar_efficient_risk",
    "c124_min_cdar",
    "c124_cdar_efficient_return",
    "c124_cdar_efficient_risk",
    "c124_semivariance_slack",
    "c124_min_semivariance",
    "c124_semi_efficient_risk",
    "c124_semi_efficient_return",
    "c124_semi_utility"
   ],
   "note": ""
  },
  {
   "property": "C125",
   "status": "proved",
   "theorems": [
    "c125_efficient_frontier",
    "c125_efficient_frontier_errors",
    "c125_efficient_frontier_stored",
    "c125_any_shape_refuted",
    "c125_semivariance",
    "c125_cvar",
    "c125_cdar",
    "c125_semivariance_stored",
    "c125_cvar_stored",
    "c125_cdar_stored",
    "c125_cla",
    "c125_cla_stored",
    "c125_hrp",
    "c125_hrp_errors",
    "c125_hrp_stored"
   ],
   "note": "That the covariance matrix must be square is false if no expected returns are given: c125_any_shape_refuted."
  },
  {
   "property": "C126",
   "status": "proved",
   "theorems": [
    "c126_added",
    "c126_added_found",
    "c126_regularised",
    "c126_regularised_found",
    "c126_l2",
    "c126_cost_refuted"
   ],
   "note": "That every added objective keeps its meaning is false: a transaction cost is charged on the weights divided by their excess return, c126_cost_refuted."
  },
  {
   "property": "C127",
   "status": "proved",
   "theorems": [
    "c127_long_short",
    "c127_clean_weights",
    "c127_round_twice"
   ],
   "note": ""
  },
  {
   "property": "C128",
   "status": "proved",
   "theorems": [
    "c128_returns",
    "c128_covariances",
    "c128_single_factor",
    "c128_constant_correlation",
    "c128_greedy",
    "c128_greedy_rounded",
    "c128_greedy_ties_refuted",
    "c128_hrp_refuted"
   ],
   "note": "Order independence is false of the greedy allocation with equal weights (c128_greedy_ties_refuted) and of hierarchical risk parity (c128_hrp_refuted)."
  },
  {
   "property": "C129",
   "status": "proved",
   "theorems": [
    "c129_accepted",
    "c129_min_volatility_both",
    "c129_utility_both",
    "c129_return_both",
    "c129_risk_both",
    "c129_max_sharpe_both",
    "c129_min_volatility",
    "c129_utility",
    "c129_return",
    "c129_risk",
    "c129_max_sharpe",
    "c129_same_min_volatility",
    "c129_same_utility",
    "c129_same_return",
    "c129_same_max_sharpe",
    "c129_returns",
    "c129_return_estimates",
    "c129_risk_estimates",
    "c129_da_init",
    "c129_greedy",
    "c129_lp",
    "c129_lp_exact",
    "c129_lp_solvers"
   ],
   "note": ""
  },
  {
   "property": "C130",
   "status": "proved",
   "theorems": [
    "c130_semivariance_accepted",
    "c130_cvar_accepted",
    "c130_cdar_accepted",
    "c130_min_semivariance_both",
    "c130_semivariance_risk_both",
    "c130_semivariance_return_both",
    "c130_semivariance_utility_both",
    "c130_min_cvar_both",
    "c130_cvar_risk_both",
    "c130_cvar_return_both",
    "c130_min_cdar_both",
    "c130_cdar_risk_both",
    "c130_cdar_return_both",
    "c130_min_semivariance",
    "c130_semivariance_risk",
    "c130_semivariance_return",
    "c130_semivariance_utility",
    "c130_min_cvar",
    "c130_cvar_risk",
    "c130_cvar_return",
    "c130_min_cdar",
    "c130_cdar_risk",
    "c130_cdar_return",
    "c130_order_of_days_refuted"
   ],
   "note": "For EfficientCDaR the rows must keep their order: c130_order_of_days_refuted."
  },
  {
   "property": "C131",
   "status": "proved",
   "theorems": [
    "c131_mean_historical",
    "c131_mean_historical_complete",
    "c131_capm",
    "c131_capm_market",
    "c131_sample_cov",
    "c131_semicovariance",
    "c131_shrinkage",
    "c131_hrp",
    "c131_ema_refuted",
    "c131_exp_cov_refuted",
    "c131_warning_refuted"
   ],
   "note": "The exponentially weighted estimators and the warning about gaps depend on the order of the days: c131_ema_refuted, c131_exp_cov_refuted, c131_warning_refuted."
  },
  {
   "property": "C132",
   "status": "proved",
   "theorems": [
    "c132_min_volatility",
    "c132_max_quadratic_utility",
    "c132_efficient_risk",
    "c132_efficient_return",
    "c132_max_sharpe",
    "c132_max_sharpe_constraints",
    "c132_semivariance",
    "c132_cvar",
    "c132_cdar",
    "c132_reachable_refuted",
    "c132_unreachable_refuted",
    "c132_negative_cvar_refuted",
    "c132_no_returns",
    "c132_no_returns_semivariance",
    "c132_no_returns_tails"
   ],
   "note": "Table of exceptions of a first call, with the exact condition for ValueError for each method. Three refutations record that the argument checks are not the reachability of the target (efficient_semivariance.py 224: largest absolute expected return; efficient_cvar.py 208: nonneg parameter)."
  },
  {
   "property": "C133",
   "status": "proved",
   "theorems": [
    "c133_min_volatility",
    "c133_utility",
    "c133_efficient_return",
    "c133_max_sharpe",
    "c133_efficient_risk",
    "c133_efficient_risk_refuted",
    "c133_min_downside",
    "c133_semivariance",
    "c133_tails",
    "c133_min_cvar_refuted",
    "c133_library_terms"
   ],
   "note": "Uniqueness of the answer for any two exact solvers. Refuted without a strictly convex term for efficient_risk (c133_efficient_risk_refuted) and min_cvar (c133_min_cvar_refuted)."
  },
  {
   "property": "C134",
   "status": "proved",
   "theorems": [
    "c134_constraints",
    "c134_sectors",
    "c134_bounds",
    "c134_min_volatility",
    "c134_utility",
    "c134_efficient_return",
    "c134_efficient_risk",
    "c134_max_sharpe",
    "c134_min_downside",
    "c134_semivariance",
    "c134_tails",
    "c134_market_neutral_bounds_refuted"
   ],
   "note": "positive for added constraints, sector limits and (fully invested) narrower bounds; refuted for narrower bounds of a market neutral portfolio"
  },
  {
   "property": "C135",
   "status": "proved",
   "theorems": [
    "c135_sample_singular",
    "c135_shrunk",
    "c135_constant_correlation",
    "c135_single_factor",
    "c135_one_answer",
    "c135_shrunk_one_answer",
    "c135_sample_refuted"
   ],
   "note": "Positive definiteness of the shrunk estimates and, with C133, independence of the solver from the table of returns to the weights. For Ledoit-Wolf the intensity is the one the code computes; the theorem asks that it is positive. c135_sample_refuted is the counterexample for the unshrunk sample covariance."
  },
  {
   "property": "C136",
   "status": "proved",
   "theorems": [
    "c136_part_way",
    "c136_raised",
    "c136_raised_matrix",
    "c136_raised_dict",
    "c136_single",
    "c136_nearer",
    "c136_own_view_refuted",
    "c136_raised_refuted"
   ],
   "note": "own_view_refuted and raised_refuted are proved counterexamples to the two stronger readings (each of several views separately; correlated errors)."
  },
  {
   "property": "C137",
   "status": "proved",
   "theorems": [
    "c137_accepted",
    "c137_turning_points",
    "c137_calls",
    "c137_min_volatility",
    "c137_max_sharpe",
    "c137_frontier",
    "c137_performance"
   ],
   "note": "For exact arithmetic and an exact np.linalg.inv that raises only LinAlgError."
  },
  {
   "property": "C138",
   "status": "proved",
   "theorems": [
    "c138_accepted",
    "c138_min_volatility_both",
    "c138_utility_both",
    "c138_risk_both",
    "c138_return_both",
    "c138_max_sharpe_both",
    "c138_min_volatility",
    "c138_utility",
    "c138_risk",
    "c138_return",
    "c138_max_sharpe",
    "c138_same_min_volatility",
    "c138_same_utility",
    "c138_same_return",
    "c138_same_max_sharpe",
    "c138_return_neutral_up",
    "c138_return_neutral_refuted"
   ],
   "note": "The part for market neutral efficient_return is false of the code: c138_return_neutral_refuted; c138_return_neutral_up gives the direction that holds. The statement is about EfficientFrontier; CLA is not covered here."
  },
  {
   "property": "C139",
   "status": "proved",
   "theorems": [
    "c139_largest",
    "c139_min_cvar",
    "c139_min_cvar_found",
    "c139_cvar_risk",
    "c139_cvar_risk_found",
    "c139_cvar_return",
    "c139_cvar_return_found",
    "c139_min_cdar",
    "c139_min_cdar_found",
    "c139_cdar_risk",
    "c139_cdar_risk_found",
    "c139_cdar_return",
    "c139_cdar_return_found"
   ],
   "note": "At beta = 0 CVaR is the mean loss and CDaR the mean drawdown; with (1 - beta) * days <= 1 (e.g. the default 0.95 and at most 20 days) they are the worst day and the maximum drawdown. Answers and exact conditions for success of all six methods at both ends."
  },
  {
   "property": "C140",
   "status": "proved",
   "theorems": [
    "c140_semivariance_accepted",
    "c140_min_semivariance",
    "c140_min_semivariance_both",
    "c140_semivariance_risk",
    "c140_semivariance_risk_both",
    "c140_semivariance_return",
    "c140_semivariance_utility",
    "c140_semivariance_utility_both",
    "c140_cvar_accepted",
    "c140_min_cvar",
    "c140_min_cvar_both",
    "c140_cvar_risk",
    "c140_cvar_risk_both",
    "c140_cvar_return",
    "c140_cvar_return_both",
    "c140_cdar_accepted",
    "c140_min_cdar_neutral",
    "c140_min_cdar_neutral_both",
    "c140_cdar_risk_neutral",
    "c140_cdar_risk_neutral_both",
    "c140_cdar_return_neutral",
    "c140_cdar_return_neutral_both",
    "c140_min_cdar_refuted"
   ],
   "note": "Adding c to every daily return (and the benchmark) and e to every expected return leaves the best portfolios of EfficientSemivariance and EfficientCVaR as they are, with targets moved accordingly; for EfficientCDaR only those that are market neutral (c140_min_cdar_refuted shows the fully invested case false). semi_efficient_return: answers only, as its check of the target uses absolute expected returns."
  },
  {
   "property": "C141",
   "status": "proved",
   "theorems": [
    "c141_accepted",
    "c141_min_volatility",
    "c141_quadratic_utility",
    "c141_efficient_return",
    "c141_efficient_risk",
    "c141_max_sharpe",
    "c141_min_volatility_both",
    "c141_quadratic_utility_both",
    "c141_efficient_return_both",
    "c141_max_sharpe_both",
    "c141_hrp_refuted",
    "c141_semivariance_accepted",
    "c141_cvar_accepted",
    "c141_cdar_accepted",
    "c141_min_semivariance",
    "c141_min_semivariance_both",
    "c141_semivariance_risk",
    "c141_semivariance_risk_both",
    "c141_semivariance_return",
    "c141_semivariance_utility",
    "c141_semivariance_utility_both",
    "c141_min_cvar",
    "c141_min_cvar_both",
    "c141_cvar_risk",
    "c141_cvar_risk_both",
    "c141_cvar_return",
    "c141_cvar_return_both",
    "c141_min_cdar",
    "c141_min_cdar_both",
    "c141_cdar_risk",
    "c141_cdar_risk_both",
    "c141_cdar_return",
    "c141_cdar_return_both"
   ],
   "note": "For HRP the statement is false (`c141_hrp_refuted`). For efficient_risk and efficient_return of EfficientSemivariance only the answers are compared: the checks beforehand use the pseudo-inverse of the covariance matrix and the largest absolute return."
  },
  {
   "property": "C142",
   "status": "proved",
   "theorems": [
    "c142_accepted",
    "c142_min_volatility",
    "c142_quadratic_utility",
    "c142_efficient_return",
    "c142_efficient_risk",
    "c142_max_sharpe",
    "c142_min_volatility_found",
    "c142_quadratic_utility_found",
    "c142_efficient_return_found",
    "c142_max_sharpe_found",
    "c142_gaps_refuted",
    "c142_min_semivariance",
    "c142_min_semivariance_found",
    "c142_semivariance_risk",
    "c142_semivariance_risk_found",
    "c142_semivariance_return",
    "c142_semivariance_utility",
    "c142_semivariance_utility_found",
    "c142_semi_accepted",
    "c142_min_cvar",
    "c142_min_cvar_found",
    "c142_cvar_risk",
    "c142_cvar_risk_found",
    "c142_cvar_return",
    "c142_cvar_return_found",
    "c142_cvar_accepted",
    "c142_min_cdar",
    "c142_min_cdar_found",
    "c142_cdar_risk",
    "c142_cdar_risk_found",
    "c142_cdar_return",
    "c142_cdar_return_found",
    "c142_cdar_accepted"
   ],
   "note": "For downside optimizers the new asset must have a return on every day; with gaps the statement is false (`c142_gaps_refuted`). That success carries over is not stated for efficient_risk and market-neutral efficient_return of EfficientFrontier and efficient_return of EfficientSemivariance, whose checks beforehand depend on further data."
  },
  {
   "property": "C143",
   "status": "proved",
   "theorems": [
    "c143_min_volatility",
    "c143_quadratic_utility",
    "c143_efficient_return",
    "c143_efficient_risk",
    "c143_max_sharpe",
    "c143_min_volatility_found",
    "c143_quadratic_utility_found",
    "c143_efficient_return_found",
    "c143_efficient_risk_found",
    "c143_max_sharpe_found",
    "c143_neutral_refuted",
    "c143_semi_accepted",
    "c143_min_semivariance",
    "c143_min_semivariance_found",
    "c143_semivariance_risk",
    "c143_semivariance_risk_found",
    "c143_semivariance_return",
    "c143_semivariance_utility",
    "c143_semivariance_utility_found",
    "c143_cvar_accepted",
    "c143_min_cvar",
    "c143_min_cvar_found",
    "c143_cvar_risk",
    "c143_cvar_risk_found",
    "c143_cvar_return",
    "c143_cvar_return_found",
    "c143_cdar_accepted",
    "c143_min_cdar",
    "c143_min_cdar_found",
    "c143_cdar_risk",
    "c143_cdar_risk_found",
    "c143_cdar_return",
    "c143_cdar_return_found"
   ],
   "note": "Market neutral calls need that not only the narrower bounds forbid short positions; without it the statement is false (`c143_neutral_refuted`). That success carries over needs finite wider bounds and is not stated for efficient_return of EfficientSemivariance."
  },
  {
   "property": "C144",
   "status": "proved",
   "theorems": [
    "c144_min_volatility",
    "c144_quadratic_utility",
    "c144_efficient_return",
    "c144_efficient_risk",
    "c144_max_sharpe",
    "c144_min_semivariance",
    "c144_semivariance_risk",
    "c144_semivariance_return",
    "c144_semivariance_utility",
    "c144_min_cvar",
    "c144_cvar_risk",
    "c144_cvar_return",
    "c144_min_cdar",
    "c144_cdar_risk",
    "c144_cdar_return"
   ],
   "note": "About the portfolios before rounding to 16 decimals; without added objectives or constraints."
  },
  {
   "property": "C145",
   "status": "proved",
   "theorems": [
    "c145_min_volatility",
    "c145_quadratic_utility",
    "c145_efficient_return",
    "c145_efficient_risk",
    "c145_max_sharpe",
    "c145_min_semivariance",
    "c145_semivariance_risk",
    "c145_semivariance_return",
    "c145_semivariance_utility",
    "c145_min_cvar",
    "c145_cvar_risk",
    "c145_cvar_return",
    "c145_min_cdar",
    "c145_cdar_risk",
    "c145_cdar_return"
   ],
   "note": "About the portfolios before rounding to 16 decimals; market neutral calls need, as in C143, that not only the narrower bounds forbid short positions."
  }
 ]
}