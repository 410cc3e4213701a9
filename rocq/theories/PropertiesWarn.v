(** * Property theorems: nothing is changed without a warning (C121) *)
From Coq Require Import ZArith List String Bool Reals.
From Verif Require Import Num Py SLin Sums MConvex MEF MDown MCalls MPlot MPlot2 MFrame MBase MHRP MReturns MRisk MRisk2 MArray MBL MWarn SConvex SRisk SPlot SWarn.
From Verif Require Import PEFW PWarn1 PWarn3 PWarn4 PWarnW SLabels SPlot2 SConv PConv PWarn5.
Import ListNotations.
Local Open Scope R_scope.

(** C121: what one call of an EfficientFrontier does to the bounds, and which warnings it issues *)
Theorem c121_call : forall sv ns pinv c w ws o w' ws' o' r, run_w sv ns pinv c w (ws, o) = (w', (ws', o'), r) ->
  exists new, ws' = ws ++ new /\ effect (asks_neutral c) (is_sectors c) (is_sharpe c) o new o' r.
Proof. exact call_effect. Qed.
Print Assumptions c121_call.
(** C121: the same for EfficientSemivariance, EfficientCVaR and EfficientCDaR *)
Theorem c121_downside_call : forall sv ns k c w ws o w' ws' o' r, g_run_w sv ns k c w (ws, o) = (w', (ws', o'), r) ->
  exists new, ws' = ws ++ new /\ effect (asks_neutral_d c) (is_sectors_d c) False o new o' r.
Proof. exact g_call_effect. Qed.
Print Assumptions c121_downside_call.
(** C121: any sequence of calls: the bounds are those of the constructor unless there was the warning, which comes at most once *)
Theorem c121_calls : forall sv ns pinv cs w ws o w' ws' o', run_all_w sv ns pinv cs w (ws, o) = (w', (ws', o')) ->
  exists new, ws' = ws ++ new /\ calls_effect (exists c, In c cs /\ asks_neutral c) o new o'.
Proof. exact calls_bounds. Qed.
Print Assumptions c121_calls.
(** C121: the same for the downside optimizers *)
Theorem c121_downside_calls : forall sv ns k cs w ws o w' ws' o', g_run_all_w sv ns k cs w (ws, o) = (w', (ws', o')) ->
  exists new, ws' = ws ++ new /\ calls_effect (exists c, In c cs /\ asks_neutral_d c) o new o'.
Proof. exact g_calls_bounds. Qed.
Print Assumptions c121_downside_calls.
(** C121: the calls with warnings are the calls of all other theorems *)
Theorem c121_same_calls : forall sv ns pinv cs w o ws, exists new,
  run_all_w sv ns pinv cs w (ws, o) = match run_all sv ns pinv cs w o with (w', o') => (w', (ws ++ new, o')) end.
Proof. exact same_calls. Qed.
Print Assumptions c121_same_calls.
(** C121: the same for the downside optimizers *)
Theorem c121_same_downside_calls : forall sv ns k cs w o ws, exists new,
  g_run_all_w sv ns k cs w (ws, o) = match g_run_all sv ns k cs w o with (w', o', _) => (w', (ws ++ new, o')) end.
Proof. exact same_g_calls. Qed.
Print Assumptions c121_same_downside_calls.
(** C121: and so are the functions *)
Theorem c121_same_functions :
  (forall eigh M fm, snd (fix_psd_w eigh M fm) = fix_psd eigh M fm) /\
  (forall eigh t rd fr log fm, snd (sample_cov_w eigh t rd fr log fm) = sample_cov eigh (frame_of t) rd fr log fm) /\
  (forall eigh t rd b fr log fm, snd (semicovariance_w eigh t rd b fr log fm) = semicovariance eigh (frame_of t) rd b fr log fm) /\
  (forall eigh t rd sp fr log fm, snd (exp_cov_w eigh t rd sp fr log fm) = exp_cov eigh (frame_of t) rd sp fr log fm) /\
  (forall eigh mcd t rd fr log fm, snd (min_cov_determinant_w eigh mcd t rd fr log fm) = min_cov_determinant eigh mcd (frame_of t) rd fr log fm) /\
  (forall mu r, snd (validate_returns_w mu r) = validate_returns mu r) /\
  (forall b, snd (validate_beta_w b) = validate_beta b) /\
  (forall rf o, snd (ef_performance_w rf o) = ef_performance rf o) /\
  (forall a, snd (bl_init_w a) = bl_init a).
Proof.
  exact (conj fix_psd_same (conj sample_cov_same (conj semicovariance_same (conj exp_cov_same (conj min_cov_determinant_same
    (conj validate_returns_same (conj validate_beta_same (conj performance_same bl_init_same)))))))).
Qed.
Print Assumptions c121_same_functions.
(** C121: a symmetric matrix is announced as not positive semidefinite exactly if it is not, even after adding 1e-16 to the diagonal *)
Theorem c121_repair : forall eigh fm n M, square n M -> symmetric n M ->
  (In WAmended (fst (fix_psd_w eigh M fm)) <->
   exists x, (exists i, (i < n)%nat /\ x i <> 0) /\ sumn n (fun i => sumn n (fun j => x i * entry M i j * x j)) + / 10 ^ 16 * sumn n (fun i => x i * x i) <= 0).
Proof. exact repair_warned. Qed.
Print Assumptions c121_repair.
(** C121: without that warning the matrix is returned as it is *)
Theorem c121_untouched : forall eigh M fm, ~ In WAmended (fst (fix_psd_w eigh M fm)) -> snd (fix_psd_w eigh M fm) = Ok M.
Proof. exact unamended. Qed.
Print Assumptions c121_untouched.
(** C121: the warning that the repair failed never comes in exact arithmetic *)
Theorem c121_repair_works : forall eigh n M fm, square n M -> symmetric n M -> eigen_of n M (fst (eigh M)) (snd (eigh M)) -> ~ In WNotFixed (fst (fix_psd_w eigh M fm)).
Proof. exact always_fixed. Qed.
Print Assumptions c121_repair_works.
(** C121: an estimator without the warning returns what it returns with any other way of repairing *)
Theorem c121_sample_cov : forall eigh t rd fr log fm f, snd (sample_cov_w eigh t rd fr log fm) = Ok f -> ~ In WAmended (fst (sample_cov_w eigh t rd fr log fm)) ->
  forall eigh' fm', sample_cov eigh' (frame_of t) rd fr log fm' = Ok f.
Proof. exact sample_cov_any_method. Qed.
Print Assumptions c121_sample_cov.
Theorem c121_semicovariance : forall eigh t rd b fr log fm f, snd (semicovariance_w eigh t rd b fr log fm) = Ok f -> ~ In WAmended (fst (semicovariance_w eigh t rd b fr log fm)) ->
  forall eigh' fm', semicovariance eigh' (frame_of t) rd b fr log fm' = Ok f.
Proof. exact semicovariance_any_method. Qed.
Print Assumptions c121_semicovariance.
Theorem c121_exp_cov : forall eigh t rd sp fr log fm f, snd (exp_cov_w eigh t rd sp fr log fm) = Ok f -> ~ In WAmended (fst (exp_cov_w eigh t rd sp fr log fm)) ->
  forall eigh' fm', exp_cov eigh' (frame_of t) rd sp fr log fm' = Ok f.
Proof. exact exp_cov_any_method. Qed.
Print Assumptions c121_exp_cov.
Theorem c121_min_cov_determinant : forall eigh mcd t rd fr log fm f, snd (min_cov_determinant_w eigh mcd t rd fr log fm) = Ok f ->
  ~ In WAmended (fst (min_cov_determinant_w eigh mcd t rd fr log fm)) -> forall eigh' fm', min_cov_determinant eigh' mcd (frame_of t) rd fr log fm' = Ok f.
Proof. exact min_cov_determinant_any_method. Qed.
Print Assumptions c121_min_cov_determinant.
(** C121: a span below 10 is announced once for every pair of assets, an asset with itself included *)
Theorem c121_span : forall eigh t rd sp fr log fm f, snd (exp_cov_w eigh t rd sp fr log fm) = Ok f ->
  (10 <= sp -> spans (fst (exp_cov_w eigh t rd sp fr log fm)) = []) /\
  (sp < 10 -> (2 * List.length (spans (fst (exp_cov_w eigh t rd sp fr log fm))) = List.length (f_cols f) * (List.length (f_cols f) + 1))%nat).
Proof. exact exp_cov_span. Qed.
Print Assumptions c121_span.
(** C121: rows with a missing return are removed with a warning, and nothing is without *)
Theorem c121_removed : forall mu ncols rows, In WRemoved (fst (validate_returns_w mu (RTable ncols rows))) <-> exists row, In row rows /\ In None row.
Proof. exact removed_warned. Qed.
Print Assumptions c121_removed.
Theorem c121_not_removed : forall mu ncols rows l, snd (validate_returns_w mu (RTable ncols rows)) = Ok l ->
  ~ In WRemoved (fst (validate_returns_w mu (RTable ncols rows))) -> map (map Some) l = rows.
Proof. exact not_removed. Qed.
Print Assumptions c121_not_removed.
(** C121: beta *)
Theorem c121_beta : forall b, In WBeta (fst (validate_beta_w b)) <-> 0 <= b <= 2 / 10.
Proof. exact beta_warned. Qed.
Print Assumptions c121_beta.
(** C121: portfolio_performance warns exactly if the rate it uses is not the rate it was given *)
Theorem c121_rate : forall rf o, In WRate (fst (ef_performance_w rf o)) <-> exists x, e_rf o = Some x /\ x <> rf.
Proof. exact rate_warned. Qed.
Print Assumptions c121_rate.
Theorem c121_rate_as_given : forall rf o, ~ In WRate (fst (ef_performance_w rf o)) ->
  snd (ef_performance_w rf o) = portfolio_performance (match e_weights o with None => WtNone | Some w => WtArray w end)
    (match e_mu o with None => MuNone | Some m => MuArray m end) (CovArray (e_cov o)) rf.
Proof. exact rate_as_given. Qed.
Print Assumptions c121_rate_as_given.
(** C121: a Black-Litterman model warns exactly if it was given no prior *)
Theorem c121_prior : forall a b, snd (bl_init_w a) = Ok b -> (a_pi a = PiNone <-> In WNoPrior (fst (bl_init_w a))).
Proof. exact prior_silent. Qed.
Print Assumptions c121_prior.
(** C121: plot_dendrogram *)
Theorem c121_dendrogram : forall lk h, In WNotOptimized (fst (plot_dendrogram_w lk h)) <-> h_clusters h = None.
Proof. exact dendrogram_warned. Qed.
Print Assumptions c121_dendrogram.
(** C121: a plot names the parameters that were rejected *)
Theorem c121_plot : forall (St : Type) (methods : string -> option (R -> M St unit)) performance p vs w s w' s' ps,
  snd (plot_loop_w methods performance p vs w s) = (w', s', Ok ps) ->
  fst (plot_loop_w methods performance p vs w s) =
  map (fun x => WNoPortfolio (fst x))
    (filter (fun x => match v_outcome (snd x) with Err ValueError => true | _ => false end) (combine vs (history (try_once methods p) vs (w, s)))).
Proof. exact @plot_warned. Qed.
Print Assumptions c121_plot.
Theorem c121_same_plot : forall (St : Type) (methods : string -> option (R -> M St unit)) performance p vs w s,
  snd (plot_loop_w methods performance p vs w s) = plot_loop methods performance p vs w s.
Proof. exact @plot_same. Qed.
Print Assumptions c121_same_plot.
(** C121: but not those for which there is no portfolio: the plot is empty and nothing is said *)
Theorem c121_plot_refuted : exact_solver best_solver /\ exists w' o',
  plot_loop_w (ef_methods best_solver (fun m => m)) ef_point "utility" [1] two_world tight = ([], (w', o', Ok [])).
Proof. exact plot_nothing. Qed.
Print Assumptions c121_plot_refuted.

(** C121: conversions between covariances and correlations; an array is warned about and its assets are called 0, ..., n - 1 *)
Theorem c121_corr_of_array : forall m n, square n m -> all_risky n m ->
  exists f, cov_to_corr_w (LArray m) = ([WCovNotFrame], Ok f) /\ positions n (f_index f) /\ f_cols f = f_index f /\ correlations n m (f_rows f).
Proof. exact array_to_corr. Qed.
Print Assumptions c121_corr_of_array.
Theorem c121_corr_of_frame : forall g n, square n (f_rows g) -> all_risky n (f_rows g) ->
  exists f, cov_to_corr_w (LFrame g) = ([], Ok f) /\ f_index f = f_index g /\ f_cols f = f_index g /\ correlations n (f_rows g) (f_rows f).
Proof. exact frame_to_corr. Qed.
Print Assumptions c121_corr_of_frame.
Theorem c121_cov_of_array : forall m s n, square n m -> List.length s = n ->
  exists f, corr_to_cov_w (LArray m) s = ([WCorrNotFrame], Ok f) /\ positions n (f_index f) /\ positions n (f_cols f) /\ rescaled n m s (f_rows f).
Proof. exact array_to_cov. Qed.
Print Assumptions c121_cov_of_array.
Theorem c121_cov_of_frame : forall g s n, square n (f_rows g) -> List.length s = n ->
  exists f, corr_to_cov_w (LFrame g) s = ([], Ok f) /\ f_index f = f_index g /\ f_cols f = f_cols g /\ rescaled n (f_rows g) s (f_rows f).
Proof. exact frame_to_cov. Qed.
Print Assumptions c121_cov_of_frame.
(** C121: the estimators announce the conversion of a table exactly if it is not a DataFrame, and there are no other warnings *)
Theorem c121_estimators :
  (forall eigh t rd fr log fm, announces t [] (fst (sample_cov_w eigh t rd fr log fm))) /\
  (forall eigh t rd b fr log fm, announces t [] (fst (semicovariance_w eigh t rd b fr log fm))) /\
  (forall eigh t rd sp fr log fm, announces t [WSpan] (fst (exp_cov_w eigh t rd sp fr log fm))) /\
  (forall eigh mcd t rd fr log fm, announces t [WDeprecated] (fst (min_cov_determinant_w eigh mcd t rd fr log fm)) /\
     In WDeprecated (fst (min_cov_determinant_w eigh mcd t rd fr log fm))) /\
  (forall eigh sh raw, incl (fst (format_annualize_w eigh sh raw)) [WAmended; WNotFixed] /\ snd (format_annualize_w eigh sh raw) = format_annualize eigh sh raw).
Proof. exact (conj sample_cov_announces (conj semicovariance_announces (conj exp_cov_announces (conj min_cov_determinant_announces shrunk_announces)))). Qed.
Print Assumptions c121_estimators.
(** C121: market capitalisations that cannot be aligned; a model that is built never had that warning *)
Theorem c121_caps : forall caps ra cov rf, snd (market_implied_prior_returns_w caps ra cov rf) = market_implied_prior_returns caps ra cov rf /\
  (In WAlignCaps (fst (market_implied_prior_returns_w caps ra cov rf)) <-> exists m, cov = CovArray m).
Proof. exact caps_warned. Qed.
Print Assumptions c121_caps.
Theorem c121_black_litterman : forall a, incl (fst (bl_init_w a)) [WNoPrior; WAlignCaps] /\
  (forall b, snd (bl_init_w a) = Ok b -> ~ In WAlignCaps (fst (bl_init_w a))).
Proof. exact bl_warnings. Qed.
Print Assumptions c121_black_litterman.
(** C121: capm_return announces prices and market that are not DataFrames *)
Theorem c121_capm : forall prices market rd,
  (In WNotFrame (capm_warnings prices market rd) <-> forall f, prices <> TFrame f) /\
  (In WMarketNotFrame (capm_warnings prices market rd) <-> rd = false /\ exists m, market = Some m /\ forall f, m <> TFrame f).
Proof. exact capm_warned. Qed.
Print Assumptions c121_capm.
