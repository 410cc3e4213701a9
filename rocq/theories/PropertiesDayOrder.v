(** * Property theorems: the order of the days in a table of returns (C131) *)
From Coq Require Import ZArith List String Bool Reals Permutation.
From Verif Require Import Num Py MBase MFrame MHRP MReturns MRisk SDayOrder PDayOrder PDayOrder2.
Import ListNotations.
Local Open Scope R_scope.

Theorem c131_mean_historical : forall f g, same_days f g -> forall compounding fr lg,
  same_estimates (mean_historical_return f true compounding fr lg) (mean_historical_return g true compounding fr lg).
Proof. exact order_mean. Qed.
Print Assumptions c131_mean_historical.
(** without gaps not even the warning differs *)
Theorem c131_mean_historical_complete : forall f g, same_days f g -> no_gaps f -> Forall (fun row => List.length row = List.length (f_cols f)) (f_rows f) ->
  forall compounding fr lg, mean_historical_return f true compounding fr lg = mean_historical_return g true compounding fr lg.
Proof. exact order_mean_whole. Qed.
Print Assumptions c131_mean_historical_complete.
Theorem c131_capm : forall f g, same_days f g -> forall rf compounding fr lg,
  same_estimates (snd (capm_return f None true rf compounding fr lg)) (snd (capm_return g None true rf compounding fr lg)).
Proof. exact order_capm. Qed.
Print Assumptions c131_capm.
(** with a market table, each of the two tables may be in its own order *)
Theorem c131_capm_market : forall f g m m', same_days f g -> same_days m m' -> forall rf compounding fr lg,
  same_estimates (snd (capm_return f (Some m) true rf compounding fr lg)) (snd (capm_return g (Some m') true rf compounding fr lg)).
Proof. exact order_capm_market. Qed.
Print Assumptions c131_capm_market.
Theorem c131_sample_cov : forall f g, same_days f g -> forall eigh fr lg fm, sample_cov eigh f true fr lg fm = sample_cov eigh g true fr lg fm.
Proof. exact order_sample_cov. Qed.
Print Assumptions c131_sample_cov.
Theorem c131_semicovariance : forall f g, same_days f g -> forall eigh b fr lg fm,
  semicovariance eigh f true b fr lg fm = semicovariance eigh g true b fr lg fm.
Proof. exact order_semicovariance. Qed.
Print Assumptions c131_semicovariance.
(** the shrinkage estimators; scikit-learn's part is assumed not to look at the order of the days *)
Theorem c131_shrinkage : forall f g, same_days f g -> forall fr lg, exists a b,
  shrinkage_init f true fr lg = Ok a /\ shrinkage_init g true fr lg = Ok b /\
  (forall eigh d, shrunk_covariance eigh a d = shrunk_covariance eigh b d) /\
  single_factor a = single_factor b /\ constant_correlation a = constant_correlation b /\
  (forall eigh sk target, (forall x y, Permutation x y -> sk x = sk y) -> ledoit_wolf eigh sk a target = ledoit_wolf eigh sk b target) /\
  (forall eigh sk, (forall x y, Permutation x y -> sk x = sk y) -> oracle_approximating eigh sk a = oracle_approximating eigh sk b).
Proof. exact order_shrinkage. Qed.
Print Assumptions c131_shrinkage.
(** the portfolio of HRPOpt from returns, and its performance *)
Theorem c131_hrp : forall f g c lk m rf fr h h', same_days f g -> hrp_init (HRetFrame f) c = Ok h -> hrp_init (HRetFrame g) c = Ok h' ->
  snd (hrp_optimize lk m h) = snd (hrp_optimize lk m h') /\
  hrp_performance (fst (hrp_optimize lk m h)) rf fr = hrp_performance (fst (hrp_optimize lk m h')) rf fr.
Proof. exact order_hrp. Qed.
Print Assumptions c131_hrp.
(** the exponentially weighted estimators do look at the order; no exception tells *)
Theorem c131_ema_refuted : exists f g b c, same_days f g /\
  ema_historical_return f true false 1 1 false = Ok (b, [(LStr "A", Some 1)]) /\
  ema_historical_return g true false 1 1 false = Ok (c, [(LStr "A", Some 0)]).
Proof. exact ema_order. Qed.
Print Assumptions c131_ema_refuted.
Theorem c131_exp_cov_refuted : forall eigh, exists f g, same_days f g /\
  exp_cov eigh f true 1 1 false "spectral" = Ok (mkFrame [LStr "A"] [LStr "A"] [[4]]) /\
  exp_cov eigh g true 1 1 false "spectral" = Ok (mkFrame [LStr "A"] [LStr "A"] [[1]]).
Proof. exact exp_cov_order. Qed.
Print Assumptions c131_exp_cov_refuted.
(** with gaps the warning depends on the order, the estimates do not *)
Theorem c131_warning_refuted : exists f g s, same_days f g /\
  mean_historical_return f true false 1 false = Ok (false, s) /\ mean_historical_return g true false 1 false = Ok (true, s).
Proof. exact warning_order. Qed.
Print Assumptions c131_warning_refuted.
