(** * Property theorems: the order in which the assets are listed (C128) *)
From Coq Require Import ZArith List String Bool Reals Permutation.
From Verif Require Import Num Py MBase MFrame MHRP MReturns MRisk SLin SHRP SHRP2 SHRP3 SReturns SRisk SShrink SPerm MAlloc SAlloc MRound SOrder POrder4.
Import ListNotations.
Local Open Scope R_scope.

(** the estimates of the expected returns move with their assets *)
Theorem c128_returns : forall T dates names prc p, price_table T dates names prc -> ordering (List.length names) p ->
  forall m s, m = "mean_historical_return"%string \/
      (m = "ema_historical_return"%string /\ forall t, In t names -> -1 < ema_value 500 (simple_returns (prc t))) \/
      (m = "capm_return"%string /\ ~ In (LStr "mkt") names /\
        let mk := market T names (fun t => simple_returns (prc t)) in sample_covariance mk mk <> 0 /\ Forall (fun v => -1 < v) mk) ->
    return_model (history (S T) dates names prc) m = Ok (false, s) ->
    return_model (history (S T) dates (pick (LInt 0) p names) prc) m = Ok (false, pick (LInt 0, None) p s).
Proof. exact order_returns. Qed.
Print Assumptions c128_returns.
(** so do the covariance estimates *)
Theorem c128_covariances : forall eigh sk_lw sk_oas T dates names prc p, price_table T dates names prc -> ordering (List.length names) p ->
  forall m, In m ["sample_cov"; "semicovariance"; "semivariance"; "exp_cov"]%string -> covariances_reordered eigh sk_lw sk_oas T dates names prc p m.
Proof. exact order_plain. Qed.
Print Assumptions c128_covariances.
(** and the two Ledoit-Wolf estimates computed here, intensity included *)
Theorem c128_single_factor : forall eigh sk_lw sk_oas T dates names prc p, price_table T dates names prc -> ordering (List.length names) p ->
  let xs i := simple_returns (prc (nth i names (LInt 0))) in
  let m := market T names (fun t => simple_returns (prc t)) in let b i := plain_covariance T (xs i) m in
  sample_covariance m m <> 0 -> lw_gamma (List.length names) (fun i j => plain_covariance T (xs i) (xs j)) (fun i j => b i * b j / plain_covariance T m m) <> 0 ->
  covariances_reordered eigh sk_lw sk_oas T dates names prc p "ledoit_wolf_single_factor".
Proof. exact order_single_factor. Qed.
Print Assumptions c128_single_factor.
Theorem c128_constant_correlation : forall eigh sk_lw sk_oas T dates names prc p, price_table T dates names prc -> ordering (List.length names) p ->
  (2 <= List.length names)%nat -> let x t := simple_returns (prc t) in (forall t, In t names -> 0 < sample_covariance (x t) (x t)) ->
  let s i j := sample_covariance (x (nth i names (LInt 0))) (x (nth j names (LInt 0))) in
  lw_gamma (List.length names) s (fun i j => mean_correlation (List.length names) (sample_matrix names x) * sqrt (s i i * s j j)) <> 0 ->
  covariances_reordered eigh sk_lw sk_oas T dates names prc p "ledoit_wolf_constant_correlation".
Proof. exact order_constant_correlation. Qed.
Print Assumptions c128_constant_correlation.
(** with pairwise different weights the greedy allocation does not depend on the order, in exact arithmetic and with any rounding *)
Theorem c128_greedy : forall fuel d d' r, Permutation (da_weights d) (da_weights d') -> NoDup (map snd (da_weights d)) ->
  (forall t, dget t (da_prices d) = dget t (da_prices d')) -> da_int d = da_int d' -> da_total d = da_total d' -> da_short_ratio d = da_short_ratio d' ->
  snd (greedy_portfolio fuel d r) = snd (greedy_portfolio fuel d' r).
Proof. exact order_greedy. Qed.
Print Assumptions c128_greedy.
Theorem c128_greedy_rounded : forall rnd fuel d d' r, Permutation (da_weights d) (da_weights d') -> NoDup (map snd (da_weights d)) ->
  (forall t, dget t (da_prices d) = dget t (da_prices d')) -> da_int d = da_int d' -> da_total d = da_total d' -> da_short_ratio d = da_short_ratio d' ->
  snd (@greedy_portfolio R (RndNum rnd) fuel d r) = snd (@greedy_portfolio R (RndNum rnd) fuel d' r).
Proof. exact order_greedy_rounded. Qed.
Print Assumptions c128_greedy_rounded.
(** with equal weights it does: the ticker listed first is the one that is bought *)
Theorem c128_greedy_ties_refuted : exists d d' : @da R, valid_da d /\ valid_da d' /\ long_only (da_weights d) /\ total_weight (da_weights d) = 1 /\ Permutation (da_weights d) (da_weights d') /\
  da_prices d = da_prices d' /\ da_int d = da_int d' /\ da_total d = da_total d' /\ da_short_ratio d = da_short_ratio d' /\
  forall r, exists al al' lo, snd (greedy_portfolio 5 d r) = Ok (al, lo) /\ snd (greedy_portfolio 5 d' r) = Ok (al', lo) /\
    dget (LStr "A") al = Some 1%Z /\ dget (LStr "A") al' = None.
Proof. exact order_ties. Qed.
Print Assumptions c128_greedy_ties_refuted.
(** hierarchical risk parity: two assets with the same variances and correlations trade places in the list, the distances and the linkage stay
    the same, and the weight of an asset changes from below 18 per cent to above 26 per cent *)
Theorem c128_hrp_refuted : exists (names names' : list label) c link, Permutation names names' /\ NoDup names /\ positive_risk c names /\ positive_risk c names' /\
  valid_linkage (List.length names) link /\
  let dist t u := correlation_distance (correlation_of c t u) in
  only_single_linkage (List.length names) (fun i j => dist (nth i names (LInt 0)) (nth j names (LInt 0))) link /\
  pair_distances dist names' = pair_distances dist names /\
  forall lk, linkage_valid lk "single" (List.length names) -> lk "single"%string (pair_distances dist names) = link ->
  exists h0 h d h0' h' d', hrp_init HRetNone (HCovFrame (labelled names c)) = Ok h0 /\ hrp_optimize lk "single" h0 = (h, Ok d) /\
    hrp_init HRetNone (HCovFrame (labelled names' c)) = Ok h0' /\ hrp_optimize lk "single" h0' = (h', Ok d') /\
    exists t v v', dget t d = Some v /\ dget t d' = Some v' /\ v < 18/100 /\ 26/100 < v'.
Proof. exact order_hrp. Qed.
Print Assumptions c128_hrp_refuted.
