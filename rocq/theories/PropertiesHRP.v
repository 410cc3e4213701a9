(** * Properties of hierarchical risk parity (C42-C46, C79) *)
From Coq Require Import ZArith List String Bool Reals Permutation.
From Verif Require Import Num Py MBase MFrame MHRP SLin SHRP SHRP3 PHRP PHRP2 PHRP3 PHRP4.
Import ListNotations.
Local Open Scope R_scope.

(** C42 *)
Theorem c42_raw_allocation : forall names c ts, NoDup ts -> incl ts names -> ts <> [] -> positive_risk c ts ->
  exists w, raw_hrp_allocation (labelled names c) ts = Ok w /\ map fst w = ts /\ total (map snd w) = 1 /\
    Forall (fun v => 0 < v) (map snd w) /\ Forall (fun v => v <= 1) (map snd w) /\
    ((1 < List.length ts)%nat -> Forall (fun v => v < 1) (map snd w)).
Proof. exact raw_portfolio. Qed.
Print Assumptions c42_raw_allocation.
Theorem c42_optimize_cov : forall lk m names c, In m linkage_methods -> (2 <= List.length names)%nat -> NoDup names ->
  positive_risk c names -> linkage_valid lk m (List.length names) ->
  exists h0 h d, hrp_init HRetNone (HCovFrame (labelled names c)) = Ok h0 /\ hrp_optimize lk m h0 = (h, Ok d) /\ long_portfolio names d (h_base h).
Proof. exact optimize_cov. Qed.
Print Assumptions c42_optimize_cov.
Theorem c42_optimize_returns : forall lk m T dates names x cov, In m linkage_methods -> (2 <= List.length names)%nat -> NoDup names -> (2 <= T)%nat ->
  (forall t, In t names -> List.length (x t) = T) ->
  positive_risk (fun t u => sample_covariance (x t) (x u)) names -> linkage_valid lk m (List.length names) ->
  exists h0 h d, hrp_init (HRetFrame (history T dates names x)) cov = Ok h0 /\ hrp_optimize lk m h0 = (h, Ok d) /\ long_portfolio names d (h_base h).
Proof. exact optimize_returns. Qed.
Print Assumptions c42_optimize_returns.

(** C43 *)
Theorem c43_terminates : forall (A : Type) (N : Num A) (cov : frame A) ts, raw_hrp_allocation cov ts <> Err OutOfFuel.
Proof. exact (fun A N cov => raw_terminates cov). Qed.
Print Assumptions c43_terminates.
Theorem c43_recursive_bisection : forall names c ts w, NoDup ts -> incl ts names -> raw_hrp_allocation (labelled names c) ts = Ok w ->
  bisected (first_share c) 1 ts w.
Proof. exact raw_bisected. Qed.
Print Assumptions c43_recursive_bisection.
(** the same for any arithmetic, in particular binary64, in terms of the split factors the code computes *)
Theorem c43_any_arithmetic : forall (A : Type) (N : Num A) (cov : frame A) ts w, NoDup ts -> raw_hrp_allocation cov ts = Ok w ->
  cut_weights cov n1 ts w /\ map fst w = ts.
Proof. exact (fun A N cov => raw_cut cov). Qed.
Print Assumptions c43_any_arithmetic.

(** C44 *)
Theorem c44_raw_inverse_variance : forall names c ts, NoDup ts -> incl ts names -> uncorrelated c ts -> ts <> [] ->
  raw_hrp_allocation (labelled names c) ts = Ok (map (fun t => (t, inverse_variance c ts t)) ts).
Proof. exact raw_diagonal. Qed.
Print Assumptions c44_raw_inverse_variance.
Theorem c44_optimize_inverse_variance : forall lk m names c, In m linkage_methods -> (2 <= List.length names)%nat -> NoDup names ->
  uncorrelated c names -> linkage_valid lk m (List.length names) ->
  exists h0 h d, hrp_init HRetNone (HCovFrame (labelled names c)) = Ok h0 /\ hrp_optimize lk m h0 = (h, Ok d) /\
    b_weights (h_base h) = Some (map (inverse_variance c names) names) /\
    forall t v, In (t, v) d -> v = inverse_variance c names t.
Proof. exact optimize_diagonal. Qed.
Print Assumptions c44_optimize_inverse_variance.

(** C45 *)
Theorem c45_raw_scale : forall k f ts, k <> 0 -> raw_hrp_allocation (scale_frame k f) ts = raw_hrp_allocation f ts.
Proof. exact raw_scale. Qed.
Print Assumptions c45_raw_scale.
Theorem c45_optimize_scale : forall lk m k f, 0 < k -> exists h h',
  hrp_init HRetNone (HCovFrame f) = Ok h /\ hrp_init HRetNone (HCovFrame (scale_frame k f)) = Ok h' /\
  snd (hrp_optimize lk m h') = snd (hrp_optimize lk m h) /\
  b_weights (h_base (fst (hrp_optimize lk m h'))) = b_weights (h_base (fst (hrp_optimize lk m h))).
Proof. exact optimize_scale. Qed.
Print Assumptions c45_optimize_scale.

(** C46 *)
Theorem c46_leaf_order : forall n link, valid_linkage n link -> exists ix, get_quasi_diag link = Ok ix /\ Permutation ix (seq 0 n).
Proof. exact quasi_diag_perm. Qed.
Print Assumptions c46_leaf_order.

(** C79: the bisection handles one asset, but optimize does not *)
Theorem c79_raw_single : forall (f : frame R) t, raw_hrp_allocation f [t] = Ok [(t, 1)].
Proof. exact raw_single. Qed.
Print Assumptions c79_raw_single.
Theorem c79_optimize_single : forall lk m t c, In m linkage_methods -> 0 < c t t ->
  exists h0, hrp_init HRetNone (HCovFrame (labelled [t] c)) = Ok h0 /\ hrp_optimize lk m h0 = (h0, Err ValueError).
Proof. exact optimize_single. Qed.
Print Assumptions c79_optimize_single.
