(** * Property C125: which arguments the constructors accept, and what they store *)
From Coq Require Import ZArith List String Bool Reals.
From Verif Require Import Num Py MBase MConvex MEF MDown MCLA MHRP SLin SBase SConvex SLabels SInit PInit PInit2.
Import ListNotations.
Local Open Scope R_scope.

(** C125: EfficientFrontier *)
Theorem c125_efficient_frontier : forall mu cov b w0,
  (exists w1 o, ef_init mu cov b w0 = (w1, Ok o)) <->
  exists m c ts lb ub, mu = MIn m /\ cov = CIn c /\ (forall l, mu_values m = Some l -> same_size l (cov_values c)) /\
    universe m c ts /\ bounds_given (List.length ts) b lb ub.
Proof. exact ef_accepts. Qed.
Print Assumptions c125_efficient_frontier.
Theorem c125_efficient_frontier_errors : forall mu cov b w0,
  (cov = CInNone -> ef_init mu cov b w0 = (w0, Err ValueError)) /\
  (cov = CInOther -> ef_init mu cov b w0 = (w0, Err TypeError)) /\
  (forall c, cov = CIn c ->
     (mu = MInOther -> ef_init mu cov b w0 = (w0, Err TypeError)) /\
     (forall m l, mu = MIn m -> mu_values m = Some l -> ~ same_size l (cov_values c) -> ef_init mu cov b w0 = (w0, Err ValueError))).
Proof. exact ef_errors. Qed.
Print Assumptions c125_efficient_frontier_errors.
(** the new object has the given data, no weights, no objective, and the bounds as its only constraints *)
Theorem c125_efficient_frontier_stored : forall m c b w0 w1 o, ef_init (MIn m) (CIn c) b w0 = (w1, Ok o) ->
  exists lb ub, universe m c (b_tickers (e_base o)) /\ bounds_given (e_n o) b lb ub /\
    e_lb o = lb /\ e_ub o = ub /\ e_cov o = cov_values c /\ e_mu o = mu_values m /\
    e_weights o = None /\ e_obj o = None /\ e_add o = [] /\ e_opt o = None /\
    e_w o = List.length (w_sizes w0) /\ w_sizes w1 = w_sizes w0 ++ [e_n o] /\ w_params w1 = w_params w0 /\
    forall s ps, List.length (s (e_w o)) = e_n o ->
      (Forall (fun ic => sat s ps (snd ic)) (e_cons o) <-> within lb ub (s (e_w o))).
Proof. exact ef_built. Qed.
Print Assumptions c125_efficient_frontier_stored.
(** without expected returns a covariance table of any shape is accepted; the first variance fails *)
Theorem c125_any_shape_refuted : forall sv M lo hi w0, exists w1 o,
  ef_init (MIn MuNone) (CIn (CovArray M)) (BPair (Some lo) (Some hi)) w0 = (w1, Ok o) /\
  e_cov o = M /\ (~ square (List.length M) M -> min_volatility sv w1 o = (w1, o, Err ShapeError)).
Proof. exact ef_any_shape. Qed.
Print Assumptions c125_any_shape_refuted.

(** C125: the downside optimizers; neither frequency nor benchmark is looked at *)
Theorem c125_semivariance : forall mu r freq bench b w0,
  (exists w1 o d, semi_init mu r freq bench b w0 = (w1, Ok (o, d))) <->
  exists m n rows, mu = MIn m /\ r = RTable n rows /\ table_ok m n b.
Proof. exact semi_accepts. Qed.
Print Assumptions c125_semivariance.
Theorem c125_cvar : forall mu r beta b w0,
  (exists w1 o d, cvar_init mu r beta b w0 = (w1, Ok (o, d))) <->
  exists m n rows, mu = MIn m /\ r = RTable n rows /\ table_ok m n b /\ 0 <= beta < 1.
Proof. exact cvar_accepts. Qed.
Print Assumptions c125_cvar.
Theorem c125_cdar : forall mu r beta b w0,
  (exists w1 o d, cdar_init mu r beta b w0 = (w1, Ok (o, d))) <->
  exists m n rows, mu = MIn m /\ mu_values m <> None /\ r = RTable n rows /\ table_ok m n b /\ 0 <= beta < 1.
Proof. exact cdar_accepts. Qed.
Print Assumptions c125_cdar.
Theorem c125_semivariance_stored : forall m n rows freq bench b w0 w1 o d,
  semi_init (MIn m) (RTable n rows) freq bench b w0 = (w1, Ok (o, d)) ->
  e_n o = n /\ e_mu o = mu_values m /\ bounds_given n b (e_lb o) (e_ub o) /\ universe m (CovArray (zeros n)) (b_tickers (e_base o)) /\
  without_gaps rows (sd_returns d) /\ sd_bench d = bench /\ sd_freq d = freq.
Proof. exact semi_built. Qed.
Print Assumptions c125_semivariance_stored.
Theorem c125_cvar_stored : forall m n rows beta b w0 w1 o d,
  cvar_init (MIn m) (RTable n rows) beta b w0 = (w1, Ok (o, d)) ->
  e_n o = n /\ e_mu o = mu_values m /\ bounds_given n b (e_lb o) (e_ub o) /\ universe m (CovArray (zeros n)) (b_tickers (e_base o)) /\
  without_gaps rows (cv_returns d) /\ cv_beta d = beta.
Proof. exact cvar_built. Qed.
Print Assumptions c125_cvar_stored.
Theorem c125_cdar_stored : forall m n rows beta b w0 w1 o d,
  cdar_init (MIn m) (RTable n rows) beta b w0 = (w1, Ok (o, d)) ->
  e_n o = n /\ e_mu o = mu_values m /\ bounds_given n b (e_lb o) (e_ub o) /\ universe m (CovArray (zeros n)) (b_tickers (e_base o)) /\
  without_gaps rows (cd_returns d) /\ cd_beta d = beta.
Proof. exact cdar_built. Qed.
Print Assumptions c125_cdar_stored.

(** C125: CLA; the covariance matrix is not looked at *)
Theorem c125_cla : forall mu cov b, (exists o : cla R, cla_init mu cov b = Ok o) <->
  exists labels mean lo hi, mu = Some (labels, mean) /\ cla_bounds_given (List.length mean) b lo hi.
Proof. exact cla_accepts. Qed.
Print Assumptions c125_cla.
Theorem c125_cla_stored : forall labels mean cov b (o : cla R), cla_init (Some (labels, mean)) cov b = Ok o ->
  exists lo hi, cla_bounds_given (List.length mean) b lo hi /\
    c_mean o = mean /\ c_cov o = cov /\ c_lb o = map pval lo /\ c_ub o = map pval hi /\
    (c_int o = true <-> (exists rows, b = CSeq rows) /\ Forall (fun p => exists z, p = PInt z) lo) /\
    c_tp o = [] /\ c_frontier o = None /\ b_weights (c_base o) = None.
Proof. exact cla_built. Qed.
Print Assumptions c125_cla_stored.

(** C125: HRPOpt; the covariance matrix is not looked at if there are returns *)
Theorem c125_hrp : forall r c, (exists h, hrp_init r c = Ok h) <->
  (exists f, r = HRetFrame f) \/ (r = HRetNone /\ exists f, c = HCovFrame f).
Proof. exact hrp_accepts. Qed.
Print Assumptions c125_hrp.
(** and the exception otherwise *)
Theorem c125_hrp_errors : forall r c e, hrp_init r c = Err e <->
  (r = HRetNone /\ c = HCovNone /\ e = ValueError) \/ (r = HRetOther /\ e = TypeError) \/ (r = HRetNone /\ c = HCovOther /\ e = AttributeError).
Proof. exact hrp_init_errors. Qed.
Print Assumptions c125_hrp_errors.
Theorem c125_hrp_stored : forall r c h, hrp_init r c = Ok h ->
  h_returns h = match r with HRetFrame f => Some f | _ => None end /\
  h_cov h = match c with HCovFrame f => Some f | _ => None end /\ b_weights (h_base h) = None /\ h_clusters h = None.
Proof. exact hrp_built. Qed.
Print Assumptions c125_hrp_stored.
