(** * Properties of the downside risk optimizers *)
From Coq Require Import ZArith List String Bool Reals.
From Verif Require Import Num Py MBase MConvex MEF MDown SLin SBase SConvex SDown PEFW PRisk PDown2 PDown3 PDown4 PDown5 PDown6 PDownW.
Import ListNotations.
Local Open Scope R_scope.

(** the constructors produce objects to which the theorems below apply *)
Theorem c34_constructor : forall mi n rows freq bench b w0 w1 o d, good_rows n rows ->
  semi_init mi (RTable n rows) freq bench b w0 = (w1, Ok (o, d)) ->
  open_ef w1 o [] /\ semi_ready w1 o [] d /\ d = mkSemi (dropna rows) bench freq.
Proof. exact semi_init_ready. Qed.
Print Assumptions c34_constructor.

(** C34: fully invested *)
Theorem c34_min_semivariance : forall sv w o u d w' o' dd, open_ef w o u -> semi_ready w o u d -> exact_solver sv ->
  min_semivariance sv d false w o = (w', o', Ok dd) ->
  best_portfolio w o u (e_lb o) (e_ub o) 1 (fun _ => True) (semivariance (sd_returns d) (sd_bench d)) (e_weights o') dd /\ e_mu o' = e_mu o.
Proof. exact min_semi_long. Qed.
Print Assumptions c34_min_semivariance.

(** the reported semideviation is at most the target, up to rounding of the weights to 16 decimals *)
Theorem c34_efficient_risk : forall sv w o u d t m w' o' dd, open_ef w o u -> semi_ready w o u d -> exact_solver sv ->
  e_mu o = Some m -> fresh_name w o "target_semivariance" -> 0 <= sd_freq d ->
  semi_efficient_risk sv d t false w o = (w', o', Ok dd) ->
  best_portfolio w o u (e_lb o) (e_ub o) 1 (fun x => sqrt (sd_freq d * semivariance (sd_returns d) (sd_bench d) x) <= Rabs t)
    (fun x => - inner m x) (e_weights o') dd /\
  forall rf M, Forall (fun row => total (map Rabs row) <= M) (sd_returns d) ->
    exists ret dev sortino, semi_performance d o' rf = Ok (ret, dev, sortino) /\ dev <= Rabs t + sqrt (sd_freq d) * (M * half_unit 16).
Proof. exact semi_risk_long. Qed.
Print Assumptions c34_efficient_risk.

Theorem c34_efficient_return : forall sv w o u d t m w' o' dd, open_ef w o u -> semi_ready w o u d -> exact_solver sv ->
  e_mu o = Some m -> fresh_name w o "target_return" ->
  semi_efficient_return sv d (NFloat t) false w o = (w', o', Ok dd) ->
  best_portfolio w o u (e_lb o) (e_ub o) 1 (fun x => t <= inner m x) (semivariance (sd_returns d) (sd_bench d)) (e_weights o') dd.
Proof. exact semi_return_long. Qed.
Print Assumptions c34_efficient_return.

Theorem c34_max_quadratic_utility : forall sv w o u d k m w' o' dd, open_ef w o u -> semi_ready w o u d -> exact_solver sv ->
  e_mu o = Some m -> fresh_name w o "risk_aversion" ->
  semi_max_quadratic_utility sv d k false w o = (w', o', Ok dd) ->
  best_portfolio w o u (e_lb o) (e_ub o) 1 (fun _ => True)
    (fun x => - inner m x / sd_freq d + 1 / 2 * k * semivariance (sd_returns d) (sd_bench d) x) (e_weights o') dd.
Proof. exact semi_utility_long. Qed.
Print Assumptions c34_max_quadratic_utility.

Theorem c34_performance : forall d (o : ef) m r rf, e_weights o = Some r -> e_mu o = Some m ->
  let dev := sqrt (sd_freq d * semivariance (sd_returns d) (sd_bench d) r) in
  semi_performance d o rf = Ok (inner m r, dev, if Reqb dev 0 then None else Some ((inner m r - rf) / dev)).
Proof. exact semi_perf_run. Qed.
Print Assumptions c34_performance.

(** and if there is a best portfolio, a solver that answers whenever it can makes the method succeed *)
Theorem c34_found : forall w o u d, open_ef w o u -> semi_ready w o u d -> forall sv mn, complete_solver sv ->
  (exists lb ub s, bounds_in_force mn o lb ub /\
     least w o u lb ub (if mn then 0 else 1) (fun _ => True) (semivariance (sd_returns d) (sd_bench d * (if mn then 0 else 1))) s) ->
  exists w' o' dd, min_semivariance sv d mn w o = (w', o', Ok dd).
Proof. exact min_semivariance_answers. Qed.
Print Assumptions c34_found.

(** C35: market neutral: the benchmark in force is zero, but performance uses the given one *)
Theorem c35_min_semivariance_neutral : forall sv w o u d w' o' dd, open_ef w o u -> semi_ready w o u d -> exact_solver sv ->
  min_semivariance sv d true w o = (w', o', Ok dd) ->
  exists lb ub, bounds_in_force true o lb ub /\
    best_portfolio w o u lb ub 0 (fun _ => True) (semivariance (sd_returns d) 0) (e_weights o') dd /\ e_mu o' = e_mu o.
Proof. exact min_semi_neutral. Qed.
Print Assumptions c35_min_semivariance_neutral.
Theorem c35_efficient_risk_neutral : forall sv w o u d t m w' o' dd, open_ef w o u -> semi_ready w o u d -> exact_solver sv ->
  e_mu o = Some m -> fresh_name w o "target_semivariance" -> 0 <= sd_freq d ->
  semi_efficient_risk sv d t true w o = (w', o', Ok dd) ->
  exists lb ub, bounds_in_force true o lb ub /\
    best_portfolio w o u lb ub 0 (fun x => sd_freq d * semivariance (sd_returns d) 0 x <= t * t) (fun x => - inner m x) (e_weights o') dd.
Proof. exact semi_risk_neutral. Qed.
Print Assumptions c35_efficient_risk_neutral.
Theorem c35_target_missed : forall sv, exact_solver sv -> complete_solver sv ->
  let d := semi2_data (1/10) (1/10, 1/20) in
  exists w' o' dd, semi_efficient_risk sv d (1/100) true two_world (semi2_ef 0 1) = (w', o', Ok dd) /\
    exists ret dev sharpe, semi_performance d o' 0 = Ok (ret, dev, sharpe) /\ dev = 1/20 /\ 1/100 < dev.
Proof. exact semi_neutral_risk. Qed.
Print Assumptions c35_target_missed.

(** C36 *)
Theorem c36_constructor : forall mi n rows beta b w0 w1 o d, good_rows n rows ->
  cvar_init mi (RTable n rows) beta b w0 = (w1, Ok (o, d)) ->
  open_ef w1 o [] /\ cvar_ready w1 o [] d /\ cv_returns d = dropna rows /\ cv_beta d = beta.
Proof. exact cvar_init_ready. Qed.
Print Assumptions c36_constructor.
Theorem c36_min_cvar : forall w o u d, open_ef w o u -> cvar_ready w o u d ->
  forall sv mn w' o' dd, exact_solver sv -> min_cvar sv d mn w o = (w', o', Ok dd) ->
  exists lb ub s, bounds_in_force mn o lb ub /\
    best_at w o u lb ub (if mn then 0 else 1) (fun _ => True) (cvar (cv_beta d) (cv_returns d)) (e_weights o') dd s /\
    forall m, e_mu o = Some m -> exists r, e_weights o' = Some r /\
      cvar_performance d w' o' = Ok (inner m r, Some (cvar (cv_beta d) (cv_returns d) (s (e_w o)))).
Proof. exact min_cvar_best. Qed.
Print Assumptions c36_min_cvar.
Theorem c36_efficient_return : forall w o u d, open_ef w o u -> cvar_ready w o u d ->
  forall sv mn t m w' o' dd, exact_solver sv -> e_mu o = Some m -> fresh_name w o "target_return" ->
  cvar_efficient_return sv d t mn w o = (w', o', Ok dd) ->
  exists lb ub s, bounds_in_force mn o lb ub /\
    best_at w o u lb ub (if mn then 0 else 1) (fun x => t <= inner m x) (cvar (cv_beta d) (cv_returns d)) (e_weights o') dd s /\
    exists r, e_weights o' = Some r /\
      cvar_performance d w' o' = Ok (inner m r, Some (cvar (cv_beta d) (cv_returns d) (s (e_w o)))).
Proof. exact cvar_return_best. Qed.
Print Assumptions c36_efficient_return.
Theorem c36_found : forall w o u d, open_ef w o u -> cvar_ready w o u d -> forall sv mn, complete_solver sv ->
  (exists lb ub s, bounds_in_force mn o lb ub /\
     least w o u lb ub (if mn then 0 else 1) (fun _ => True) (cvar (cv_beta d) (cv_returns d)) s) ->
  exists w' o' dd, min_cvar sv d mn w o = (w', o', Ok dd).
Proof. exact min_cvar_answers. Qed.
Print Assumptions c36_found.

(** C37 *)
Theorem c37_efficient_risk : forall w o u d, open_ef w o u -> cvar_ready w o u d ->
  forall sv mn t m w' o' dd, exact_solver sv -> e_mu o = Some m -> fresh_name w o "target_cvar" ->
  cvar_efficient_risk sv d t mn w o = (w', o', Ok dd) ->
  0 <= t /\ exists lb ub s, bounds_in_force mn o lb ub /\
    best_at w o u lb ub (if mn then 0 else 1) (fun x => cvar (cv_beta d) (cv_returns d) x <= t) (fun x => - inner m x) (e_weights o') dd s /\
    exists r rep, e_weights o' = Some r /\ cvar_performance d w' o' = Ok (inner m r, Some rep) /\
      cvar (cv_beta d) (cv_returns d) (s (e_w o)) <= rep <= t.
Proof. exact cvar_risk_best. Qed.
Print Assumptions c37_efficient_risk.
Theorem c37_reported_not_true : exact_solver (prefer slack_env) /\
  exists w' o' dd rep, cvar_efficient_risk (prefer slack_env) cvar2_data (1/10) false cvar2_world (semi2_ef 0 1) = (w', o', Ok dd) /\
    e_weights o' = Some [1; 0] /\ cvar_performance cvar2_data w' o' = Ok (1/5, Some rep) /\
    rep = 1/10 /\ cvar (cv_beta cvar2_data) (cv_returns cvar2_data) [1; 0] = -1/10.
Proof. exact (conj (prefer_exact slack_env) cvar_slack_report). Qed.
Print Assumptions c37_reported_not_true.
Theorem c37_found : forall w o u d, open_ef w o u -> cvar_ready w o u d ->
  forall sv mn t m, complete_solver sv -> e_mu o = Some m -> fresh_name w o "target_cvar" -> 0 <= t ->
  (exists lb ub s, bounds_in_force mn o lb ub /\
     least w o u lb ub (if mn then 0 else 1) (fun x => cvar (cv_beta d) (cv_returns d) x <= t) (fun x => - inner m x) s) ->
  exists w' o' dd, cvar_efficient_risk sv d t mn w o = (w', o', Ok dd).
Proof. exact cvar_risk_answers. Qed.
Print Assumptions c37_found.

(** C38 *)
Theorem c38_constructor : forall mi n rows beta b w0 w1 o d, good_rows n rows ->
  cdar_init mi (RTable n rows) beta b w0 = (w1, Ok (o, d)) ->
  open_ef w1 o [] /\ cdar_ready w1 o [] d /\ cd_returns d = dropna rows /\ cd_beta d = beta.
Proof. exact cdar_init_ready. Qed.
Print Assumptions c38_constructor.
Theorem c38_min_cdar : forall w o u d, open_ef w o u -> cdar_ready w o u d ->
  forall sv mn w' o' dd, exact_solver sv -> min_cdar sv d mn w o = (w', o', Ok dd) ->
  exists lb ub s, bounds_in_force mn o lb ub /\
    best_at w o u lb ub (if mn then 0 else 1) (fun _ => True) (cdar (cd_beta d) (cd_returns d)) (e_weights o') dd s /\
    forall m, e_mu o = Some m -> exists r, e_weights o' = Some r /\
      cdar_performance d w' o' = Ok (inner m r, Some (cdar (cd_beta d) (cd_returns d) (s (e_w o)))).
Proof. exact min_cdar_best. Qed.
Print Assumptions c38_min_cdar.
Theorem c38_efficient_risk : forall w o u d, open_ef w o u -> cdar_ready w o u d ->
  forall sv mn t m w' o' dd, exact_solver sv -> e_mu o = Some m -> fresh_name w o "target_cdar" ->
  cdar_efficient_risk sv d t mn w o = (w', o', Ok dd) ->
  0 <= t /\ exists lb ub s, bounds_in_force mn o lb ub /\
    best_at w o u lb ub (if mn then 0 else 1) (fun x => cdar (cd_beta d) (cd_returns d) x <= t) (fun x => - inner m x) (e_weights o') dd s /\
    exists r rep, e_weights o' = Some r /\ cdar_performance d w' o' = Ok (inner m r, Some rep) /\
      cdar (cd_beta d) (cd_returns d) (s (e_w o)) <= rep <= t.
Proof. exact cdar_risk_best. Qed.
Print Assumptions c38_efficient_risk.
Theorem c38_efficient_return : forall w o u d, open_ef w o u -> cdar_ready w o u d ->
  forall sv mn t m w' o' dd, exact_solver sv -> e_mu o = Some m -> fresh_name w o "target_return" ->
  cdar_efficient_return sv d t mn w o = (w', o', Ok dd) ->
  0 <= t /\ exists lb ub s, bounds_in_force mn o lb ub /\
    best_at w o u lb ub (if mn then 0 else 1) (fun x => t <= inner m x) (cdar (cd_beta d) (cd_returns d)) (e_weights o') dd s /\
    exists r, e_weights o' = Some r /\
      cdar_performance d w' o' = Ok (inner m r, Some (cdar (cd_beta d) (cd_returns d) (s (e_w o)))).
Proof. exact cdar_return_best. Qed.
Print Assumptions c38_efficient_return.
Theorem c38_found : forall w o u d, open_ef w o u -> cdar_ready w o u d -> forall sv mn, complete_solver sv ->
  (exists lb ub s, bounds_in_force mn o lb ub /\
     least w o u lb ub (if mn then 0 else 1) (fun _ => True) (cdar (cd_beta d) (cd_returns d)) s) ->
  exists w' o' dd, min_cdar sv d mn w o = (w', o', Ok dd).
Proof. exact min_cdar_answers. Qed.
Print Assumptions c38_found.

(** C39 *)
Theorem c39_cdar_rejects_none : forall r beta b w0, cdar_init (MIn MuNone) r beta b w0 = (w0, Err TypeError).
Proof. exact cdar_init_none. Qed.
Print Assumptions c39_cdar_rejects_none.
Theorem c39_others_accept_none : forall n rows beta freq bench b w0 lb ub, 0 <= beta < 1 -> read_bounds n b = Ok (lb, ub) ->
  (exists w1 o d, semi_init (MIn MuNone) (RTable n rows) freq bench b w0 = (w1, Ok (o, d)) /\ e_mu o = None) /\
  (exists w1 o d, cvar_init (MIn MuNone) (RTable n rows) beta b w0 = (w1, Ok (o, d)) /\ e_mu o = None).
Proof. exact others_accept_none. Qed.
Print Assumptions c39_others_accept_none.
