(** * C132: which arguments a first call rejects, and with which exception *)
From Coq Require Import ZArith List String Bool Reals.
From Verif Require Import Num Py MBase MConvex MEF MDown SLin SBase SConvex SDown SErrors PEFW PErrors PErrors2 PErrors3.
Import ListNotations.
Local Open Scope R_scope.

Theorem c132_min_volatility : forall sv w o u m, usual_solver sv -> open_ef w o u -> e_mu o = Some m ->
  rejects_exactly False (snd (min_volatility sv w o)).
Proof. exact (fun sv w o u m Hs Ho Em => minvol_table sv Hs m w o u Ho Em). Qed.
Print Assumptions c132_min_volatility.

Theorem c132_max_quadratic_utility : forall sv w o u m ra mn, usual_solver sv -> open_ef w o u -> e_mu o = Some m ->
  unused_name w o "risk_aversion" -> rejects_exactly (ra <= 0) (snd (max_quadratic_utility sv ra mn w o)).
Proof. exact (fun sv w o u m ra mn Hs Ho Em => utility_table sv Hs m w o u Ho Em ra mn). Qed.
Print Assumptions c132_max_quadratic_utility.

Theorem c132_efficient_risk : forall sv w o u m pinv t mn, usual_solver sv -> open_ef w o u -> e_mu o = Some m ->
  unused_name w o "target_variance" ->
  rejects_exactly (forall x, is_number t x -> x < 0 \/ below_lowest (total (map total (pinv (e_cov o)))) x)
    (snd (efficient_risk sv pinv t mn w o)).
Proof. exact (fun sv w o u m pinv t mn Hs Ho Em => risk_table sv Hs m w o u Ho Em pinv t mn). Qed.
Print Assumptions c132_efficient_risk.

Theorem c132_efficient_return : forall sv w o u m t mn, usual_solver sv -> exact_solver sv -> complete_solver sv ->
  open_ef w o u -> e_mu o = Some m -> e_maxret o = None -> unused_name w o "target_return" ->
  rejects_exactly (forall x, t = NFloat x -> exists s, best_return w o u m s /\ inner m (s (e_w o)) < x)
    (snd (efficient_return sv t mn w o)).
Proof. exact (fun sv w o u m t mn Hs He Hc Ho Em Er Hn => return_table sv Hs w o u m Ho Em He Hc Er Hn t mn). Qed.
Print Assumptions c132_efficient_return.

Theorem c132_max_sharpe : forall sv w o u m rf r, usual_solver sv -> open_ef w o u -> e_mu o = Some m ->
  Forall (fun ic => ordinary (snd ic)) u -> r = snd (max_sharpe sv rf w o) ->
  (r = Err ValueError <-> forall x, is_number rf x -> all_at_most x m) /\
  (forall e, r = Err e -> e = ValueError \/ e = OptimizationError \/ e = FloatSpecial).
Proof. exact (fun sv w o u m rf r Hs Ho Em Hu Hr => sharpe_table sv Hs w o u m Ho Em rf r Hr Hu). Qed.
Print Assumptions c132_max_sharpe.

(** a constraint of another kind makes every otherwise acceptable call fail *)
Theorem c132_max_sharpe_constraints : forall sv w o u m rf, open_ef w o u -> e_mu o = Some m ->
  (exists x a, is_number rf x /\ In a m /\ x < a) -> (exists ic, In ic u /\ ~ ordinary (snd ic)) ->
  snd (max_sharpe sv rf w o) = Err TypeError.
Proof. exact sharpe_type_error. Qed.
Print Assumptions c132_max_sharpe_constraints.

Theorem c132_semivariance : forall sv w o u m d mn, usual_solver sv -> open_ef w o u -> e_mu o = Some m ->
  rejects_exactly False (snd (min_semivariance sv d mn w o)) /\
  (forall ra, unused_name w o "risk_aversion" -> rejects_exactly (ra <= 0) (snd (semi_max_quadratic_utility sv d ra mn w o))) /\
  (forall t, unused_name w o "target_semivariance" -> rejects_exactly False (snd (semi_efficient_risk sv d t mn w o))) /\
  (forall t, unused_name w o "target_return" ->
     rejects_exactly (forall x, t = NFloat x -> x < 0 \/ all_smaller x (map Rabs m)) (snd (semi_efficient_return sv d t mn w o))).
Proof. exact semi_tables. Qed.
Print Assumptions c132_semivariance.

Theorem c132_cvar : forall sv w o u m d mn, usual_solver sv -> open_ef w o u -> e_mu o = Some m ->
  rejects_exactly False (snd (min_cvar sv d mn w o)) /\
  (forall t, unused_name w o "target_return" -> rejects_exactly False (snd (cvar_efficient_return sv d t mn w o))) /\
  (forall t, unused_name w o "target_cvar" -> rejects_exactly (t < 0) (snd (cvar_efficient_risk sv d t mn w o))).
Proof. exact cvar_tables. Qed.
Print Assumptions c132_cvar.

Theorem c132_cdar : forall sv w o u m d mn, usual_solver sv -> open_ef w o u -> e_mu o = Some m ->
  rejects_exactly False (snd (min_cdar sv d mn w o)) /\
  (forall t, unused_name w o "target_return" -> rejects_exactly (t < 0) (snd (cdar_efficient_return sv d t mn w o))) /\
  (forall t, unused_name w o "target_cdar" -> rejects_exactly (t < 0) (snd (cdar_efficient_risk sv d t mn w o))).
Proof. exact cdar_tables. Qed.
Print Assumptions c132_cdar.

(** the checks are not "the target can be reached": a semivariance optimizer rejects a target that a long-short portfolio exceeds, *)
Theorem c132_reachable_refuted : forall sv, exists w o d,
  semi_init (MIn (MuArray [1/5; 1/10])) (RTable 2 [[Some (1/10); Some (1/20)]]) 1 0 (BPair (Some (-1)) (Some 2)) empty_world = (w, Ok (o, d)) /\
  (exists s, admissible w o [] (e_lb o) (e_ub o) 1 s /\ 1/4 < inner [1/5; 1/10] (s (e_w o))) /\
  snd (semi_efficient_return sv d (NFloat (1/4)) false w o) = Err ValueError.
Proof. exact semi_reachable. Qed.
Print Assumptions c132_reachable_refuted.

(** and does not reject one that no portfolio reaches because an expected loss is large enough, *)
Theorem c132_unreachable_refuted : forall sv, usual_solver sv -> exact_solver sv -> exists w o d,
  semi_init (MIn (MuArray [-3/10; 1/10])) (RTable 2 [[Some (1/10); Some (1/20)]]) 1 0 (BPair (Some 0) (Some 1)) empty_world = (w, Ok (o, d)) /\
  (forall s, admissible w o [] (e_lb o) (e_ub o) 1 s -> inner [-3/10; 1/10] (s (e_w o)) < 1/5) /\
  snd (semi_efficient_return sv d (NFloat (1/5)) false w o) = Err OptimizationError.
Proof. exact semi_unreachable. Qed.
Print Assumptions c132_unreachable_refuted.

(** and a CVaR optimizer rejects a target that every portfolio meets *)
Theorem c132_negative_cvar_refuted : forall sv, exists w o d,
  cvar_init (MIn (MuArray [1/5; 1/10])) (RTable 2 [[Some (1/20); Some (1/20)]]) (1/2) (BPair (Some 0) (Some 1)) empty_world = (w, Ok (o, d)) /\
  (forall s, admissible w o [] (e_lb o) (e_ub o) 1 s -> cvar (cv_beta d) (cv_returns d) (s (e_w o)) < -1/25) /\
  snd (cvar_efficient_risk sv d (-1/25) false w o) = Err ValueError.
Proof. exact cvar_reachable. Qed.
Print Assumptions c132_negative_cvar_refuted.

(** without expected returns every method that needs them fails: ValueError where the code looks for them, TypeError or AttributeError where it does not *)
Theorem c132_no_returns : forall sv w o u mn, open_ef w o u -> e_mu o = None ->
  (forall t, e_maxret o = None -> snd (efficient_return sv t mn w o) = Err ValueError) /\
  (forall rf, snd (max_sharpe sv rf w o) = Err (match rf with NOther => ValueError | _ => TypeError end)) /\
  (forall ra, unused_name w o "risk_aversion" -> 0 < ra -> snd (max_quadratic_utility sv ra mn w o) = Err TypeError) /\
  (forall pinv t, unused_name w o "target_variance" -> snd (efficient_risk sv pinv t mn w o) = Err ValueError \/ snd (efficient_risk sv pinv t mn w o) = Err TypeError).
Proof. exact no_returns. Qed.
Print Assumptions c132_no_returns.
Theorem c132_no_returns_semivariance : forall sv w o, e_mu o = None -> forall d mn,
  (forall ra, unused_name w o "risk_aversion" -> 0 < ra -> snd (semi_max_quadratic_utility sv d ra mn w o) = Err TypeError) /\
  (forall t, unused_name w o "target_semivariance" -> snd (semi_efficient_risk sv d t mn w o) = Err TypeError) /\
  (forall t, snd (semi_efficient_return sv d t mn w o) = Err ValueError \/ snd (semi_efficient_return sv d t mn w o) = Err TypeError).
Proof. exact none_semi. Qed.
Print Assumptions c132_no_returns_semivariance.
Theorem c132_no_returns_tails : forall sv w o u, open_ef w o u -> e_mu o = None -> forall mn,
  (forall d t, unused_name w o "target_cvar" -> snd (cvar_efficient_risk sv d t mn w o) = Err TypeError) /\
  (forall d t, unused_name w o "target_return" -> snd (cvar_efficient_return sv d t mn w o) = Err AttributeError) /\
  (forall d t, unused_name w o "target_cdar" -> snd (cdar_efficient_risk sv d t mn w o) = Err TypeError) /\
  (forall d t, unused_name w o "target_return" -> snd (cdar_efficient_return sv d t mn w o) = Err AttributeError).
Proof. exact none_tails. Qed.
Print Assumptions c132_no_returns_tails.
