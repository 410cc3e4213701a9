(** * Property theorems: best portfolios are found *)
From Coq Require Import ZArith List String Bool Reals.
From Verif Require Import Num Py MBase MConvex MEF SLin SBase SConvex PEF PEF5 PEF6 PReach.
Import ListNotations.
Local Open Scope R_scope.

(** C25: if there is a portfolio of least variance, a complete solver finds one *)
Theorem c25_found : forall sv w o u s, complete_solver sv -> open_ef w o u ->
  least w o u (e_lb o) (e_ub o) 1 (fun _ => True) (qform (e_cov o)) s ->
  exists w' o' d, min_volatility sv w o = (w', o', Ok d).
Proof. exact min_volatility_found. Qed.
Print Assumptions c25_found.

(** C26 *)
Theorem c26_found : forall sv pinv mn w o u m, open_ef w o u -> e_mu o = Some m ->
  (0 < e_n o)%nat -> psd (e_n o) (e_cov o) -> symmetric (e_n o) (e_cov o) -> right_inverse (e_n o) (e_cov o) (pinv (e_cov o)) ->
  forall tg t, complete_solver sv -> target_of tg = Some t -> 0 <= t -> fresh_name w o "target_variance" ->
  (exists x, List.length x = e_n o /\ total x = 1 /\ qform (e_cov o) x <= t * t) ->
  (exists lb ub s, bounds_in_force mn o lb ub /\
     least w o u lb ub (if mn then 0 else 1) (fun x => qform (e_cov o) x <= t * t) (fun x => - inner m x) s) ->
  exists w' o' d, efficient_risk sv pinv tg mn w o = (w', o', Ok d).
Proof. exact risk_found_reachable. Qed.
Print Assumptions c26_found.
(** C27: with an exact inverse a target reachable by a fully invested portfolio is never rejected: only the solver can fail *)
Theorem c27_reachable_accepted : forall sv pinv mn w o u m, open_ef w o u -> e_mu o = Some m ->
  (0 < e_n o)%nat -> psd (e_n o) (e_cov o) -> symmetric (e_n o) (e_cov o) -> right_inverse (e_n o) (e_cov o) (pinv (e_cov o)) ->
  forall tg t w' o' e, target_of tg = Some t -> 0 <= t -> fresh_name w o "target_variance" ->
  (exists x, List.length x = e_n o /\ total x = 1 /\ qform (e_cov o) x <= t * t) ->
  efficient_risk sv pinv tg mn w o = (w', o', Err e) -> e = OptimizationError \/ exists a b c d, sv a b c d = ARaise e.
Proof. exact risk_reachable. Qed.
Print Assumptions c27_reachable_accepted.
(** C27: and if a target is rejected, no fully invested portfolio reaches it *)
Theorem c27_rejected_unreachable : forall sv pinv mn w o u m, open_ef w o u -> e_mu o = Some m ->
  (0 < e_n o)%nat -> psd (e_n o) (e_cov o) -> symmetric (e_n o) (e_cov o) -> right_inverse (e_n o) (e_cov o) (pinv (e_cov o)) ->
  forall tg t w' o', target_of tg = Some t -> 0 <= t -> fresh_name w o "target_variance" ->
  (forall a b c d, sv a b c d <> ARaise ValueError) ->
  efficient_risk sv pinv tg mn w o = (w', o', Err ValueError) ->
  forall x, List.length x = e_n o -> total x = 1 -> t < sqrt (qform (e_cov o) x).
Proof. exact risk_rejected. Qed.
Print Assumptions c27_rejected_unreachable.

(** C28: [s1] has the largest return of all fully invested portfolios, and that reaches the target *)
Theorem c28_found : forall sv w o u mn m, complete_solver sv -> open_ef w o u -> e_mu o = Some m ->
  forall t s1, e_maxret o = None -> fresh_name w o "target_return" ->
  admissible w o u (e_lb o) (e_ub o) 1 s1 ->
  (forall s, admissible w o u (e_lb o) (e_ub o) 1 s -> inner m (s (e_w o)) <= inner m (s1 (e_w o))) ->
  t <= inner m (s1 (e_w o)) -> exact_solver sv ->
  (exists lb ub s, bounds_in_force mn o lb ub /\
     least w o u lb ub (if mn then 0 else 1) (fun x => t <= inner m x) (qform (e_cov o)) s) ->
  exists w' o' d, efficient_return sv (NFloat t) mn w o = (w', o', Ok d).
Proof. exact return_found. Qed.
Print Assumptions c28_found.

(** C29 *)
Theorem c29_found : forall sv w o u mn m, complete_solver sv -> open_ef w o u -> e_mu o = Some m ->
  forall ra, 0 < ra -> fresh_name w o "risk_aversion" ->
  (exists lb ub s, bounds_in_force mn o lb ub /\
     least w o u lb ub (if mn then 0 else 1) (fun _ => True) (fun x => - (inner m x - ra / 2 * qform (e_cov o) x)) s) ->
  exists w' o' d, max_quadratic_utility sv ra mn w o = (w', o', Ok d).
Proof. exact utility_found. Qed.
Print Assumptions c29_found.

(** C30: finite bounds, a portfolio of largest Sharpe ratio exists, and some asset beats the risk-free rate *)
Theorem c30_found : forall sv w o u m rf r s, exact_solver sv -> complete_solver sv -> open_ef w o u -> e_add o = [] ->
  psd (e_n o) (e_cov o) ->
  Forall (fun ic => constant_on_one_side (e_w o) (snd ic)) u ->
  Forall (fun ic => known_vars (List.length (w_sizes w)) (snd ic)) u ->
  Forall (fun b => b <> None) (e_lb o) -> Forall (fun b => b <> None) (e_ub o) ->
  e_mu o = Some m -> target_of rf = Some r -> Exists (fun a => r < a) m ->
  admissible w o u (e_lb o) (e_ub o) 1 s -> 0 < excess m r (s (e_w o)) ->
  (forall s', admissible w o u (e_lb o) (e_ub o) 1 s' ->
      excess m r (s' (e_w o)) * sqrt (qform (e_cov o) (s (e_w o)))
      <= excess m r (s (e_w o)) * sqrt (qform (e_cov o) (s' (e_w o)))) ->
  exists w' o' d, max_sharpe sv rf w o = (w', o', Ok d).
Proof. exact sharpe_found. Qed.
Print Assumptions c30_found.
(** a long-short portfolio may beat the risk-free rate although no asset does, and is not looked for *)
Theorem c30_short_refuted : forall sv, exists o,
  ef_init (MIn (MuArray [1/100; 1/50])) (CIn (CovArray [[1; 0]; [0; 1]])) (BPair (Some (-1)) (Some 2))
    (mkWorld [] (fun _ => None) [] 0) = (mkWorld [2%nat] (fun _ => None) [] 2, Ok o) /\
  (exists s, admissible (mkWorld [2%nat] (fun _ => None) [] 2) o [] (e_lb o) (e_ub o) 1 s /\ 0 < excess [1/100; 1/50] (1/50) (s (e_w o))) /\
  max_sharpe sv (NFloat (1/50)) (mkWorld [2%nat] (fun _ => None) [] 2) o = (mkWorld [2%nat] (fun _ => None) [] 2, o, Err ValueError).
Proof. exact sharpe_rejects_reachable. Qed.
Print Assumptions c30_short_refuted.
