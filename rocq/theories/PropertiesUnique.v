(** * Property theorems: answers that do not depend on the solver *)
From Coq Require Import ZArith List String Bool Reals.
From Verif Require Import Num Py MBase MConvex MEF MDown SLin SBase SObj SConvex SDown SCurve SUnique PEFW PDownW PUnique PUniqueW.
Import ListNotations.
Local Open Scope R_scope.

(** C133: a positive definite covariance matrix, or a strictly convex added objective, leaves one portfolio of least variance, *)
Theorem c133_min_volatility : forall w o u sv sv', convex_problem w o u -> exact_solver sv -> exact_solver sv' ->
  definite (e_n o) (e_cov o) \/ psd (e_n o) (e_cov o) /\ regularised w o ->
  same_answer (min_volatility sv w o) (min_volatility sv' w o).
Proof. exact unique_min_volatility. Qed.
Print Assumptions c133_min_volatility.

(** one of largest utility, *)
Theorem c133_utility : forall w o u sv sv' mn, convex_problem w o u -> exact_solver sv -> exact_solver sv' ->
  forall m, e_mu o = Some m -> forall ra, fresh_name w o "risk_aversion" ->
  definite (e_n o) (e_cov o) \/ psd (e_n o) (e_cov o) /\ regularised w o ->
  same_answer (max_quadratic_utility sv ra mn w o) (max_quadratic_utility sv' ra mn w o).
Proof. exact unique_utility. Qed.
Print Assumptions c133_utility.

(** one of least variance for a return, *)
Theorem c133_efficient_return : forall w o u sv sv' mn, convex_problem w o u -> exact_solver sv -> exact_solver sv' ->
  forall m, e_mu o = Some m -> forall tg, fresh_name w o "target_return" ->
  definite (e_n o) (e_cov o) \/ psd (e_n o) (e_cov o) /\ regularised w o ->
  same_answer (efficient_return sv tg mn w o) (efficient_return sv' tg mn w o).
Proof. exact unique_return. Qed.
Print Assumptions c133_efficient_return.

(** and one of the largest Sharpe ratio *)
Theorem c133_max_sharpe : forall w o u sv sv' rf, exact_solver sv -> exact_solver sv' -> open_ef w o u -> e_add o = [] -> definite (e_n o) (e_cov o) ->
  Forall (fun ic => convex_con (w_sizes w) (par_values w) (snd ic)) u ->
  Forall (fun ic => constant_on_one_side (e_w o) (snd ic)) u -> Forall (fun ic => known_vars (List.length (w_sizes w)) (snd ic)) u ->
  same_answer (max_sharpe sv rf w o) (max_sharpe sv' rf w o).
Proof. exact unique_sharpe. Qed.
Print Assumptions c133_max_sharpe.

(** the largest return for a risk needs the strictly convex objective: *)
Theorem c133_efficient_risk : forall w o u sv sv' mn, convex_problem w o u -> exact_solver sv -> exact_solver sv' ->
  forall m, e_mu o = Some m -> forall pinv pinv' tg, fresh_name w o "target_variance" ->
  psd (e_n o) (e_cov o) -> regularised w o ->
  same_answer (efficient_risk sv pinv tg mn w o) (efficient_risk sv' pinv' tg mn w o).
Proof. exact unique_risk. Qed.
Print Assumptions c133_efficient_risk.
(** a positive definite covariance matrix is not enough *)
Theorem c133_efficient_risk_refuted : exists sv sv' o w1 o1 d1 w2 o2 d2, exact_solver sv /\ complete_solver sv /\ exact_solver sv' /\ complete_solver sv' /\
  two [1/10; 1/10] 0 1 = (two_world, Ok o) /\ definite (e_n o) (e_cov o) /\
  efficient_risk sv (fun M => M) (NFloat 1) false two_world o = (w1, o1, Ok d1) /\
  efficient_risk sv' (fun M => M) (NFloat 1) false two_world o = (w2, o2, Ok d2) /\ d1 <> d2.
Proof. exact risk_depends. Qed.
Print Assumptions c133_efficient_risk_refuted.

(** with a strictly convex objective the downside optimizers have one answer each *)
Theorem c133_min_downside : forall w o u sv sv' mn, convex_problem w o u -> exact_solver sv -> exact_solver sv' -> regularised w o ->
  (forall d, semi_ready w o u d -> same_answer (min_semivariance sv d mn w o) (min_semivariance sv' d mn w o)) /\
  (forall d, cvar_ready w o u d -> same_answer (min_cvar sv d mn w o) (min_cvar sv' d mn w o)) /\
  (forall d, cdar_ready w o u d -> same_answer (min_cdar sv d mn w o) (min_cdar sv' d mn w o)).
Proof. exact unique_min_downside. Qed.
Print Assumptions c133_min_downside.
Theorem c133_semivariance : forall w o u sv sv' mn, convex_problem w o u -> exact_solver sv -> exact_solver sv' -> regularised w o ->
  forall m d, e_mu o = Some m -> semi_ready w o u d ->
  (forall t, fresh_name w o "target_semivariance" -> 0 <= sd_freq d -> same_answer (semi_efficient_risk sv d t mn w o) (semi_efficient_risk sv' d t mn w o)) /\
  (forall t, fresh_name w o "target_return" -> same_answer (semi_efficient_return sv d (NFloat t) mn w o) (semi_efficient_return sv' d (NFloat t) mn w o)) /\
  (forall k, fresh_name w o "risk_aversion" -> same_answer (semi_max_quadratic_utility sv d k mn w o) (semi_max_quadratic_utility sv' d k mn w o)).
Proof. exact unique_semivariance. Qed.
Print Assumptions c133_semivariance.
Theorem c133_tails : forall w o u sv sv' mn, convex_problem w o u -> exact_solver sv -> exact_solver sv' -> regularised w o ->
  forall m t, e_mu o = Some m ->
  (forall d, cvar_ready w o u d -> fresh_name w o "target_cvar" -> same_answer (cvar_efficient_risk sv d t mn w o) (cvar_efficient_risk sv' d t mn w o)) /\
  (forall d, cvar_ready w o u d -> fresh_name w o "target_return" -> same_answer (cvar_efficient_return sv d t mn w o) (cvar_efficient_return sv' d t mn w o)) /\
  (forall d, cdar_ready w o u d -> fresh_name w o "target_cdar" -> same_answer (cdar_efficient_risk sv d t mn w o) (cdar_efficient_risk sv' d t mn w o)) /\
  (forall d, cdar_ready w o u d -> fresh_name w o "target_return" -> same_answer (cdar_efficient_return sv d t mn w o) (cdar_efficient_return sv' d t mn w o)).
Proof. exact unique_tails. Qed.
Print Assumptions c133_tails.
(** without one the answer may be the solver's choice *)
Theorem c133_min_cvar_refuted : exists sv sv' o d w1 o1 d1 w2 o2 d2, exact_solver sv /\ complete_solver sv /\ exact_solver sv' /\ complete_solver sv' /\
  cvar_init (MIn (MuArray [1/5; 1/10])) (RTable 2 [[Some (1/10); Some (1/10)]]) (1/2) (BPair (Some 0) (Some 1)) empty_world = (cvar2_world, Ok (o, d)) /\
  min_cvar sv d false cvar2_world o = (w1, o1, Ok d1) /\ min_cvar sv' d false cvar2_world o = (w2, o2, Ok d2) /\ d1 <> d2.
Proof. exact cvar_depends. Qed.
Print Assumptions c133_min_cvar_refuted.

(** L2 regularisation is such an objective, and transaction costs do no harm *)
Theorem c133_library_terms : forall sizes ps v n, nth_error sizes v = Some n ->
  (forall gamma, 0 < gamma -> strict_term sizes ps v (L2_reg_e (EVar v) gamma)) /\
  (forall prev k, List.length prev = n -> 0 <= k -> convex_term sizes ps (transaction_cost_e (EVar v) prev k)).
Proof. exact library_terms. Qed.
Print Assumptions c133_library_terms.
