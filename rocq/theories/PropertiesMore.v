(** * Property theorems: further demands never improve an answer *)
From Coq Require Import ZArith List String Bool Reals.
From Verif Require Import Num Py MBase MConvex MEF MDown SLin SBase SObj SConvex SDown SCurve SUnique SMore PEFW PDownW PMore PMore2 PMoreW.
Import ListNotations.
Local Open Scope R_scope.

(** C134: adding constraints, sector limits or narrower bounds makes a problem tighter *)
Theorem c134_constraints : forall ks w o u w1 o1, open_ef w o u ->
  Forall (fun k => scoped_con (List.length (w_params w)) (k (e_w o))) ks ->
  forM ks (fun k => add_constraint (CFun k)) w o = (w1, o1, Ok tt) ->
  exists u1, open_ef w1 o1 u1 /\ map snd u1 = map snd u ++ map (fun k => k (e_w o)) ks /\ forall mn, tighter mn w o u w1 o1 u1.
Proof. exact constraints_added. Qed.
Print Assumptions c134_constraints.
Theorem c134_sectors : forall mapper lower upper w o u w1 o1, open_ef w o u -> add_sector_constraints mapper lower upper w o = (w1, o1, Ok tt) ->
  exists u1, open_ef w1 o1 u1 /\ forall mn, tighter mn w o u w1 o1 u1.
Proof. exact sectors_added. Qed.
Print Assumptions c134_sectors.
Theorem c134_bounds : forall m c b b1 v w o w1 o1, ef_init m (CIn c) b v = (w, Ok o) -> ef_init m (CIn c) b1 v = (w1, Ok o1) ->
  (forall x, within (e_lb o1) (e_ub o1) x -> within (e_lb o) (e_ub o) x) -> tighter false w o [] w1 o1 [].
Proof. exact bounds_narrowed. Qed.
Print Assumptions c134_bounds.

(** no method finds anything better in a tighter problem; if its answer to the wider problem meets the new demands and is
    the only best one, it is the answer to the tighter problem *)
Theorem c134_min_volatility : forall w o u w1 o1 u1 sv sv', open_ef w o u -> open_ef w1 o1 u1 -> exact_solver sv -> exact_solver sv' ->
  tighter false w o u w1 o1 u1 ->
  no_gain w o o1 u1 (qform (e_cov o)) (min_volatility sv w o) (min_volatility sv' w1 o1) /\
  (convex_problem w1 o1 u1 -> definite (e_n o) (e_cov o) \/ psd (e_n o) (e_cov o) /\ regularised w1 o1 ->
     idle w o o1 u1 (min_volatility sv w o) (min_volatility sv' w1 o1)).
Proof. exact more_min_volatility. Qed.
Print Assumptions c134_min_volatility.
Theorem c134_utility : forall w o u w1 o1 u1 sv sv', open_ef w o u -> open_ef w1 o1 u1 -> exact_solver sv -> exact_solver sv' ->
  forall mn m, tighter mn w o u w1 o1 u1 -> e_mu o = Some m ->
  forall ra, fresh_name w o "risk_aversion" -> fresh_name w1 o1 "risk_aversion" ->
  no_gain w o o1 u1 (fun x => - (inner m x - ra / 2 * qform (e_cov o) x)) (max_quadratic_utility sv ra mn w o) (max_quadratic_utility sv' ra mn w1 o1) /\
  (convex_problem w1 o1 u1 -> definite (e_n o) (e_cov o) \/ psd (e_n o) (e_cov o) /\ regularised w1 o1 ->
     idle w o o1 u1 (max_quadratic_utility sv ra mn w o) (max_quadratic_utility sv' ra mn w1 o1)).
Proof. exact more_utility. Qed.
Print Assumptions c134_utility.
Theorem c134_efficient_return : forall w o u w1 o1 u1 sv sv', open_ef w o u -> open_ef w1 o1 u1 -> exact_solver sv -> exact_solver sv' ->
  forall mn m, tighter mn w o u w1 o1 u1 -> e_mu o = Some m ->
  forall t, fresh_name w o "target_return" -> fresh_name w1 o1 "target_return" ->
  no_gain w o o1 u1 (qform (e_cov o)) (efficient_return sv (NFloat t) mn w o) (efficient_return sv' (NFloat t) mn w1 o1) /\
  (convex_problem w1 o1 u1 -> definite (e_n o) (e_cov o) \/ psd (e_n o) (e_cov o) /\ regularised w1 o1 ->
     idle w o o1 u1 (efficient_return sv (NFloat t) mn w o) (efficient_return sv' (NFloat t) mn w1 o1)).
Proof. exact more_return. Qed.
Print Assumptions c134_efficient_return.
Theorem c134_efficient_risk : forall w o u w1 o1 u1 sv sv', open_ef w o u -> open_ef w1 o1 u1 -> exact_solver sv -> exact_solver sv' ->
  forall mn m, tighter mn w o u w1 o1 u1 -> e_mu o = Some m ->
  forall pinv pinv' t, fresh_name w o "target_variance" -> fresh_name w1 o1 "target_variance" ->
  no_gain w o o1 u1 (fun x => - inner m x) (efficient_risk sv pinv (NFloat t) mn w o) (efficient_risk sv' pinv' (NFloat t) mn w1 o1) /\
  (convex_problem w1 o1 u1 -> psd (e_n o) (e_cov o) -> regularised w1 o1 ->
     idle w o o1 u1 (efficient_risk sv pinv (NFloat t) mn w o) (efficient_risk sv' pinv' (NFloat t) mn w1 o1)).
Proof. exact more_risk. Qed.
Print Assumptions c134_efficient_risk.
Theorem c134_max_sharpe : forall w o u w1 o1 u1 sv sv' r m, exact_solver sv -> exact_solver sv' -> open_ef w o u -> open_ef w1 o1 u1 -> tighter false w o u w1 o1 u1 ->
  e_mu o = Some m -> e_add o = [] -> psd (e_n o) (e_cov o) ->
  Forall (fun ic => constant_on_one_side (e_w o) (snd ic)) u1 -> Forall (fun ic => known_vars (List.length (w_sizes w)) (snd ic)) u1 ->
  no_ratio_gain w o o1 u1 m r (max_sharpe sv (NFloat r) w o) (max_sharpe sv' (NFloat r) w1 o1) /\
  (definite (e_n o) (e_cov o) -> Forall (fun ic => convex_con (w_sizes w) (par_values w) (snd ic)) u1 ->
     idle w o o1 u1 (max_sharpe sv (NFloat r) w o) (max_sharpe sv' (NFloat r) w1 o1)).
Proof. exact more_sharpe. Qed.
Print Assumptions c134_max_sharpe.

(** the downside optimizers *)
Theorem c134_min_downside : forall w o u w1 o1 u1 sv sv' mn, open_ef w o u -> open_ef w1 o1 u1 -> exact_solver sv -> exact_solver sv' ->
  tighter mn w o u w1 o1 u1 ->
  (forall d, semi_ready w o u d -> semi_ready w1 o1 u1 d ->
     never_helps w o w1 o1 u1 (semivariance (sd_returns d) (sd_bench d * (if mn then 0 else 1))) (min_semivariance sv d mn w o) (min_semivariance sv' d mn w1 o1)) /\
  (forall d, cvar_ready w o u d -> cvar_ready w1 o1 u1 d ->
     never_helps w o w1 o1 u1 (cvar (cv_beta d) (cv_returns d)) (min_cvar sv d mn w o) (min_cvar sv' d mn w1 o1)) /\
  (forall d, cdar_ready w o u d -> cdar_ready w1 o1 u1 d ->
     never_helps w o w1 o1 u1 (cdar (cd_beta d) (cd_returns d)) (min_cdar sv d mn w o) (min_cdar sv' d mn w1 o1)).
Proof. exact more_min_downside. Qed.
Print Assumptions c134_min_downside.
Theorem c134_semivariance : forall w o u w1 o1 u1 sv sv' mn, open_ef w o u -> open_ef w1 o1 u1 -> exact_solver sv -> exact_solver sv' ->
  tighter mn w o u w1 o1 u1 -> forall m, e_mu o = Some m ->
  forall d, semi_ready w o u d -> semi_ready w1 o1 u1 d -> 0 <= sd_freq d ->
  (forall t, fresh_name w o "target_semivariance" -> fresh_name w1 o1 "target_semivariance" ->
     never_helps w o w1 o1 u1 (fun x => - inner m x) (semi_efficient_risk sv d t mn w o) (semi_efficient_risk sv' d t mn w1 o1)) /\
  (forall t, fresh_name w o "target_return" -> fresh_name w1 o1 "target_return" ->
     never_helps w o w1 o1 u1 (semivariance (sd_returns d) (sd_bench d * (if mn then 0 else 1))) (semi_efficient_return sv d (NFloat t) mn w o) (semi_efficient_return sv' d (NFloat t) mn w1 o1)) /\
  (forall k, fresh_name w o "risk_aversion" -> fresh_name w1 o1 "risk_aversion" ->
     never_helps w o w1 o1 u1 (fun x => - inner m x / sd_freq d + 1 / 2 * k * semivariance (sd_returns d) (sd_bench d * (if mn then 0 else 1)) x)
       (semi_max_quadratic_utility sv d k mn w o) (semi_max_quadratic_utility sv' d k mn w1 o1)).
Proof. exact more_semivariance. Qed.
Print Assumptions c134_semivariance.
Theorem c134_tails : forall w o u w1 o1 u1 sv sv' mn, open_ef w o u -> open_ef w1 o1 u1 -> exact_solver sv -> exact_solver sv' ->
  tighter mn w o u w1 o1 u1 -> forall m, e_mu o = Some m -> forall t,
  (forall d, cvar_ready w o u d -> cvar_ready w1 o1 u1 d -> fresh_name w o "target_cvar" -> fresh_name w1 o1 "target_cvar" ->
     never_helps w o w1 o1 u1 (fun x => - inner m x) (cvar_efficient_risk sv d t mn w o) (cvar_efficient_risk sv' d t mn w1 o1)) /\
  (forall d, cvar_ready w o u d -> cvar_ready w1 o1 u1 d -> fresh_name w o "target_return" -> fresh_name w1 o1 "target_return" ->
     never_helps w o w1 o1 u1 (cvar (cv_beta d) (cv_returns d)) (cvar_efficient_return sv d t mn w o) (cvar_efficient_return sv' d t mn w1 o1)) /\
  (forall d, cdar_ready w o u d -> cdar_ready w1 o1 u1 d -> fresh_name w o "target_cdar" -> fresh_name w1 o1 "target_cdar" ->
     never_helps w o w1 o1 u1 (fun x => - inner m x) (cdar_efficient_risk sv d t mn w o) (cdar_efficient_risk sv' d t mn w1 o1)) /\
  (forall d, cdar_ready w o u d -> cdar_ready w1 o1 u1 d -> fresh_name w o "target_return" -> fresh_name w1 o1 "target_return" ->
     never_helps w o w1 o1 u1 (cdar (cd_beta d) (cd_returns d)) (cdar_efficient_return sv d t mn w o) (cdar_efficient_return sv' d t mn w1 o1)).
Proof. exact more_tails. Qed.
Print Assumptions c134_tails.

(** narrower bounds of a market neutral portfolio do help: when they forbid short positions, they are replaced by (-1, 1) *)
Theorem c134_market_neutral_bounds_refuted : exists sv sv' o o1 w' o' d w1 o1' d1, exact_solver sv /\ complete_solver sv /\ exact_solver sv' /\ complete_solver sv' /\
  two [0; 4] (-1/2) (1/2) = (two_world, Ok o) /\ two [0; 4] 0 (1/2) = (two_world, Ok o1) /\
  (forall x, within (e_lb o1) (e_ub o1) x -> within (e_lb o) (e_ub o) x) /\
  max_quadratic_utility sv 1 true two_world o = (w', o', Ok d) /\ d = [(LInt 0, -1/2); (LInt 1, 1/2)] /\
  max_quadratic_utility sv' 1 true two_world o1 = (w1, o1', Ok d1) /\ d1 = [(LInt 0, -1); (LInt 1, 1)].
Proof. exact narrower_helps. Qed.
Print Assumptions c134_market_neutral_bounds_refuted.
