(** * Property theorems: the same table of returns stated in two ways (C130) *)
From Coq Require Import ZArith String List Bool Reals Permutation.
From Verif Require Import Num Py MBase MConvex MEF MDown SLin SBase SConvex SPerm SUnits SDown SDays PDays PDays2 PDays3.
Import ListNotations.
Local Open Scope R_scope.

(** the optimizers accept the data in every order of assets and days and in every unit *)
Theorem c130_semivariance_accepted : forall p a c s rows rows' freq bench b b' v1 v2 w1 o1 d1, ordering (length s) p -> bounds_reordered (length s) p b b' ->
  semi_init (MIn (MuSeries s)) (RTable (length s) rows) freq bench b v1 = (w1, Ok (o1, d1)) ->
  exists w2 o2 d2, semi_init (MIn (MuSeries (mu_restated p c s))) (RTable (length s) rows') freq (a * bench) b' v2 = (w2, Ok (o2, d2)).
Proof. exact semi_accepted. Qed.
Print Assumptions c130_semivariance_accepted.
Theorem c130_cvar_accepted : forall p c s rows rows' beta b b' v1 v2 w1 o1 d1, ordering (length s) p -> bounds_reordered (length s) p b b' ->
  cvar_init (MIn (MuSeries s)) (RTable (length s) rows) beta b v1 = (w1, Ok (o1, d1)) ->
  exists w2 o2 d2, cvar_init (MIn (MuSeries (mu_restated p c s))) (RTable (length s) rows') beta b' v2 = (w2, Ok (o2, d2)).
Proof. exact cvar_accepted. Qed.
Print Assumptions c130_cvar_accepted.
Theorem c130_cdar_accepted : forall p c s rows rows' beta b b' v1 v2 w1 o1 d1, ordering (length s) p -> bounds_reordered (length s) p b b' ->
  cdar_init (MIn (MuSeries s)) (RTable (length s) rows) beta b v1 = (w1, Ok (o1, d1)) ->
  exists w2 o2 d2, cdar_init (MIn (MuSeries (mu_restated p c s))) (RTable (length s) rows') beta b' v2 = (w2, Ok (o2, d2)).
Proof. exact cdar_accepted. Qed.
Print Assumptions c130_cdar_accepted.
(** the calls succeed on both statements of the data or on neither, with the targets in the unit of the data *)
Theorem c130_min_semivariance_both : forall p a c s rows rows' freq bench b b' v1 v2 w1 w2 o1 o2 d1 d2, semi_twins p a c s rows rows' freq bench b b' v1 v2 w1 w2 o1 o2 d1 d2 ->
  forall sv1 sv2 mn, exact_solver sv1 -> exact_solver sv2 -> complete_solver sv1 -> complete_solver sv2 ->
  (succeeds (min_semivariance sv1 d1 mn) w1 o1 <-> succeeds (min_semivariance sv2 d2 mn) w2 o2).
Proof. exact both_min_semivariance. Qed.
Print Assumptions c130_min_semivariance_both.
Theorem c130_semivariance_risk_both : forall p a c s rows rows' freq bench b b' v1 v2 w1 w2 o1 o2 d1 d2, semi_twins p a c s rows rows' freq bench b b' v1 v2 w1 w2 o1 o2 d1 d2 ->
  forall sv1 sv2 mn, exact_solver sv1 -> exact_solver sv2 -> complete_solver sv1 -> complete_solver sv2 ->
  forall t, 0 <= freq -> (succeeds (semi_efficient_risk sv1 d1 t mn) w1 o1 <-> succeeds (semi_efficient_risk sv2 d2 (a * t) mn) w2 o2).
Proof. exact both_semi_risk. Qed.
Print Assumptions c130_semivariance_risk_both.
Theorem c130_semivariance_return_both : forall p a c s rows rows' freq bench b b' v1 v2 w1 w2 o1 o2 d1 d2, semi_twins p a c s rows rows' freq bench b b' v1 v2 w1 w2 o1 o2 d1 d2 ->
  forall sv1 sv2 mn, exact_solver sv1 -> exact_solver sv2 -> complete_solver sv1 -> complete_solver sv2 ->
  forall t, (succeeds (semi_efficient_return sv1 d1 (NFloat t) mn) w1 o1 <-> succeeds (semi_efficient_return sv2 d2 (NFloat (c * t)) mn) w2 o2).
Proof. exact both_semi_return. Qed.
Print Assumptions c130_semivariance_return_both.
Theorem c130_semivariance_utility_both : forall p a c s rows rows' freq bench b b' v1 v2 w1 w2 o1 o2 d1 d2, semi_twins p a c s rows rows' freq bench b b' v1 v2 w1 w2 o1 o2 d1 d2 ->
  forall sv1 sv2 mn, exact_solver sv1 -> exact_solver sv2 -> complete_solver sv1 -> complete_solver sv2 ->
  forall k, (succeeds (semi_max_quadratic_utility sv1 d1 k mn) w1 o1 <-> succeeds (semi_max_quadratic_utility sv2 d2 (k * c / (a * a)) mn) w2 o2).
Proof. exact both_semi_utility. Qed.
Print Assumptions c130_semivariance_utility_both.
Theorem c130_min_cvar_both : forall p a c s rows rows' beta b b' v1 v2 w1 w2 o1 o2 d1 d2, cvar_twins p a c s rows rows' beta b b' v1 v2 w1 w2 o1 o2 d1 d2 ->
  forall sv1 sv2 mn, exact_solver sv1 -> exact_solver sv2 -> complete_solver sv1 -> complete_solver sv2 ->
  (succeeds (min_cvar sv1 d1 mn) w1 o1 <-> succeeds (min_cvar sv2 d2 mn) w2 o2).
Proof. exact both_min_cvar. Qed.
Print Assumptions c130_min_cvar_both.
Theorem c130_cvar_risk_both : forall p a c s rows rows' beta b b' v1 v2 w1 w2 o1 o2 d1 d2, cvar_twins p a c s rows rows' beta b b' v1 v2 w1 w2 o1 o2 d1 d2 ->
  forall sv1 sv2 mn, exact_solver sv1 -> exact_solver sv2 -> complete_solver sv1 -> complete_solver sv2 ->
  forall t, (succeeds (cvar_efficient_risk sv1 d1 t mn) w1 o1 <-> succeeds (cvar_efficient_risk sv2 d2 (a * t) mn) w2 o2).
Proof. exact both_cvar_risk. Qed.
Print Assumptions c130_cvar_risk_both.
Theorem c130_cvar_return_both : forall p a c s rows rows' beta b b' v1 v2 w1 w2 o1 o2 d1 d2, cvar_twins p a c s rows rows' beta b b' v1 v2 w1 w2 o1 o2 d1 d2 ->
  forall sv1 sv2 mn, exact_solver sv1 -> exact_solver sv2 -> complete_solver sv1 -> complete_solver sv2 ->
  forall t, (succeeds (cvar_efficient_return sv1 d1 t mn) w1 o1 <-> succeeds (cvar_efficient_return sv2 d2 (c * t) mn) w2 o2).
Proof. exact both_cvar_return. Qed.
Print Assumptions c130_cvar_return_both.
Theorem c130_min_cdar_both : forall p a c s rows rows' beta b b' v1 v2 w1 w2 o1 o2 d1 d2, cdar_twins p a c s rows rows' beta b b' v1 v2 w1 w2 o1 o2 d1 d2 ->
  forall sv1 sv2 mn, exact_solver sv1 -> exact_solver sv2 -> complete_solver sv1 -> complete_solver sv2 ->
  (succeeds (min_cdar sv1 d1 mn) w1 o1 <-> succeeds (min_cdar sv2 d2 mn) w2 o2).
Proof. exact both_min_cdar. Qed.
Print Assumptions c130_min_cdar_both.
Theorem c130_cdar_risk_both : forall p a c s rows rows' beta b b' v1 v2 w1 w2 o1 o2 d1 d2, cdar_twins p a c s rows rows' beta b b' v1 v2 w1 w2 o1 o2 d1 d2 ->
  forall sv1 sv2 mn, exact_solver sv1 -> exact_solver sv2 -> complete_solver sv1 -> complete_solver sv2 ->
  forall t, (succeeds (cdar_efficient_risk sv1 d1 t mn) w1 o1 <-> succeeds (cdar_efficient_risk sv2 d2 (a * t) mn) w2 o2).
Proof. exact both_cdar_risk. Qed.
Print Assumptions c130_cdar_risk_both.
Theorem c130_cdar_return_both : forall p a c s rows rows' beta b b' v1 v2 w1 w2 o1 o2 d1 d2, cdar_twins p a c s rows rows' beta b b' v1 v2 w1 w2 o1 o2 d1 d2 ->
  forall sv1 sv2 mn, exact_solver sv1 -> exact_solver sv2 -> complete_solver sv1 -> complete_solver sv2 ->
  forall t, (succeeds (cdar_efficient_return sv1 d1 t mn) w1 o1 <-> succeeds (cdar_efficient_return sv2 d2 (c * t) mn) w2 o2).
Proof. exact both_cdar_return. Qed.
Print Assumptions c130_cdar_return_both.
(** both answers are best portfolios of the same problem, label by label *)
Theorem c130_min_semivariance : forall p a c s rows rows' freq bench b b' v1 v2 w1 w2 o1 o2 d1 d2, semi_twins p a c s rows rows' freq bench b b' v1 v2 w1 w2 o1 o2 d1 d2 ->
  forall sv1 sv2 mn x1 x2 y1 y2 r1 r2, exact_solver sv1 -> exact_solver sv2 -> NoDup (map fst s) ->
  min_semivariance sv1 d1 mn w1 o1 = (x1, y1, Ok r1) -> min_semivariance sv2 d2 mn w2 o2 = (x2, y2, Ok r2) ->
  exists lb ub, bounds_in_force mn o1 lb ub /\
    answers (map fst s) lb ub (if mn then 0 else 1) (fun _ => True) (semivariance (dropna rows) (bench * (if mn then 0 else 1))) r1 /\
    answers (map fst s) lb ub (if mn then 0 else 1) (fun _ => True) (semivariance (dropna rows) (bench * (if mn then 0 else 1))) r2.
Proof. exact days_min_semivariance. Qed.
Print Assumptions c130_min_semivariance.
Theorem c130_semivariance_risk : forall p a c s rows rows' freq bench b b' v1 v2 w1 w2 o1 o2 d1 d2, semi_twins p a c s rows rows' freq bench b b' v1 v2 w1 w2 o1 o2 d1 d2 ->
  forall sv1 sv2 mn x1 x2 y1 y2 r1 r2, exact_solver sv1 -> exact_solver sv2 -> NoDup (map fst s) ->
  forall t, 0 <= freq -> semi_efficient_risk sv1 d1 t mn w1 o1 = (x1, y1, Ok r1) -> semi_efficient_risk sv2 d2 (a * t) mn w2 o2 = (x2, y2, Ok r2) ->
  exists lb ub, bounds_in_force mn o1 lb ub /\
    answers (map fst s) lb ub (if mn then 0 else 1) (fun x => freq * semivariance (dropna rows) (bench * (if mn then 0 else 1)) x <= t * t) (fun x => - inner (map snd s) x) r1 /\
    answers (map fst s) lb ub (if mn then 0 else 1) (fun x => freq * semivariance (dropna rows) (bench * (if mn then 0 else 1)) x <= t * t) (fun x => - inner (map snd s) x) r2.
Proof. exact days_semi_risk. Qed.
Print Assumptions c130_semivariance_risk.
Theorem c130_semivariance_return : forall p a c s rows rows' freq bench b b' v1 v2 w1 w2 o1 o2 d1 d2, semi_twins p a c s rows rows' freq bench b b' v1 v2 w1 w2 o1 o2 d1 d2 ->
  forall sv1 sv2 mn x1 x2 y1 y2 r1 r2, exact_solver sv1 -> exact_solver sv2 -> NoDup (map fst s) ->
  forall t, semi_efficient_return sv1 d1 (NFloat t) mn w1 o1 = (x1, y1, Ok r1) -> semi_efficient_return sv2 d2 (NFloat (c * t)) mn w2 o2 = (x2, y2, Ok r2) ->
  exists lb ub, bounds_in_force mn o1 lb ub /\
    answers (map fst s) lb ub (if mn then 0 else 1) (fun x => t <= inner (map snd s) x) (semivariance (dropna rows) (bench * (if mn then 0 else 1))) r1 /\
    answers (map fst s) lb ub (if mn then 0 else 1) (fun x => t <= inner (map snd s) x) (semivariance (dropna rows) (bench * (if mn then 0 else 1))) r2.
Proof. exact days_semi_return. Qed.
Print Assumptions c130_semivariance_return.
Theorem c130_semivariance_utility : forall p a c s rows rows' freq bench b b' v1 v2 w1 w2 o1 o2 d1 d2, semi_twins p a c s rows rows' freq bench b b' v1 v2 w1 w2 o1 o2 d1 d2 ->
  forall sv1 sv2 mn x1 x2 y1 y2 r1 r2, exact_solver sv1 -> exact_solver sv2 -> NoDup (map fst s) ->
  forall k, semi_max_quadratic_utility sv1 d1 k mn w1 o1 = (x1, y1, Ok r1) -> semi_max_quadratic_utility sv2 d2 (k * c / (a * a)) mn w2 o2 = (x2, y2, Ok r2) ->
  exists lb ub, bounds_in_force mn o1 lb ub /\
    answers (map fst s) lb ub (if mn then 0 else 1) (fun _ => True) (fun x => - inner (map snd s) x / freq + 1 / 2 * k * semivariance (dropna rows) (bench * (if mn then 0 else 1)) x) r1 /\
    answers (map fst s) lb ub (if mn then 0 else 1) (fun _ => True) (fun x => - inner (map snd s) x / freq + 1 / 2 * k * semivariance (dropna rows) (bench * (if mn then 0 else 1)) x) r2.
Proof. exact days_semi_utility. Qed.
Print Assumptions c130_semivariance_utility.
Theorem c130_min_cvar : forall p a c s rows rows' beta b b' v1 v2 w1 w2 o1 o2 d1 d2, cvar_twins p a c s rows rows' beta b b' v1 v2 w1 w2 o1 o2 d1 d2 ->
  forall sv1 sv2 mn x1 x2 y1 y2 r1 r2, exact_solver sv1 -> exact_solver sv2 -> NoDup (map fst s) ->
  min_cvar sv1 d1 mn w1 o1 = (x1, y1, Ok r1) -> min_cvar sv2 d2 mn w2 o2 = (x2, y2, Ok r2) ->
  exists lb ub, bounds_in_force mn o1 lb ub /\
    answers (map fst s) lb ub (if mn then 0 else 1) (fun _ => True) (cvar beta (dropna rows)) r1 /\
    answers (map fst s) lb ub (if mn then 0 else 1) (fun _ => True) (cvar beta (dropna rows)) r2.
Proof. exact days_min_cvar. Qed.
Print Assumptions c130_min_cvar.
Theorem c130_cvar_risk : forall p a c s rows rows' beta b b' v1 v2 w1 w2 o1 o2 d1 d2, cvar_twins p a c s rows rows' beta b b' v1 v2 w1 w2 o1 o2 d1 d2 ->
  forall sv1 sv2 mn x1 x2 y1 y2 r1 r2, exact_solver sv1 -> exact_solver sv2 -> NoDup (map fst s) ->
  forall t, cvar_efficient_risk sv1 d1 t mn w1 o1 = (x1, y1, Ok r1) -> cvar_efficient_risk sv2 d2 (a * t) mn w2 o2 = (x2, y2, Ok r2) ->
  exists lb ub, bounds_in_force mn o1 lb ub /\
    answers (map fst s) lb ub (if mn then 0 else 1) (fun x => cvar beta (dropna rows) x <= t) (fun x => - inner (map snd s) x) r1 /\
    answers (map fst s) lb ub (if mn then 0 else 1) (fun x => cvar beta (dropna rows) x <= t) (fun x => - inner (map snd s) x) r2.
Proof. exact days_cvar_risk. Qed.
Print Assumptions c130_cvar_risk.
Theorem c130_cvar_return : forall p a c s rows rows' beta b b' v1 v2 w1 w2 o1 o2 d1 d2, cvar_twins p a c s rows rows' beta b b' v1 v2 w1 w2 o1 o2 d1 d2 ->
  forall sv1 sv2 mn x1 x2 y1 y2 r1 r2, exact_solver sv1 -> exact_solver sv2 -> NoDup (map fst s) ->
  forall t, cvar_efficient_return sv1 d1 t mn w1 o1 = (x1, y1, Ok r1) -> cvar_efficient_return sv2 d2 (c * t) mn w2 o2 = (x2, y2, Ok r2) ->
  exists lb ub, bounds_in_force mn o1 lb ub /\
    answers (map fst s) lb ub (if mn then 0 else 1) (fun x => t <= inner (map snd s) x) (cvar beta (dropna rows)) r1 /\
    answers (map fst s) lb ub (if mn then 0 else 1) (fun x => t <= inner (map snd s) x) (cvar beta (dropna rows)) r2.
Proof. exact days_cvar_return. Qed.
Print Assumptions c130_cvar_return.
Theorem c130_min_cdar : forall p a c s rows rows' beta b b' v1 v2 w1 w2 o1 o2 d1 d2, cdar_twins p a c s rows rows' beta b b' v1 v2 w1 w2 o1 o2 d1 d2 ->
  forall sv1 sv2 mn x1 x2 y1 y2 r1 r2, exact_solver sv1 -> exact_solver sv2 -> NoDup (map fst s) ->
  min_cdar sv1 d1 mn w1 o1 = (x1, y1, Ok r1) -> min_cdar sv2 d2 mn w2 o2 = (x2, y2, Ok r2) ->
  exists lb ub, bounds_in_force mn o1 lb ub /\
    answers (map fst s) lb ub (if mn then 0 else 1) (fun _ => True) (cdar beta (dropna rows)) r1 /\
    answers (map fst s) lb ub (if mn then 0 else 1) (fun _ => True) (cdar beta (dropna rows)) r2.
Proof. exact days_min_cdar. Qed.
Print Assumptions c130_min_cdar.
Theorem c130_cdar_risk : forall p a c s rows rows' beta b b' v1 v2 w1 w2 o1 o2 d1 d2, cdar_twins p a c s rows rows' beta b b' v1 v2 w1 w2 o1 o2 d1 d2 ->
  forall sv1 sv2 mn x1 x2 y1 y2 r1 r2, exact_solver sv1 -> exact_solver sv2 -> NoDup (map fst s) ->
  forall t, cdar_efficient_risk sv1 d1 t mn w1 o1 = (x1, y1, Ok r1) -> cdar_efficient_risk sv2 d2 (a * t) mn w2 o2 = (x2, y2, Ok r2) ->
  exists lb ub, bounds_in_force mn o1 lb ub /\
    answers (map fst s) lb ub (if mn then 0 else 1) (fun x => cdar beta (dropna rows) x <= t) (fun x => - inner (map snd s) x) r1 /\
    answers (map fst s) lb ub (if mn then 0 else 1) (fun x => cdar beta (dropna rows) x <= t) (fun x => - inner (map snd s) x) r2.
Proof. exact days_cdar_risk. Qed.
Print Assumptions c130_cdar_risk.
Theorem c130_cdar_return : forall p a c s rows rows' beta b b' v1 v2 w1 w2 o1 o2 d1 d2, cdar_twins p a c s rows rows' beta b b' v1 v2 w1 w2 o1 o2 d1 d2 ->
  forall sv1 sv2 mn x1 x2 y1 y2 r1 r2, exact_solver sv1 -> exact_solver sv2 -> NoDup (map fst s) ->
  forall t, cdar_efficient_return sv1 d1 t mn w1 o1 = (x1, y1, Ok r1) -> cdar_efficient_return sv2 d2 (c * t) mn w2 o2 = (x2, y2, Ok r2) ->
  exists lb ub, bounds_in_force mn o1 lb ub /\
    answers (map fst s) lb ub (if mn then 0 else 1) (fun x => t <= inner (map snd s) x) (cdar beta (dropna rows)) r1 /\
    answers (map fst s) lb ub (if mn then 0 else 1) (fun x => t <= inner (map snd s) x) (cdar beta (dropna rows)) r2.
Proof. exact days_cdar_return. Qed.
Print Assumptions c130_cdar_return.
(** for drawdowns the order of the days is part of the problem: with the rows in another order another asset is bought *)
Theorem c130_order_of_days_refuted : forall sv, exact_solver sv -> complete_solver sv ->
  exists s rows rows' w1 o1 d1 x1 y1 r1 w2 o2 d2 x2 y2 r2, Permutation rows rows' /\
    cdar_init (MIn (MuSeries s)) (RTable 2 rows) 0 (BPair (Some 0) (Some 1)) (mkWorld [] (fun _ => None) [] 0) = (w1, Ok (o1, d1)) /\
    cdar_init (MIn (MuSeries s)) (RTable 2 rows') 0 (BPair (Some 0) (Some 1)) (mkWorld [] (fun _ => None) [] 0) = (w2, Ok (o2, d2)) /\
    min_cdar sv d1 false w1 o1 = (x1, y1, Ok r1) /\ min_cdar sv d2 false w2 o2 = (x2, y2, Ok r2) /\
    dget (LStr "A") r1 = Some 1 /\ dget (LStr "A") r2 = Some 0.
Proof. exact order_of_days_matters. Qed.
Print Assumptions c130_order_of_days_refuted.
