(** * Property theorems: the same amount added to every return in the table (C140) *)
From Coq Require Import ZArith String List Bool Reals.
From Verif Require Import Num Py MBase MConvex MEF MDown SLin SBase SConvex SPerm SDown SShift SLevel PLevel PLevelW.
Import ListNotations.
Local Open Scope R_scope.

Theorem c140_semivariance_accepted : forall c e s rows freq bench b v1 v2 w1 o1 d1, semi_init (MIn (MuSeries s)) (RTable (length s) rows) freq bench b v1 = (w1, Ok (o1, d1)) ->
  exists w2 o2 d2, semi_init (MIn (MuSeries (mu_plus e s))) (RTable (length s) (rows_plus c rows)) freq (bench + c) b v2 = (w2, Ok (o2, d2)).
Proof. exact semi_level_accepted. Qed.
Print Assumptions c140_semivariance_accepted.
Theorem c140_min_semivariance : forall c e s rows freq bench b v1 v2 w1 w2 o1 o2 d1 d2, semi_level c e s rows freq bench b v1 v2 w1 w2 o1 o2 d1 d2 ->
  forall sv1 sv2 (mn : bool), exact_solver sv1 -> exact_solver sv2 -> forall x1 x2 y1 y2 r1 r2, NoDup (map fst s) -> min_semivariance sv1 d1 mn w1 o1 = (x1, y1, Ok r1) -> min_semivariance sv2 d2 mn w2 o2 = (x2, y2, Ok r2) ->
  exists lb ub, bounds_in_force mn o1 lb ub /\ answers (map fst s) lb ub (if mn then 0 else 1) (fun _ => True) (semivariance (dropna rows) (bench * (if mn then 0 else 1))) r1 /\
    answers (map fst s) lb ub (if mn then 0 else 1) (fun _ => True) (semivariance (dropna rows) (bench * (if mn then 0 else 1))) r2.
Proof. exact semi_min_level. Qed.
Print Assumptions c140_min_semivariance.
Theorem c140_min_semivariance_both : forall c e s rows freq bench b v1 v2 w1 w2 o1 o2 d1 d2, semi_level c e s rows freq bench b v1 v2 w1 w2 o1 o2 d1 d2 ->
  forall sv1 sv2 (mn : bool), exact_solver sv1 -> exact_solver sv2 -> complete_solver sv1 -> complete_solver sv2 -> (succeeds (min_semivariance sv1 d1 mn) w1 o1 <-> succeeds (min_semivariance sv2 d2 mn) w2 o2).
Proof. exact semi_min_level_both. Qed.
Print Assumptions c140_min_semivariance_both.
Theorem c140_semivariance_risk : forall c e s rows freq bench b v1 v2 w1 w2 o1 o2 d1 d2, semi_level c e s rows freq bench b v1 v2 w1 w2 o1 o2 d1 d2 ->
  forall sv1 sv2 (mn : bool), exact_solver sv1 -> exact_solver sv2 -> 0 <= freq -> forall t, forall x1 x2 y1 y2 r1 r2, NoDup (map fst s) -> semi_efficient_risk sv1 d1 t mn w1 o1 = (x1, y1, Ok r1) -> semi_efficient_risk sv2 d2 t mn w2 o2 = (x2, y2, Ok r2) ->
  exists lb ub, bounds_in_force mn o1 lb ub /\ answers (map fst s) lb ub (if mn then 0 else 1) (fun x => freq * semivariance (dropna rows) (bench * (if mn then 0 else 1)) x <= t * t) (fun x => - inner (map snd s) x) r1 /\
    answers (map fst s) lb ub (if mn then 0 else 1) (fun x => freq * semivariance (dropna rows) (bench * (if mn then 0 else 1)) x <= t * t) (fun x => - inner (map snd s) x) r2.
Proof. exact semi_risk_level. Qed.
Print Assumptions c140_semivariance_risk.
Theorem c140_semivariance_risk_both : forall c e s rows freq bench b v1 v2 w1 w2 o1 o2 d1 d2, semi_level c e s rows freq bench b v1 v2 w1 w2 o1 o2 d1 d2 ->
  forall sv1 sv2 (mn : bool), exact_solver sv1 -> exact_solver sv2 -> complete_solver sv1 -> complete_solver sv2 -> 0 <= freq -> forall t, (succeeds (semi_efficient_risk sv1 d1 t mn) w1 o1 <-> succeeds (semi_efficient_risk sv2 d2 t mn) w2 o2).
Proof. exact semi_risk_level_both. Qed.
Print Assumptions c140_semivariance_risk_both.
Theorem c140_semivariance_return : forall c e s rows freq bench b v1 v2 w1 w2 o1 o2 d1 d2, semi_level c e s rows freq bench b v1 v2 w1 w2 o1 o2 d1 d2 ->
  forall sv1 sv2 (mn : bool), exact_solver sv1 -> exact_solver sv2 -> forall t, forall x1 x2 y1 y2 r1 r2, NoDup (map fst s) -> semi_efficient_return sv1 d1 (NFloat t) mn w1 o1 = (x1, y1, Ok r1) -> semi_efficient_return sv2 d2 (NFloat (t + e * sum_of mn)) mn w2 o2 = (x2, y2, Ok r2) ->
  exists lb ub, bounds_in_force mn o1 lb ub /\ answers (map fst s) lb ub (if mn then 0 else 1) (fun x => t <= inner (map snd s) x) (semivariance (dropna rows) (bench * (if mn then 0 else 1))) r1 /\
    answers (map fst s) lb ub (if mn then 0 else 1) (fun x => t <= inner (map snd s) x) (semivariance (dropna rows) (bench * (if mn then 0 else 1))) r2.
Proof. exact semi_return_level. Qed.
Print Assumptions c140_semivariance_return.
Theorem c140_semivariance_utility : forall c e s rows freq bench b v1 v2 w1 w2 o1 o2 d1 d2, semi_level c e s rows freq bench b v1 v2 w1 w2 o1 o2 d1 d2 ->
  forall sv1 sv2 (mn : bool), exact_solver sv1 -> exact_solver sv2 -> forall k, forall x1 x2 y1 y2 r1 r2, NoDup (map fst s) -> semi_max_quadratic_utility sv1 d1 k mn w1 o1 = (x1, y1, Ok r1) -> semi_max_quadratic_utility sv2 d2 k mn w2 o2 = (x2, y2, Ok r2) ->
  exists lb ub, bounds_in_force mn o1 lb ub /\ answers (map fst s) lb ub (if mn then 0 else 1) (fun _ => True) (fun x => - inner (map snd s) x / freq + 1 / 2 * k * semivariance (dropna rows) (bench * (if mn then 0 else 1)) x) r1 /\
    answers (map fst s) lb ub (if mn then 0 else 1) (fun _ => True) (fun x => - inner (map snd s) x / freq + 1 / 2 * k * semivariance (dropna rows) (bench * (if mn then 0 else 1)) x) r2.
Proof. exact semi_utility_level. Qed.
Print Assumptions c140_semivariance_utility.
Theorem c140_semivariance_utility_both : forall c e s rows freq bench b v1 v2 w1 w2 o1 o2 d1 d2, semi_level c e s rows freq bench b v1 v2 w1 w2 o1 o2 d1 d2 ->
  forall sv1 sv2 (mn : bool), exact_solver sv1 -> exact_solver sv2 -> complete_solver sv1 -> complete_solver sv2 -> forall k, (succeeds (semi_max_quadratic_utility sv1 d1 k mn) w1 o1 <-> succeeds (semi_max_quadratic_utility sv2 d2 k mn) w2 o2).
Proof. exact semi_utility_level_both. Qed.
Print Assumptions c140_semivariance_utility_both.
Theorem c140_cvar_accepted : forall c e s rows beta b v1 v2 w1 o1 d1, cvar_init (MIn (MuSeries s)) (RTable (length s) rows) beta b v1 = (w1, Ok (o1, d1)) ->
  exists w2 o2 d2, cvar_init (MIn (MuSeries (mu_plus e s))) (RTable (length s) (rows_plus c rows)) beta b v2 = (w2, Ok (o2, d2)).
Proof. exact cvar_level_accepted. Qed.
Print Assumptions c140_cvar_accepted.
Theorem c140_min_cvar : forall c e s rows beta b v1 v2 w1 w2 o1 o2 d1 d2, cvar_level_pair c e s rows beta b v1 v2 w1 w2 o1 o2 d1 d2 ->
  forall sv1 sv2 (mn : bool), exact_solver sv1 -> exact_solver sv2 -> forall x1 x2 y1 y2 r1 r2, NoDup (map fst s) -> min_cvar sv1 d1 mn w1 o1 = (x1, y1, Ok r1) -> min_cvar sv2 d2 mn w2 o2 = (x2, y2, Ok r2) ->
  exists lb ub, bounds_in_force mn o1 lb ub /\ answers (map fst s) lb ub (if mn then 0 else 1) (fun _ => True) (cvar beta (dropna rows)) r1 /\
    answers (map fst s) lb ub (if mn then 0 else 1) (fun _ => True) (cvar beta (dropna rows)) r2.
Proof. exact cvar_min_level. Qed.
Print Assumptions c140_min_cvar.
Theorem c140_min_cvar_both : forall c e s rows beta b v1 v2 w1 w2 o1 o2 d1 d2, cvar_level_pair c e s rows beta b v1 v2 w1 w2 o1 o2 d1 d2 ->
  forall sv1 sv2 (mn : bool), exact_solver sv1 -> exact_solver sv2 -> complete_solver sv1 -> complete_solver sv2 -> (succeeds (min_cvar sv1 d1 mn) w1 o1 <-> succeeds (min_cvar sv2 d2 mn) w2 o2).
Proof. exact cvar_min_level_both. Qed.
Print Assumptions c140_min_cvar_both.
Theorem c140_cvar_risk : forall c e s rows beta b v1 v2 w1 w2 o1 o2 d1 d2, cvar_level_pair c e s rows beta b v1 v2 w1 w2 o1 o2 d1 d2 ->
  forall sv1 sv2 (mn : bool), exact_solver sv1 -> exact_solver sv2 -> forall t, forall x1 x2 y1 y2 r1 r2, NoDup (map fst s) -> cvar_efficient_risk sv1 d1 t mn w1 o1 = (x1, y1, Ok r1) -> cvar_efficient_risk sv2 d2 (t - c * sum_of mn) mn w2 o2 = (x2, y2, Ok r2) ->
  exists lb ub, bounds_in_force mn o1 lb ub /\ answers (map fst s) lb ub (if mn then 0 else 1) (fun x => cvar beta (dropna rows) x <= t) (fun x => - inner (map snd s) x) r1 /\
    answers (map fst s) lb ub (if mn then 0 else 1) (fun x => cvar beta (dropna rows) x <= t) (fun x => - inner (map snd s) x) r2.
Proof. exact cvar_risk_level. Qed.
Print Assumptions c140_cvar_risk.
Theorem c140_cvar_risk_both : forall c e s rows beta b v1 v2 w1 w2 o1 o2 d1 d2, cvar_level_pair c e s rows beta b v1 v2 w1 w2 o1 o2 d1 d2 ->
  forall sv1 sv2 (mn : bool), exact_solver sv1 -> exact_solver sv2 -> complete_solver sv1 -> complete_solver sv2 -> forall t, 0 <= t -> 0 <= t - c * sum_of mn -> (succeeds (cvar_efficient_risk sv1 d1 t mn) w1 o1 <-> succeeds (cvar_efficient_risk sv2 d2 (t - c * sum_of mn) mn) w2 o2).
Proof. exact cvar_risk_level_both. Qed.
Print Assumptions c140_cvar_risk_both.
Theorem c140_cvar_return : forall c e s rows beta b v1 v2 w1 w2 o1 o2 d1 d2, cvar_level_pair c e s rows beta b v1 v2 w1 w2 o1 o2 d1 d2 ->
  forall sv1 sv2 (mn : bool), exact_solver sv1 -> exact_solver sv2 -> forall t, forall x1 x2 y1 y2 r1 r2, NoDup (map fst s) -> cvar_efficient_return sv1 d1 t mn w1 o1 = (x1, y1, Ok r1) -> cvar_efficient_return sv2 d2 (t + e * sum_of mn) mn w2 o2 = (x2, y2, Ok r2) ->
  exists lb ub, bounds_in_force mn o1 lb ub /\ answers (map fst s) lb ub (if mn then 0 else 1) (fun x => t <= inner (map snd s) x) (cvar beta (dropna rows)) r1 /\
    answers (map fst s) lb ub (if mn then 0 else 1) (fun x => t <= inner (map snd s) x) (cvar beta (dropna rows)) r2.
Proof. exact cvar_return_level. Qed.
Print Assumptions c140_cvar_return.
Theorem c140_cvar_return_both : forall c e s rows beta b v1 v2 w1 w2 o1 o2 d1 d2, cvar_level_pair c e s rows beta b v1 v2 w1 w2 o1 o2 d1 d2 ->
  forall sv1 sv2 (mn : bool), exact_solver sv1 -> exact_solver sv2 -> complete_solver sv1 -> complete_solver sv2 -> forall t, (succeeds (cvar_efficient_return sv1 d1 t mn) w1 o1 <-> succeeds (cvar_efficient_return sv2 d2 (t + e * sum_of mn) mn) w2 o2).
Proof. exact cvar_return_level_both. Qed.
Print Assumptions c140_cvar_return_both.
Theorem c140_cdar_accepted : forall c e s rows beta b v1 v2 w1 o1 d1, cdar_init (MIn (MuSeries s)) (RTable (length s) rows) beta b v1 = (w1, Ok (o1, d1)) ->
  exists w2 o2 d2, cdar_init (MIn (MuSeries (mu_plus e s))) (RTable (length s) (rows_plus c rows)) beta b v2 = (w2, Ok (o2, d2)).
Proof. exact cdar_level_accepted. Qed.
Print Assumptions c140_cdar_accepted.
Theorem c140_min_cdar_neutral : forall c e s rows beta b v1 v2 w1 w2 o1 o2 d1 d2, cdar_level_pair c e s rows beta b v1 v2 w1 w2 o1 o2 d1 d2 ->
  forall sv1 sv2, exact_solver sv1 -> exact_solver sv2 -> forall x1 x2 y1 y2 r1 r2, NoDup (map fst s) -> min_cdar sv1 d1 true w1 o1 = (x1, y1, Ok r1) -> min_cdar sv2 d2 true w2 o2 = (x2, y2, Ok r2) ->
  exists lb ub, bounds_in_force true o1 lb ub /\ answers (map fst s) lb ub 0 (fun _ => True) (cdar beta (dropna rows)) r1 /\
    answers (map fst s) lb ub 0 (fun _ => True) (cdar beta (dropna rows)) r2.
Proof. exact cdar_min_level. Qed.
Print Assumptions c140_min_cdar_neutral.
Theorem c140_min_cdar_neutral_both : forall c e s rows beta b v1 v2 w1 w2 o1 o2 d1 d2, cdar_level_pair c e s rows beta b v1 v2 w1 w2 o1 o2 d1 d2 ->
  forall sv1 sv2, exact_solver sv1 -> exact_solver sv2 -> complete_solver sv1 -> complete_solver sv2 -> (succeeds (min_cdar sv1 d1 true) w1 o1 <-> succeeds (min_cdar sv2 d2 true) w2 o2).
Proof. exact cdar_min_level_both. Qed.
Print Assumptions c140_min_cdar_neutral_both.
Theorem c140_cdar_risk_neutral : forall c e s rows beta b v1 v2 w1 w2 o1 o2 d1 d2, cdar_level_pair c e s rows beta b v1 v2 w1 w2 o1 o2 d1 d2 ->
  forall sv1 sv2, exact_solver sv1 -> exact_solver sv2 -> forall t, forall x1 x2 y1 y2 r1 r2, NoDup (map fst s) -> cdar_efficient_risk sv1 d1 t true w1 o1 = (x1, y1, Ok r1) -> cdar_efficient_risk sv2 d2 t true w2 o2 = (x2, y2, Ok r2) ->
  exists lb ub, bounds_in_force true o1 lb ub /\ answers (map fst s) lb ub 0 (fun x => cdar beta (dropna rows) x <= t) (fun x => - inner (map snd s) x) r1 /\
    answers (map fst s) lb ub 0 (fun x => cdar beta (dropna rows) x <= t) (fun x => - inner (map snd s) x) r2.
Proof. exact cdar_risk_level. Qed.
Print Assumptions c140_cdar_risk_neutral.
Theorem c140_cdar_risk_neutral_both : forall c e s rows beta b v1 v2 w1 w2 o1 o2 d1 d2, cdar_level_pair c e s rows beta b v1 v2 w1 w2 o1 o2 d1 d2 ->
  forall sv1 sv2, exact_solver sv1 -> exact_solver sv2 -> complete_solver sv1 -> complete_solver sv2 -> forall t, (succeeds (cdar_efficient_risk sv1 d1 t true) w1 o1 <-> succeeds (cdar_efficient_risk sv2 d2 t true) w2 o2).
Proof. exact cdar_risk_level_both. Qed.
Print Assumptions c140_cdar_risk_neutral_both.
Theorem c140_cdar_return_neutral : forall c e s rows beta b v1 v2 w1 w2 o1 o2 d1 d2, cdar_level_pair c e s rows beta b v1 v2 w1 w2 o1 o2 d1 d2 ->
  forall sv1 sv2, exact_solver sv1 -> exact_solver sv2 -> forall t, forall x1 x2 y1 y2 r1 r2, NoDup (map fst s) -> cdar_efficient_return sv1 d1 t true w1 o1 = (x1, y1, Ok r1) -> cdar_efficient_return sv2 d2 t true w2 o2 = (x2, y2, Ok r2) ->
  exists lb ub, bounds_in_force true o1 lb ub /\ answers (map fst s) lb ub 0 (fun x => t <= inner (map snd s) x) (cdar beta (dropna rows)) r1 /\
    answers (map fst s) lb ub 0 (fun x => t <= inner (map snd s) x) (cdar beta (dropna rows)) r2.
Proof. exact cdar_return_level. Qed.
Print Assumptions c140_cdar_return_neutral.
Theorem c140_cdar_return_neutral_both : forall c e s rows beta b v1 v2 w1 w2 o1 o2 d1 d2, cdar_level_pair c e s rows beta b v1 v2 w1 w2 o1 o2 d1 d2 ->
  forall sv1 sv2, exact_solver sv1 -> exact_solver sv2 -> complete_solver sv1 -> complete_solver sv2 -> forall t, (succeeds (cdar_efficient_return sv1 d1 t true) w1 o1 <-> succeeds (cdar_efficient_return sv2 d2 t true) w2 o2).
Proof. exact cdar_return_level_both. Qed.
Print Assumptions c140_cdar_return_neutral_both.
(** with drawdowns the level matters to a fully invested portfolio: ten lower on each day, the other asset is chosen *)
Theorem c140_min_cdar_refuted : forall sv e, exact_solver sv -> complete_solver sv ->
  exists c s rows b v w1 w2 o1 o2 d1 d2 x1 y1 r1 x2 y2 r2, cdar_level_pair c e s rows 0 b v v w1 w2 o1 o2 d1 d2 /\
    min_cdar sv d1 false w1 o1 = (x1, y1, Ok r1) /\ min_cdar sv d2 false w2 o2 = (x2, y2, Ok r2) /\
    dget (LStr "A") r1 = Some 1 /\ dget (LStr "A") r2 = Some 0.
Proof. exact level_matters_to_drawdowns. Qed.
Print Assumptions c140_min_cdar_refuted.
