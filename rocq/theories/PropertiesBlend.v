(** * Property theorems: averages of best portfolios (C144) *)
From Coq Require Import ZArith String List Bool Reals.
From Verif Require Import Num Py MBase MConvex MEF MDown SLin SBase SConvex SPerm SUnits SDown SExist SGrow SBlend PBlend.
Import ListNotations.
Local Open Scope R_scope.

Theorem c144_min_volatility : forall s cols rows b v w o, psd (length s) rows -> ef_init (MIn (MuSeries s)) (CIn (CovFrame cols rows)) b v = (w, Ok o) ->
  forall sv1 sv2 x1 x2 y1 y2 d1 d2, NoDup (map fst s) -> exact_solver sv1 -> exact_solver sv2 ->
  min_volatility sv1 w o = (x1, y1, Ok d1) -> min_volatility sv2 w o = (x2, y2, Ok d2) ->
    blended (map fst s) (e_lb o) (e_ub o) 1 (fun _ => True) (qform rows) d1 d2.
Proof. exact blend_min_volatility. Qed.
Print Assumptions c144_min_volatility.
Theorem c144_quadratic_utility : forall s cols rows b v w o, psd (length s) rows -> ef_init (MIn (MuSeries s)) (CIn (CovFrame cols rows)) b v = (w, Ok o) ->
  forall sv1 sv2 x1 x2 y1 y2 d1 d2, NoDup (map fst s) -> exact_solver sv1 -> exact_solver sv2 ->
  forall ra mn, max_quadratic_utility sv1 ra mn w o = (x1, y1, Ok d1) -> max_quadratic_utility sv2 ra mn w o = (x2, y2, Ok d2) ->
    exists lb ub, bounds_in_force mn o lb ub /\ blended (map fst s) lb ub (if mn then 0 else 1) (fun _ => True) (fun x => - (inner (map snd s) x - ra / 2 * qform rows x)) d1 d2.
Proof. exact blend_utility. Qed.
Print Assumptions c144_quadratic_utility.
Theorem c144_efficient_return : forall s cols rows b v w o, psd (length s) rows -> ef_init (MIn (MuSeries s)) (CIn (CovFrame cols rows)) b v = (w, Ok o) ->
  forall sv1 sv2 x1 x2 y1 y2 d1 d2, NoDup (map fst s) -> exact_solver sv1 -> exact_solver sv2 ->
  forall tg mn, efficient_return sv1 (NFloat tg) mn w o = (x1, y1, Ok d1) -> efficient_return sv2 (NFloat tg) mn w o = (x2, y2, Ok d2) ->
    exists lb ub, bounds_in_force mn o lb ub /\ blended (map fst s) lb ub (if mn then 0 else 1) (fun x => tg <= inner (map snd s) x) (qform rows) d1 d2.
Proof. exact blend_return. Qed.
Print Assumptions c144_efficient_return.
Theorem c144_efficient_risk : forall s cols rows b v w o, psd (length s) rows -> ef_init (MIn (MuSeries s)) (CIn (CovFrame cols rows)) b v = (w, Ok o) ->
  forall sv1 sv2 x1 x2 y1 y2 d1 d2, NoDup (map fst s) -> exact_solver sv1 -> exact_solver sv2 ->
  forall pinv1 pinv2 tg mn, efficient_risk sv1 pinv1 (NFloat tg) mn w o = (x1, y1, Ok d1) -> efficient_risk sv2 pinv2 (NFloat tg) mn w o = (x2, y2, Ok d2) ->
    exists lb ub, bounds_in_force mn o lb ub /\ blended (map fst s) lb ub (if mn then 0 else 1) (fun x => qform rows x <= tg * tg) (fun x => - inner (map snd s) x) d1 d2.
Proof. exact blend_risk. Qed.
Print Assumptions c144_efficient_risk.
Theorem c144_max_sharpe : forall s cols rows b v w o, psd (length s) rows -> ef_init (MIn (MuSeries s)) (CIn (CovFrame cols rows)) b v = (w, Ok o) ->
  forall sv1 sv2 x1 x2 y1 y2 d1 d2, NoDup (map fst s) -> exact_solver sv1 -> exact_solver sv2 ->
  forall rf, max_sharpe sv1 (NFloat rf) w o = (x1, y1, Ok d1) -> max_sharpe sv2 (NFloat rf) w o = (x2, y2, Ok d2) ->
    blended_ratio (map fst s) (e_lb o) (e_ub o) (map snd s) rows rf d1 d2.
Proof. exact blend_sharpe. Qed.
Print Assumptions c144_max_sharpe.
Theorem c144_min_semivariance : forall s rows freq bench b v w o d, good_rows (length s) rows -> semi_init (MIn (MuSeries s)) (RTable (length s) rows) freq bench b v = (w, Ok (o, d)) ->
  forall sv1 sv2 mn, exact_solver sv1 -> exact_solver sv2 -> forall x1 y1 r1 x2 y2 r2, NoDup (map fst s) ->
    min_semivariance sv1 d mn w o = (x1, y1, Ok r1) -> min_semivariance sv2 d mn w o = (x2, y2, Ok r2) ->
    exists lb ub, bounds_in_force mn o lb ub /\ blended (map fst s) lb ub (if mn then 0 else 1) (fun x => True) (fun x => semivariance (dropna rows) (bench * (if mn then 0 else 1)) x) r1 r2.
Proof. exact min_semivariance_blend. Qed.
Print Assumptions c144_min_semivariance.
Theorem c144_semivariance_risk : forall s rows freq bench b v w o d, good_rows (length s) rows -> semi_init (MIn (MuSeries s)) (RTable (length s) rows) freq bench b v = (w, Ok (o, d)) ->
  forall sv1 sv2 mn, exact_solver sv1 -> exact_solver sv2 -> forall tg, 0 <= freq -> forall x1 y1 r1 x2 y2 r2, NoDup (map fst s) ->
    semi_efficient_risk sv1 d tg mn w o = (x1, y1, Ok r1) -> semi_efficient_risk sv2 d tg mn w o = (x2, y2, Ok r2) ->
    exists lb ub, bounds_in_force mn o lb ub /\ blended (map fst s) lb ub (if mn then 0 else 1) (fun x => freq * semivariance (dropna rows) (bench * (if mn then 0 else 1)) x <= tg * tg) (fun x => - inner (map snd s) x) r1 r2.
Proof. exact semivariance_risk_blend. Qed.
Print Assumptions c144_semivariance_risk.
Theorem c144_semivariance_return : forall s rows freq bench b v w o d, good_rows (length s) rows -> semi_init (MIn (MuSeries s)) (RTable (length s) rows) freq bench b v = (w, Ok (o, d)) ->
  forall sv1 sv2 mn, exact_solver sv1 -> exact_solver sv2 -> forall tg, forall x1 y1 r1 x2 y2 r2, NoDup (map fst s) ->
    semi_efficient_return sv1 d (NFloat tg) mn w o = (x1, y1, Ok r1) -> semi_efficient_return sv2 d (NFloat tg) mn w o = (x2, y2, Ok r2) ->
    exists lb ub, bounds_in_force mn o lb ub /\ blended (map fst s) lb ub (if mn then 0 else 1) (fun x => tg <= inner (map snd s) x) (fun x => semivariance (dropna rows) (bench * (if mn then 0 else 1)) x) r1 r2.
Proof. exact semivariance_return_blend. Qed.
Print Assumptions c144_semivariance_return.
Theorem c144_semivariance_utility : forall s rows freq bench b v w o d, good_rows (length s) rows -> semi_init (MIn (MuSeries s)) (RTable (length s) rows) freq bench b v = (w, Ok (o, d)) ->
  forall sv1 sv2 mn, exact_solver sv1 -> exact_solver sv2 -> forall tg, forall x1 y1 r1 x2 y2 r2, NoDup (map fst s) ->
    semi_max_quadratic_utility sv1 d tg mn w o = (x1, y1, Ok r1) -> semi_max_quadratic_utility sv2 d tg mn w o = (x2, y2, Ok r2) ->
    exists lb ub, bounds_in_force mn o lb ub /\ blended (map fst s) lb ub (if mn then 0 else 1) (fun x => True) (fun x => - inner (map snd s) x / freq + 1 / 2 * tg * semivariance (dropna rows) (bench * (if mn then 0 else 1)) x) r1 r2.
Proof. exact semivariance_utility_blend. Qed.
Print Assumptions c144_semivariance_utility.
Theorem c144_min_cvar : forall s rows beta b v w o d, good_rows (length s) rows -> cvar_init (MIn (MuSeries s)) (RTable (length s) rows) beta b v = (w, Ok (o, d)) ->
  forall sv1 sv2 mn, exact_solver sv1 -> exact_solver sv2 -> forall x1 y1 r1 x2 y2 r2, NoDup (map fst s) ->
    min_cvar sv1 d mn w o = (x1, y1, Ok r1) -> min_cvar sv2 d mn w o = (x2, y2, Ok r2) ->
    exists lb ub, bounds_in_force mn o lb ub /\ blended (map fst s) lb ub (if mn then 0 else 1) (fun x => True) (fun x => cvar beta (dropna rows) x) r1 r2.
Proof. exact min_cvar_blend. Qed.
Print Assumptions c144_min_cvar.
Theorem c144_cvar_risk : forall s rows beta b v w o d, good_rows (length s) rows -> cvar_init (MIn (MuSeries s)) (RTable (length s) rows) beta b v = (w, Ok (o, d)) ->
  forall sv1 sv2 mn, exact_solver sv1 -> exact_solver sv2 -> forall tg, forall x1 y1 r1 x2 y2 r2, NoDup (map fst s) ->
    cvar_efficient_risk sv1 d tg mn w o = (x1, y1, Ok r1) -> cvar_efficient_risk sv2 d tg mn w o = (x2, y2, Ok r2) ->
    exists lb ub, bounds_in_force mn o lb ub /\ blended (map fst s) lb ub (if mn then 0 else 1) (fun x => cvar beta (dropna rows) x <= tg) (fun x => - inner (map snd s) x) r1 r2.
Proof. exact cvar_risk_blend. Qed.
Print Assumptions c144_cvar_risk.
Theorem c144_cvar_return : forall s rows beta b v w o d, good_rows (length s) rows -> cvar_init (MIn (MuSeries s)) (RTable (length s) rows) beta b v = (w, Ok (o, d)) ->
  forall sv1 sv2 mn, exact_solver sv1 -> exact_solver sv2 -> forall tg, forall x1 y1 r1 x2 y2 r2, NoDup (map fst s) ->
    cvar_efficient_return sv1 d tg mn w o = (x1, y1, Ok r1) -> cvar_efficient_return sv2 d tg mn w o = (x2, y2, Ok r2) ->
    exists lb ub, bounds_in_force mn o lb ub /\ blended (map fst s) lb ub (if mn then 0 else 1) (fun x => tg <= inner (map snd s) x) (fun x => cvar beta (dropna rows) x) r1 r2.
Proof. exact cvar_return_blend. Qed.
Print Assumptions c144_cvar_return.
Theorem c144_min_cdar : forall s rows beta b v w o d, good_rows (length s) rows -> cdar_init (MIn (MuSeries s)) (RTable (length s) rows) beta b v = (w, Ok (o, d)) ->
  forall sv1 sv2 mn, exact_solver sv1 -> exact_solver sv2 -> forall x1 y1 r1 x2 y2 r2, NoDup (map fst s) ->
    min_cdar sv1 d mn w o = (x1, y1, Ok r1) -> min_cdar sv2 d mn w o = (x2, y2, Ok r2) ->
    exists lb ub, bounds_in_force mn o lb ub /\ blended (map fst s) lb ub (if mn then 0 else 1) (fun x => True) (fun x => cdar beta (dropna rows) x) r1 r2.
Proof. exact min_cdar_blend. Qed.
Print Assumptions c144_min_cdar.
Theorem c144_cdar_risk : forall s rows beta b v w o d, good_rows (length s) rows -> cdar_init (MIn (MuSeries s)) (RTable (length s) rows) beta b v = (w, Ok (o, d)) ->
  forall sv1 sv2 mn, exact_solver sv1 -> exact_solver sv2 -> forall tg, forall x1 y1 r1 x2 y2 r2, NoDup (map fst s) ->
    cdar_efficient_risk sv1 d tg mn w o = (x1, y1, Ok r1) -> cdar_efficient_risk sv2 d tg mn w o = (x2, y2, Ok r2) ->
    exists lb ub, bounds_in_force mn o lb ub /\ blended (map fst s) lb ub (if mn then 0 else 1) (fun x => cdar beta (dropna rows) x <= tg) (fun x => - inner (map snd s) x) r1 r2.
Proof. exact cdar_risk_blend. Qed.
Print Assumptions c144_cdar_risk.
Theorem c144_cdar_return : forall s rows beta b v w o d, good_rows (length s) rows -> cdar_init (MIn (MuSeries s)) (RTable (length s) rows) beta b v = (w, Ok (o, d)) ->
  forall sv1 sv2 mn, exact_solver sv1 -> exact_solver sv2 -> forall tg, forall x1 y1 r1 x2 y2 r2, NoDup (map fst s) ->
    cdar_efficient_return sv1 d tg mn w o = (x1, y1, Ok r1) -> cdar_efficient_return sv2 d tg mn w o = (x2, y2, Ok r2) ->
    exists lb ub, bounds_in_force mn o lb ub /\ blended (map fst s) lb ub (if mn then 0 else 1) (fun x => tg <= inner (map snd s) x) (fun x => cdar beta (dropna rows) x) r1 r2.
Proof. exact cdar_return_blend. Qed.
Print Assumptions c144_cdar_return.
