(** * Property theorems: bounds that do not bind (C145) *)
From Coq Require Import ZArith String List Bool Reals.
From Verif Require Import Num Py MBase MConvex MEF MDown SLin SBase SConvex SPerm SUnits SDown SExist SGrow SWide SSlack PSlack.
Import ListNotations.
Local Open Scope R_scope.

Theorem c145_min_volatility : forall s cols rows b1 b2 v1 v2 w1 w2 o1 o2, psd (length s) rows -> ef_wider s cols rows b1 b2 v1 v2 w1 w2 o1 o2 ->
  forall sv1 sv2 x1 x2 y1 y2 d1 d2, NoDup (map fst s) -> exact_solver sv1 -> exact_solver sv2 ->
  min_volatility sv1 w1 o1 = (x1, y1, Ok d1) -> min_volatility sv2 w2 o2 = (x2, y2, Ok d2) ->
    unbound (map fst s) (e_lb o1) (e_ub o1) (e_lb o2) (e_ub o2) 1 (fun _ => True) (qform rows) d1 d2.
Proof. exact slack_min_volatility. Qed.
Print Assumptions c145_min_volatility.
Theorem c145_quadratic_utility : forall s cols rows b1 b2 v1 v2 w1 w2 o1 o2, psd (length s) rows -> ef_wider s cols rows b1 b2 v1 v2 w1 w2 o1 o2 ->
  forall sv1 sv2 x1 x2 y1 y2 d1 d2, NoDup (map fst s) -> exact_solver sv1 -> exact_solver sv2 ->
  forall ra mn, same_kind mn o1 o2 -> max_quadratic_utility sv1 ra mn w1 o1 = (x1, y1, Ok d1) -> max_quadratic_utility sv2 ra mn w2 o2 = (x2, y2, Ok d2) ->
    exists lb ub lb' ub', bounds_in_force mn o1 lb ub /\ bounds_in_force mn o2 lb' ub' /\ unbound (map fst s) lb ub lb' ub' (if mn then 0 else 1) (fun _ => True) (fun x => - (inner (map snd s) x - ra / 2 * qform rows x)) d1 d2.
Proof. exact slack_utility. Qed.
Print Assumptions c145_quadratic_utility.
Theorem c145_efficient_return : forall s cols rows b1 b2 v1 v2 w1 w2 o1 o2, psd (length s) rows -> ef_wider s cols rows b1 b2 v1 v2 w1 w2 o1 o2 ->
  forall sv1 sv2 x1 x2 y1 y2 d1 d2, NoDup (map fst s) -> exact_solver sv1 -> exact_solver sv2 ->
  forall tg mn, same_kind mn o1 o2 -> efficient_return sv1 (NFloat tg) mn w1 o1 = (x1, y1, Ok d1) -> efficient_return sv2 (NFloat tg) mn w2 o2 = (x2, y2, Ok d2) ->
    exists lb ub lb' ub', bounds_in_force mn o1 lb ub /\ bounds_in_force mn o2 lb' ub' /\ unbound (map fst s) lb ub lb' ub' (if mn then 0 else 1) (fun x => tg <= inner (map snd s) x) (qform rows) d1 d2.
Proof. exact slack_return. Qed.
Print Assumptions c145_efficient_return.
Theorem c145_efficient_risk : forall s cols rows b1 b2 v1 v2 w1 w2 o1 o2, psd (length s) rows -> ef_wider s cols rows b1 b2 v1 v2 w1 w2 o1 o2 ->
  forall sv1 sv2 x1 x2 y1 y2 d1 d2, NoDup (map fst s) -> exact_solver sv1 -> exact_solver sv2 ->
  forall pinv1 pinv2 tg mn, same_kind mn o1 o2 -> efficient_risk sv1 pinv1 (NFloat tg) mn w1 o1 = (x1, y1, Ok d1) -> efficient_risk sv2 pinv2 (NFloat tg) mn w2 o2 = (x2, y2, Ok d2) ->
    exists lb ub lb' ub', bounds_in_force mn o1 lb ub /\ bounds_in_force mn o2 lb' ub' /\ unbound (map fst s) lb ub lb' ub' (if mn then 0 else 1) (fun x => qform rows x <= tg * tg) (fun x => - inner (map snd s) x) d1 d2.
Proof. exact slack_risk. Qed.
Print Assumptions c145_efficient_risk.
Theorem c145_max_sharpe : forall s cols rows b1 b2 v1 v2 w1 w2 o1 o2, psd (length s) rows -> ef_wider s cols rows b1 b2 v1 v2 w1 w2 o1 o2 ->
  forall sv1 sv2 x1 x2 y1 y2 d1 d2, NoDup (map fst s) -> exact_solver sv1 -> exact_solver sv2 ->
  forall rf, max_sharpe sv1 (NFloat rf) w1 o1 = (x1, y1, Ok d1) -> max_sharpe sv2 (NFloat rf) w2 o2 = (x2, y2, Ok d2) ->
    unbound_ratio (map fst s) (e_lb o1) (e_ub o1) (e_lb o2) (e_ub o2) (map snd s) rows rf d1 d2.
Proof. exact slack_sharpe. Qed.
Print Assumptions c145_max_sharpe.
Theorem c145_min_semivariance : forall s rows freq bench b1 b2 v1 v2 w1 w2 o1 o2 d1 d2, semi_wider s rows freq bench b1 b2 v1 v2 w1 w2 o1 o2 d1 d2 ->
  forall sv1 sv2 mn, exact_solver sv1 -> exact_solver sv2 -> same_kind mn o1 o2 -> forall x1 y1 r1 x2 y2 r2, NoDup (map fst s) ->
    min_semivariance sv1 d1 mn w1 o1 = (x1, y1, Ok r1) -> min_semivariance sv2 d2 mn w2 o2 = (x2, y2, Ok r2) ->
    exists lb ub lb' ub', bounds_in_force mn o1 lb ub /\ bounds_in_force mn o2 lb' ub' /\ unbound (map fst s) lb ub lb' ub' (if mn then 0 else 1) (fun x => True) (fun x => semivariance (dropna rows) (bench * (if mn then 0 else 1)) x) r1 r2.
Proof. exact min_semivariance_slack. Qed.
Print Assumptions c145_min_semivariance.
Theorem c145_semivariance_risk : forall s rows freq bench b1 b2 v1 v2 w1 w2 o1 o2 d1 d2, semi_wider s rows freq bench b1 b2 v1 v2 w1 w2 o1 o2 d1 d2 ->
  forall sv1 sv2 mn, exact_solver sv1 -> exact_solver sv2 -> same_kind mn o1 o2 -> forall tg, 0 <= freq -> forall x1 y1 r1 x2 y2 r2, NoDup (map fst s) ->
    semi_efficient_risk sv1 d1 tg mn w1 o1 = (x1, y1, Ok r1) -> semi_efficient_risk sv2 d2 tg mn w2 o2 = (x2, y2, Ok r2) ->
    exists lb ub lb' ub', bounds_in_force mn o1 lb ub /\ bounds_in_force mn o2 lb' ub' /\ unbound (map fst s) lb ub lb' ub' (if mn then 0 else 1) (fun x => freq * semivariance (dropna rows) (bench * (if mn then 0 else 1)) x <= tg * tg) (fun x => - inner (map snd s) x) r1 r2.
Proof. exact semivariance_risk_slack. Qed.
Print Assumptions c145_semivariance_risk.
Theorem c145_semivariance_return : forall s rows freq bench b1 b2 v1 v2 w1 w2 o1 o2 d1 d2, semi_wider s rows freq bench b1 b2 v1 v2 w1 w2 o1 o2 d1 d2 ->
  forall sv1 sv2 mn, exact_solver sv1 -> exact_solver sv2 -> same_kind mn o1 o2 -> forall tg, forall x1 y1 r1 x2 y2 r2, NoDup (map fst s) ->
    semi_efficient_return sv1 d1 (NFloat tg) mn w1 o1 = (x1, y1, Ok r1) -> semi_efficient_return sv2 d2 (NFloat tg) mn w2 o2 = (x2, y2, Ok r2) ->
    exists lb ub lb' ub', bounds_in_force mn o1 lb ub /\ bounds_in_force mn o2 lb' ub' /\ unbound (map fst s) lb ub lb' ub' (if mn then 0 else 1) (fun x => tg <= inner (map snd s) x) (fun x => semivariance (dropna rows) (bench * (if mn then 0 else 1)) x) r1 r2.
Proof. exact semivariance_return_slack. Qed.
Print Assumptions c145_semivariance_return.
Theorem c145_semivariance_utility : forall s rows freq bench b1 b2 v1 v2 w1 w2 o1 o2 d1 d2, semi_wider s rows freq bench b1 b2 v1 v2 w1 w2 o1 o2 d1 d2 ->
  forall sv1 sv2 mn, exact_solver sv1 -> exact_solver sv2 -> same_kind mn o1 o2 -> forall tg, forall x1 y1 r1 x2 y2 r2, NoDup (map fst s) ->
    semi_max_quadratic_utility sv1 d1 tg mn w1 o1 = (x1, y1, Ok r1) -> semi_max_quadratic_utility sv2 d2 tg mn w2 o2 = (x2, y2, Ok r2) ->
    exists lb ub lb' ub', bounds_in_force mn o1 lb ub /\ bounds_in_force mn o2 lb' ub' /\ unbound (map fst s) lb ub lb' ub' (if mn then 0 else 1) (fun x => True) (fun x => - inner (map snd s) x / freq + 1 / 2 * tg * semivariance (dropna rows) (bench * (if mn then 0 else 1)) x) r1 r2.
Proof. exact semivariance_utility_slack. Qed.
Print Assumptions c145_semivariance_utility.
Theorem c145_min_cvar : forall s rows beta b1 b2 v1 v2 w1 w2 o1 o2 d1 d2, cvar_wider s rows beta b1 b2 v1 v2 w1 w2 o1 o2 d1 d2 ->
  forall sv1 sv2 mn, exact_solver sv1 -> exact_solver sv2 -> same_kind mn o1 o2 -> forall x1 y1 r1 x2 y2 r2, NoDup (map fst s) ->
    min_cvar sv1 d1 mn w1 o1 = (x1, y1, Ok r1) -> min_cvar sv2 d2 mn w2 o2 = (x2, y2, Ok r2) ->
    exists lb ub lb' ub', bounds_in_force mn o1 lb ub /\ bounds_in_force mn o2 lb' ub' /\ unbound (map fst s) lb ub lb' ub' (if mn then 0 else 1) (fun x => True) (fun x => cvar beta (dropna rows) x) r1 r2.
Proof. exact min_cvar_slack. Qed.
Print Assumptions c145_min_cvar.
Theorem c145_cvar_risk : forall s rows beta b1 b2 v1 v2 w1 w2 o1 o2 d1 d2, cvar_wider s rows beta b1 b2 v1 v2 w1 w2 o1 o2 d1 d2 ->
  forall sv1 sv2 mn, exact_solver sv1 -> exact_solver sv2 -> same_kind mn o1 o2 -> forall tg, forall x1 y1 r1 x2 y2 r2, NoDup (map fst s) ->
    cvar_efficient_risk sv1 d1 tg mn w1 o1 = (x1, y1, Ok r1) -> cvar_efficient_risk sv2 d2 tg mn w2 o2 = (x2, y2, Ok r2) ->
    exists lb ub lb' ub', bounds_in_force mn o1 lb ub /\ bounds_in_force mn o2 lb' ub' /\ unbound (map fst s) lb ub lb' ub' (if mn then 0 else 1) (fun x => cvar beta (dropna rows) x <= tg) (fun x => - inner (map snd s) x) r1 r2.
Proof. exact cvar_risk_slack. Qed.
Print Assumptions c145_cvar_risk.
Theorem c145_cvar_return : forall s rows beta b1 b2 v1 v2 w1 w2 o1 o2 d1 d2, cvar_wider s rows beta b1 b2 v1 v2 w1 w2 o1 o2 d1 d2 ->
  forall sv1 sv2 mn, exact_solver sv1 -> exact_solver sv2 -> same_kind mn o1 o2 -> forall tg, forall x1 y1 r1 x2 y2 r2, NoDup (map fst s) ->
    cvar_efficient_return sv1 d1 tg mn w1 o1 = (x1, y1, Ok r1) -> cvar_efficient_return sv2 d2 tg mn w2 o2 = (x2, y2, Ok r2) ->
    exists lb ub lb' ub', bounds_in_force mn o1 lb ub /\ bounds_in_force mn o2 lb' ub' /\ unbound (map fst s) lb ub lb' ub' (if mn then 0 else 1) (fun x => tg <= inner (map snd s) x) (fun x => cvar beta (dropna rows) x) r1 r2.
Proof. exact cvar_return_slack. Qed.
Print Assumptions c145_cvar_return.
Theorem c145_min_cdar : forall s rows beta b1 b2 v1 v2 w1 w2 o1 o2 d1 d2, cdar_wider s rows beta b1 b2 v1 v2 w1 w2 o1 o2 d1 d2 ->
  forall sv1 sv2 mn, exact_solver sv1 -> exact_solver sv2 -> same_kind mn o1 o2 -> forall x1 y1 r1 x2 y2 r2, NoDup (map fst s) ->
    min_cdar sv1 d1 mn w1 o1 = (x1, y1, Ok r1) -> min_cdar sv2 d2 mn w2 o2 = (x2, y2, Ok r2) ->
    exists lb ub lb' ub', bounds_in_force mn o1 lb ub /\ bounds_in_force mn o2 lb' ub' /\ unbound (map fst s) lb ub lb' ub' (if mn then 0 else 1) (fun x => True) (fun x => cdar beta (dropna rows) x) r1 r2.
Proof. exact min_cdar_slack. Qed.
Print Assumptions c145_min_cdar.
Theorem c145_cdar_risk : forall s rows beta b1 b2 v1 v2 w1 w2 o1 o2 d1 d2, cdar_wider s rows beta b1 b2 v1 v2 w1 w2 o1 o2 d1 d2 ->
  forall sv1 sv2 mn, exact_solver sv1 -> exact_solver sv2 -> same_kind mn o1 o2 -> forall tg, forall x1 y1 r1 x2 y2 r2, NoDup (map fst s) ->
    cdar_efficient_risk sv1 d1 tg mn w1 o1 = (x1, y1, Ok r1) -> cdar_efficient_risk sv2 d2 tg mn w2 o2 = (x2, y2, Ok r2) ->
    exists lb ub lb' ub', bounds_in_force mn o1 lb ub /\ bounds_in_force mn o2 lb' ub' /\ unbound (map fst s) lb ub lb' ub' (if mn then 0 else 1) (fun x => cdar beta (dropna rows) x <= tg) (fun x => - inner (map snd s) x) r1 r2.
Proof. exact cdar_risk_slack. Qed.
Print Assumptions c145_cdar_risk.
Theorem c145_cdar_return : forall s rows beta b1 b2 v1 v2 w1 w2 o1 o2 d1 d2, cdar_wider s rows beta b1 b2 v1 v2 w1 w2 o1 o2 d1 d2 ->
  forall sv1 sv2 mn, exact_solver sv1 -> exact_solver sv2 -> same_kind mn o1 o2 -> forall tg, forall x1 y1 r1 x2 y2 r2, NoDup (map fst s) ->
    cdar_efficient_return sv1 d1 tg mn w1 o1 = (x1, y1, Ok r1) -> cdar_efficient_return sv2 d2 tg mn w2 o2 = (x2, y2, Ok r2) ->
    exists lb ub lb' ub', bounds_in_force mn o1 lb ub /\ bounds_in_force mn o2 lb' ub' /\ unbound (map fst s) lb ub lb' ub' (if mn then 0 else 1) (fun x => tg <= inner (map snd s) x) (fun x => cdar beta (dropna rows) x) r1 r2.
Proof. exact cdar_return_slack. Qed.
Print Assumptions c145_cdar_return.
