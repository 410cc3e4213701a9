(** * Property theorems: only differences between expected returns matter (C138) *)
From Coq Require Import ZArith String List Bool Reals.
From Verif Require Import Num Py SBL MBase MConvex MEF SLin SBase SConvex SPerm SShift PShift PShiftW.
Import ListNotations.
Local Open Scope R_scope.

(** the data are accepted at every level *)
Theorem c138_accepted : forall c s cols rows b v1 v2 w1 o1, square (length s) rows ->
  ef_init (MIn (MuSeries s)) (CIn (CovFrame cols rows)) b v1 = (w1, Ok o1) ->
  exists w2 o2, ef_init (MIn (MuSeries (mu_plus c s))) (CIn (CovFrame cols rows)) b v2 = (w2, Ok o2).
Proof. exact shift_accepted. Qed.
Print Assumptions c138_accepted.
(** the calls succeed at both levels or at neither *)
Theorem c138_min_volatility_both : forall c s cols rows b v1 v2 w1 w2 o1 o2, shifted c s cols rows b v1 v2 w1 w2 o1 o2 ->
  forall sv1 sv2, exact_solver sv1 -> exact_solver sv2 -> complete_solver sv1 -> complete_solver sv2 ->
  (succeeds (min_volatility sv1) w1 o1 <-> succeeds (min_volatility sv2) w2 o2).
Proof. exact shift_both_min_volatility. Qed.
Print Assumptions c138_min_volatility_both.
Theorem c138_utility_both : forall c s cols rows b v1 v2 w1 w2 o1 o2, shifted c s cols rows b v1 v2 w1 w2 o1 o2 ->
  forall sv1 sv2, exact_solver sv1 -> exact_solver sv2 -> complete_solver sv1 -> complete_solver sv2 ->
  forall ra mn, (succeeds (max_quadratic_utility sv1 ra mn) w1 o1 <-> succeeds (max_quadratic_utility sv2 ra mn) w2 o2).
Proof. exact shift_both_utility. Qed.
Print Assumptions c138_utility_both.
Theorem c138_risk_both : forall c s cols rows b v1 v2 w1 w2 o1 o2, shifted c s cols rows b v1 v2 w1 w2 o1 o2 ->
  forall sv1 sv2, exact_solver sv1 -> exact_solver sv2 -> complete_solver sv1 -> complete_solver sv2 ->
  forall pinv t mn, (succeeds (efficient_risk sv1 pinv (NFloat t) mn) w1 o1 <-> succeeds (efficient_risk sv2 pinv (NFloat t) mn) w2 o2).
Proof. exact shift_both_risk. Qed.
Print Assumptions c138_risk_both.
Theorem c138_return_both : forall c s cols rows b v1 v2 w1 w2 o1 o2, shifted c s cols rows b v1 v2 w1 w2 o1 o2 ->
  forall sv1 sv2, exact_solver sv1 -> exact_solver sv2 -> complete_solver sv1 -> complete_solver sv2 ->
  forall t, (succeeds (efficient_return sv1 (NFloat t) false) w1 o1 <-> succeeds (efficient_return sv2 (NFloat (t + c)) false) w2 o2).
Proof. exact shift_both_return. Qed.
Print Assumptions c138_return_both.
Theorem c138_max_sharpe_both : forall c s cols rows b v1 v2 w1 w2 o1 o2, shifted c s cols rows b v1 v2 w1 w2 o1 o2 ->
  forall sv1 sv2, exact_solver sv1 -> exact_solver sv2 -> complete_solver sv1 -> complete_solver sv2 ->
  forall rf, psd (length s) rows -> Forall (fun c => c <> None) (e_lb o1) -> Forall (fun c => c <> None) (e_ub o1) ->
  (succeeds (max_sharpe sv1 (NFloat rf)) w1 o1 <-> succeeds (max_sharpe sv2 (NFloat (rf + c))) w2 o2).
Proof. exact shift_both_sharpe. Qed.
Print Assumptions c138_max_sharpe_both.
(** the weights found at either level are best for the problem at the first *)
Theorem c138_min_volatility : forall c s cols rows b v1 v2 w1 w2 o1 o2, shifted c s cols rows b v1 v2 w1 w2 o1 o2 ->
  forall sv1 sv2 x1 x2 y1 y2 d1 d2, NoDup (map fst s) -> exact_solver sv1 -> exact_solver sv2 ->
  min_volatility sv1 w1 o1 = (x1, y1, Ok d1) -> min_volatility sv2 w2 o2 = (x2, y2, Ok d2) ->
  answers (map fst s) (e_lb o1) (e_ub o1) 1 (fun _ => True) (qform rows) d1 /\
  answers (map fst s) (e_lb o1) (e_ub o1) 1 (fun _ => True) (qform rows) d2.
Proof. exact shift_min_volatility. Qed.
Print Assumptions c138_min_volatility.
Theorem c138_utility : forall c s cols rows b v1 v2 w1 w2 o1 o2, shifted c s cols rows b v1 v2 w1 w2 o1 o2 ->
  forall sv1 sv2 x1 x2 y1 y2 d1 d2, NoDup (map fst s) -> exact_solver sv1 -> exact_solver sv2 ->
  forall ra mn, max_quadratic_utility sv1 ra mn w1 o1 = (x1, y1, Ok d1) -> max_quadratic_utility sv2 ra mn w2 o2 = (x2, y2, Ok d2) ->
  exists lb ub, bounds_in_force mn o1 lb ub /\
  answers (map fst s) lb ub (if mn then 0 else 1) (fun _ => True) (fun x => - (inner (map snd s) x - ra / 2 * qform rows x)) d1 /\
  answers (map fst s) lb ub (if mn then 0 else 1) (fun _ => True) (fun x => - (inner (map snd s) x - ra / 2 * qform rows x)) d2.
Proof. exact shift_utility. Qed.
Print Assumptions c138_utility.
Theorem c138_risk : forall c s cols rows b v1 v2 w1 w2 o1 o2, shifted c s cols rows b v1 v2 w1 w2 o1 o2 ->
  forall sv1 sv2 x1 x2 y1 y2 d1 d2, NoDup (map fst s) -> exact_solver sv1 -> exact_solver sv2 ->
  forall pinv1 pinv2 t mn, efficient_risk sv1 pinv1 t mn w1 o1 = (x1, y1, Ok d1) -> efficient_risk sv2 pinv2 t mn w2 o2 = (x2, y2, Ok d2) ->
  exists lb ub tv, target_of t = Some tv /\ bounds_in_force mn o1 lb ub /\
  answers (map fst s) lb ub (if mn then 0 else 1) (fun x => qform rows x <= tv * tv) (fun x => - inner (map snd s) x) d1 /\
  answers (map fst s) lb ub (if mn then 0 else 1) (fun x => qform rows x <= tv * tv) (fun x => - inner (map snd s) x) d2.
Proof. exact shift_risk. Qed.
Print Assumptions c138_risk.
Theorem c138_return : forall c s cols rows b v1 v2 w1 w2 o1 o2, shifted c s cols rows b v1 v2 w1 w2 o1 o2 ->
  forall sv1 sv2 x1 x2 y1 y2 d1 d2, NoDup (map fst s) -> exact_solver sv1 -> exact_solver sv2 ->
  forall t mn, efficient_return sv1 (NFloat t) mn w1 o1 = (x1, y1, Ok d1) ->
  efficient_return sv2 (NFloat (target_plus c t mn)) mn w2 o2 = (x2, y2, Ok d2) ->
  exists lb ub, bounds_in_force mn o1 lb ub /\
  answers (map fst s) lb ub (if mn then 0 else 1) (fun x => t <= inner (map snd s) x) (qform rows) d1 /\
  answers (map fst s) lb ub (if mn then 0 else 1) (fun x => t <= inner (map snd s) x) (qform rows) d2.
Proof. exact shift_return. Qed.
Print Assumptions c138_return.
Theorem c138_max_sharpe : forall c s cols rows b v1 v2 w1 w2 o1 o2, shifted c s cols rows b v1 v2 w1 w2 o1 o2 ->
  forall sv1 sv2 x1 x2 y1 y2 d1 d2, NoDup (map fst s) -> exact_solver sv1 -> exact_solver sv2 ->
  forall rf, psd (length s) rows -> max_sharpe sv1 (NFloat rf) w1 o1 = (x1, y1, Ok d1) -> max_sharpe sv2 (NFloat (rf + c)) w2 o2 = (x2, y2, Ok d2) ->
  ratio_answers (map fst s) (e_lb o1) (e_ub o1) (map snd s) rows rf d1 /\ ratio_answers (map fst s) (e_lb o1) (e_ub o1) (map snd s) rows rf d2.
Proof. exact shift_sharpe. Qed.
Print Assumptions c138_max_sharpe.
(** with a positive definite matrix the weights are the same at both levels *)
Theorem c138_same_min_volatility : forall c s cols rows b v1 v2 w1 w2 o1 o2, shifted c s cols rows b v1 v2 w1 w2 o1 o2 ->
  forall sv1 sv2 x1 x2 y1 y2 d1 d2, NoDup (map fst s) -> exact_solver sv1 -> exact_solver sv2 -> pos_def (length s) rows ->
  min_volatility sv1 w1 o1 = (x1, y1, Ok d1) -> min_volatility sv2 w2 o2 = (x2, y2, Ok d2) -> agree d1 d2.
Proof. exact shift_same_min_volatility. Qed.
Print Assumptions c138_same_min_volatility.
Theorem c138_same_utility : forall c s cols rows b v1 v2 w1 w2 o1 o2, shifted c s cols rows b v1 v2 w1 w2 o1 o2 ->
  forall sv1 sv2 x1 x2 y1 y2 d1 d2, NoDup (map fst s) -> exact_solver sv1 -> exact_solver sv2 -> pos_def (length s) rows ->
  forall ra mn, 0 < ra -> max_quadratic_utility sv1 ra mn w1 o1 = (x1, y1, Ok d1) ->
  max_quadratic_utility sv2 ra mn w2 o2 = (x2, y2, Ok d2) -> agree d1 d2.
Proof. exact shift_same_utility. Qed.
Print Assumptions c138_same_utility.
Theorem c138_same_return : forall c s cols rows b v1 v2 w1 w2 o1 o2, shifted c s cols rows b v1 v2 w1 w2 o1 o2 ->
  forall sv1 sv2 x1 x2 y1 y2 d1 d2, NoDup (map fst s) -> exact_solver sv1 -> exact_solver sv2 -> pos_def (length s) rows ->
  forall t mn, efficient_return sv1 (NFloat t) mn w1 o1 = (x1, y1, Ok d1) ->
  efficient_return sv2 (NFloat (target_plus c t mn)) mn w2 o2 = (x2, y2, Ok d2) -> agree d1 d2.
Proof. exact shift_same_return. Qed.
Print Assumptions c138_same_return.
Theorem c138_same_max_sharpe : forall c s cols rows b v1 v2 w1 w2 o1 o2, shifted c s cols rows b v1 v2 w1 w2 o1 o2 ->
  forall sv1 sv2 x1 x2 y1 y2 d1 d2, NoDup (map fst s) -> exact_solver sv1 -> exact_solver sv2 -> pos_def (length s) rows ->
  forall rf, max_sharpe sv1 (NFloat rf) w1 o1 = (x1, y1, Ok d1) -> max_sharpe sv2 (NFloat (rf + c)) w2 o2 = (x2, y2, Ok d2) -> agree d1 d2.
Proof. exact shift_same_sharpe. Qed.
Print Assumptions c138_same_max_sharpe.
(** a market neutral portfolio has no share in the level, and raising it loses no target *)
Theorem c138_return_neutral_up : forall c s cols rows b v1 v2 w1 w2 o1 o2, shifted c s cols rows b v1 v2 w1 w2 o1 o2 ->
  forall sv1 sv2, exact_solver sv1 -> exact_solver sv2 -> complete_solver sv1 -> complete_solver sv2 ->
  forall t, 0 <= c -> succeeds (efficient_return sv1 (NFloat t) true) w1 o1 -> succeeds (efficient_return sv2 (NFloat t) true) w2 o2.
Proof. exact shift_neutral_up. Qed.
Print Assumptions c138_return_neutral_up.
(** but lowering it can: the pre-check compares the target with the best fully invested return *)
Theorem c138_return_neutral_refuted : exists c s cols rows b v1 v2 w1 w2 o1 o2 t, shifted c s cols rows b v1 v2 w1 w2 o1 o2 /\ pos_def (length s) rows /\
  forall sv1 sv2, exact_solver sv1 -> complete_solver sv1 -> exact_solver sv2 -> complete_solver sv2 ->
  succeeds (efficient_return sv1 (NFloat t) true) w1 o1 /\ ~ succeeds (efficient_return sv2 (NFloat t) true) w2 o2.
Proof. exact neutral_target_level. Qed.
Print Assumptions c138_return_neutral_refuted.
