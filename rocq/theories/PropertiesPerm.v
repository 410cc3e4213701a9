(** * Property theorems: the order of the assets (C41) *)
From Coq Require Import ZArith String List Bool Reals.
From Verif Require Import Num Py SBL MBase MConvex MEF SLin SBase SConvex SPerm PPerm PPerm2 PPerm3 PPerm4.
Import ListNotations.
Local Open Scope R_scope.

(** best portfolios of the re-ordered problem are the re-ordered best portfolios *)
Theorem c41_best_portfolios_reordered : forall n p lb ub sum ok1 ok2 cost1 cost2, ordering n p -> length lb = n -> length ub = n ->
  (forall x, length x = n -> (ok1 x <-> ok2 (pick 0 p x))) -> (forall x, length x = n -> cost2 (pick 0 p x) = cost1 x) ->
  forall x, length x = n ->
  (chosen n lb ub sum ok1 cost1 x <-> chosen n (pick None p lb) (pick None p ub) sum ok2 cost2 (pick 0 p x)).
Proof. exact chosen_pick. Qed.
Print Assumptions c41_best_portfolios_reordered.

(** re-ordered data are accepted too *)
Theorem c41_reordered_accepted : forall p s cols rows b b' v1 v2 w1 o1, ordering (length s) p -> square (length s) rows ->
  bounds_reordered (length s) p b b' -> ef_init (MIn (MuSeries s)) (CIn (CovFrame cols rows)) b v1 = (w1, Ok o1) ->
  exists w2 o2, ef_init (MIn (MuSeries (mu_reordered p s))) (CIn (CovFrame (pick (LInt 0) p cols) (cov_reordered p rows))) b' v2 = (w2, Ok o2).
Proof. exact reordered_accepted. Qed.
Print Assumptions c41_reordered_accepted.

(** whether the call succeeds does not depend on the order *)
Theorem c41_min_volatility_both : forall p s cols rows b b' v1 v2 w1 w2 o1 o2, twins p s cols rows b b' v1 v2 w1 w2 o1 o2 ->
  forall sv1 sv2, exact_solver sv1 -> exact_solver sv2 -> complete_solver sv1 -> complete_solver sv2 ->
  (succeeds (min_volatility sv1) w1 o1 <-> succeeds (min_volatility sv2) w2 o2).
Proof. exact both_min_volatility. Qed.
Print Assumptions c41_min_volatility_both.
Theorem c41_utility_both : forall p s cols rows b b' v1 v2 w1 w2 o1 o2, twins p s cols rows b b' v1 v2 w1 w2 o1 o2 ->
  forall sv1 sv2, exact_solver sv1 -> exact_solver sv2 -> complete_solver sv1 -> complete_solver sv2 ->
  forall ra mn, succeeds (max_quadratic_utility sv1 ra mn) w1 o1 <-> succeeds (max_quadratic_utility sv2 ra mn) w2 o2.
Proof. exact both_utility. Qed.
Print Assumptions c41_utility_both.
Theorem c41_return_both : forall p s cols rows b b' v1 v2 w1 w2 o1 o2, twins p s cols rows b b' v1 v2 w1 w2 o1 o2 ->
  forall sv1 sv2, exact_solver sv1 -> exact_solver sv2 -> complete_solver sv1 -> complete_solver sv2 ->
  forall tg mn, succeeds (efficient_return sv1 tg mn) w1 o1 <-> succeeds (efficient_return sv2 tg mn) w2 o2.
Proof. exact both_return. Qed.
Print Assumptions c41_return_both.
Theorem c41_risk_both : forall p s cols rows b b' v1 v2 w1 w2 o1 o2, twins p s cols rows b b' v1 v2 w1 w2 o1 o2 ->
  forall sv1 sv2, exact_solver sv1 -> exact_solver sv2 -> complete_solver sv1 -> complete_solver sv2 ->
  forall pinv1 pinv2 tg mn, inverse_reordered p (length s) rows pinv1 pinv2 ->
  (succeeds (efficient_risk sv1 pinv1 tg mn) w1 o1 <-> succeeds (efficient_risk sv2 pinv2 tg mn) w2 o2).
Proof. exact both_risk. Qed.
Print Assumptions c41_risk_both.
Theorem c41_max_sharpe_both : forall p s cols rows b b' v1 v2 w1 w2 o1 o2, twins p s cols rows b b' v1 v2 w1 w2 o1 o2 ->
  forall sv1 sv2, exact_solver sv1 -> exact_solver sv2 -> complete_solver sv1 -> complete_solver sv2 ->
  forall rf, psd (length s) rows -> Forall (fun c => c <> None) (e_lb o1) -> Forall (fun c => c <> None) (e_ub o1) ->
  (succeeds (max_sharpe sv1 rf) w1 o1 <-> succeeds (max_sharpe sv2 rf) w2 o2).
Proof. exact both_sharpe. Qed.
Print Assumptions c41_max_sharpe_both.

(** in both orders the weights found, read by ticker, are best for the one labelled problem *)
Theorem c41_min_volatility : forall p s cols rows b b' v1 v2 w1 w2 o1 o2, twins p s cols rows b b' v1 v2 w1 w2 o1 o2 ->
  forall sv1 sv2 x1 x2 y1 y2 d1 d2, NoDup (map fst s) -> exact_solver sv1 -> exact_solver sv2 ->
  min_volatility sv1 w1 o1 = (x1, y1, Ok d1) -> min_volatility sv2 w2 o2 = (x2, y2, Ok d2) ->
  answers (map fst s) (e_lb o1) (e_ub o1) 1 (fun _ => True) (qform rows) d1 /\
  answers (map fst s) (e_lb o1) (e_ub o1) 1 (fun _ => True) (qform rows) d2.
Proof. exact twins_min_volatility. Qed.
Print Assumptions c41_min_volatility.
Theorem c41_utility : forall p s cols rows b b' v1 v2 w1 w2 o1 o2, twins p s cols rows b b' v1 v2 w1 w2 o1 o2 ->
  forall sv1 sv2 ra mn x1 x2 y1 y2 d1 d2, NoDup (map fst s) -> exact_solver sv1 -> exact_solver sv2 ->
  max_quadratic_utility sv1 ra mn w1 o1 = (x1, y1, Ok d1) -> max_quadratic_utility sv2 ra mn w2 o2 = (x2, y2, Ok d2) ->
  0 < ra /\ exists lb ub, bounds_in_force mn o1 lb ub /\
  answers (map fst s) lb ub (if mn then 0 else 1) (fun _ => True) (fun x => - (inner (map snd s) x - ra / 2 * qform rows x)) d1 /\
  answers (map fst s) lb ub (if mn then 0 else 1) (fun _ => True) (fun x => - (inner (map snd s) x - ra / 2 * qform rows x)) d2.
Proof. exact twins_utility. Qed.
Print Assumptions c41_utility.
Theorem c41_return : forall p s cols rows b b' v1 v2 w1 w2 o1 o2, twins p s cols rows b b' v1 v2 w1 w2 o1 o2 ->
  forall sv1 sv2 tg mn x1 x2 y1 y2 d1 d2, NoDup (map fst s) -> exact_solver sv1 -> exact_solver sv2 ->
  efficient_return sv1 tg mn w1 o1 = (x1, y1, Ok d1) -> efficient_return sv2 tg mn w2 o2 = (x2, y2, Ok d2) ->
  exists t lb ub, tg = NFloat t /\ bounds_in_force mn o1 lb ub /\
  answers (map fst s) lb ub (if mn then 0 else 1) (fun x => t <= inner (map snd s) x) (qform rows) d1 /\
  answers (map fst s) lb ub (if mn then 0 else 1) (fun x => t <= inner (map snd s) x) (qform rows) d2.
Proof. exact twins_return. Qed.
Print Assumptions c41_return.
Theorem c41_risk : forall p s cols rows b b' v1 v2 w1 w2 o1 o2, twins p s cols rows b b' v1 v2 w1 w2 o1 o2 ->
  forall sv1 sv2 pinv1 pinv2 tg mn x1 x2 y1 y2 d1 d2, NoDup (map fst s) -> exact_solver sv1 -> exact_solver sv2 ->
  efficient_risk sv1 pinv1 tg mn w1 o1 = (x1, y1, Ok d1) -> efficient_risk sv2 pinv2 tg mn w2 o2 = (x2, y2, Ok d2) ->
  exists t lb ub, target_of tg = Some t /\ bounds_in_force mn o1 lb ub /\
  answers (map fst s) lb ub (if mn then 0 else 1) (fun x => qform rows x <= t * t) (fun x => - inner (map snd s) x) d1 /\
  answers (map fst s) lb ub (if mn then 0 else 1) (fun x => qform rows x <= t * t) (fun x => - inner (map snd s) x) d2.
Proof. exact twins_risk. Qed.
Print Assumptions c41_risk.
Theorem c41_max_sharpe : forall p s cols rows b b' v1 v2 w1 w2 o1 o2, twins p s cols rows b b' v1 v2 w1 w2 o1 o2 -> NoDup (map fst s) ->
  forall sv1 sv2 rf x1 x2 y1 y2 d1 d2, psd (length s) rows -> exact_solver sv1 -> exact_solver sv2 ->
  max_sharpe sv1 rf w1 o1 = (x1, y1, Ok d1) -> max_sharpe sv2 rf w2 o2 = (x2, y2, Ok d2) ->
  exists r, target_of rf = Some r /\
  ratio_answers (map fst s) (e_lb o1) (e_ub o1) (map snd s) rows r d1 /\
  ratio_answers (map fst s) (e_lb o1) (e_ub o1) (map snd s) rows r d2.
Proof. exact twins_sharpe. Qed.
Print Assumptions c41_max_sharpe.

(** with a positive definite covariance matrix every ticker gets the same weight in both orders *)
Theorem c41_same_min_volatility : forall p s cols rows b b' v1 v2 w1 w2 o1 o2, twins p s cols rows b b' v1 v2 w1 w2 o1 o2 ->
  NoDup (map fst s) -> pos_def (length s) rows ->
  forall sv1 sv2 x1 x2 y1 y2 d1 d2, exact_solver sv1 -> exact_solver sv2 ->
  min_volatility sv1 w1 o1 = (x1, y1, Ok d1) -> min_volatility sv2 w2 o2 = (x2, y2, Ok d2) -> agree d1 d2.
Proof. exact same_min_volatility. Qed.
Print Assumptions c41_same_min_volatility.
Theorem c41_same_utility : forall p s cols rows b b' v1 v2 w1 w2 o1 o2, twins p s cols rows b b' v1 v2 w1 w2 o1 o2 ->
  NoDup (map fst s) -> pos_def (length s) rows ->
  forall sv1 sv2 ra mn x1 x2 y1 y2 d1 d2, exact_solver sv1 -> exact_solver sv2 ->
  max_quadratic_utility sv1 ra mn w1 o1 = (x1, y1, Ok d1) -> max_quadratic_utility sv2 ra mn w2 o2 = (x2, y2, Ok d2) -> agree d1 d2.
Proof. exact same_utility. Qed.
Print Assumptions c41_same_utility.
Theorem c41_same_return : forall p s cols rows b b' v1 v2 w1 w2 o1 o2, twins p s cols rows b b' v1 v2 w1 w2 o1 o2 ->
  NoDup (map fst s) -> pos_def (length s) rows ->
  forall sv1 sv2 tg mn x1 x2 y1 y2 d1 d2, exact_solver sv1 -> exact_solver sv2 ->
  efficient_return sv1 tg mn w1 o1 = (x1, y1, Ok d1) -> efficient_return sv2 tg mn w2 o2 = (x2, y2, Ok d2) -> agree d1 d2.
Proof. exact same_return. Qed.
Print Assumptions c41_same_return.
Theorem c41_same_max_sharpe : forall p s cols rows b b' v1 v2 w1 w2 o1 o2, twins p s cols rows b b' v1 v2 w1 w2 o1 o2 -> NoDup (map fst s) ->
  forall sv1 sv2 rf x1 x2 y1 y2 d1 d2, pos_def (length s) rows -> exact_solver sv1 -> exact_solver sv2 ->
  max_sharpe sv1 rf w1 o1 = (x1, y1, Ok d1) -> max_sharpe sv2 rf w2 o2 = (x2, y2, Ok d2) -> agree d1 d2.
Proof. exact same_sharpe. Qed.
Print Assumptions c41_same_max_sharpe.

(** the covariances of A and B are the same, label by label, in both frames, yet asset A gets 3/4 with
    one frame and 1/4 with the other, and nothing is reported *)
Theorem c41_mismatch : forall sv, exact_solver sv -> complete_solver sv ->
  exists w o1 o2 x1 y1 d1 x2 y2 d2,
    ef_init (MIn (MuSeries [(LStr "A", 1/5); (LStr "B", 1/10)])) (CIn (CovFrame [LStr "A"; LStr "B"] [[1; 0]; [0; 3]]))
      (BPair (Some 0) (Some 1)) (mkWorld [] (fun _ => None) [] 0) = (w, Ok o1) /\
    ef_init (MIn (MuSeries [(LStr "A", 1/5); (LStr "B", 1/10)])) (CIn (CovFrame [LStr "B"; LStr "A"] [[3; 0]; [0; 1]]))
      (BPair (Some 0) (Some 1)) (mkWorld [] (fun _ => None) [] 0) = (w, Ok o2) /\
    min_volatility sv w o1 = (x1, y1, Ok d1) /\ min_volatility sv w o2 = (x2, y2, Ok d2) /\
    dget (LStr "A") d1 = Some (3/4) /\ dget (LStr "A") d2 = Some (1/4).
Proof. exact mismatch_witness. Qed.
Print Assumptions c41_mismatch.
(** the labels of the covariance frame have no influence on an optimizer whose expected returns are labelled *)
Theorem c41_labels_ignored : forall s cols cols' rows b w,
  ef_init (MIn (MuSeries s)) (CIn (CovFrame cols rows)) b w = ef_init (MIn (MuSeries s)) (CIn (CovFrame cols' rows)) b w.
Proof. exact labels_ignored. Qed.
Print Assumptions c41_labels_ignored.
