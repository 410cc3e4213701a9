(** * Property theorems: an asset listed twice (C141) *)
From Coq Require Import ZArith String List Bool Reals.
From Verif Require Import Num Py MBase MConvex MEF MDown SLin SBase SConvex SPerm SUnits SDown SClone MFrame MHRP SHRP PClone PClone2 PCloneW.
Import ListNotations.
Local Open Scope R_scope.

Theorem c141_accepted : forall t i s cols cols' rows v1 v2 w1 o1, (i < length s)%nat -> square (length s) rows ->
  ef_init (MIn (MuSeries s)) (CIn (CovFrame cols rows)) longs v1 = (w1, Ok o1) ->
  exists w2 o2, ef_init (MIn (MuSeries (mu_clone t i s))) (CIn (CovFrame cols' (cov_clone i rows))) longs v2 = (w2, Ok o2).
Proof. exact clone_accepted. Qed.
Print Assumptions c141_accepted.
Theorem c141_min_volatility : forall t i s cols cols' rows v1 v2 w1 w2 o1 o2, ef_clones t i s cols cols' rows v1 v2 w1 w2 o1 o2 ->
  forall sv x2 y2 d2, NoDup (map fst (mu_clone t i s)) -> exact_solver sv -> min_volatility sv w2 o2 = (x2, y2, Ok d2) ->
    merged_answers (map fst (mu_clone t i s)) i (chosen (length s) (zeros_to (length s)) (ones_to (length s)) 1 (fun _ => True) (qform rows)) d2.
Proof. exact clone_min_volatility. Qed.
Print Assumptions c141_min_volatility.
Theorem c141_quadratic_utility : forall t i s cols cols' rows v1 v2 w1 w2 o1 o2, ef_clones t i s cols cols' rows v1 v2 w1 w2 o1 o2 ->
  forall sv x2 y2 d2, NoDup (map fst (mu_clone t i s)) -> exact_solver sv -> forall ra, max_quadratic_utility sv ra false w2 o2 = (x2, y2, Ok d2) ->
    merged_answers (map fst (mu_clone t i s)) i (chosen (length s) (zeros_to (length s)) (ones_to (length s)) 1 (fun _ => True) (fun x => - (inner (map snd s) x - ra / 2 * qform rows x))) d2.
Proof. exact clone_utility. Qed.
Print Assumptions c141_quadratic_utility.
Theorem c141_efficient_return : forall t i s cols cols' rows v1 v2 w1 w2 o1 o2, ef_clones t i s cols cols' rows v1 v2 w1 w2 o1 o2 ->
  forall sv x2 y2 d2, NoDup (map fst (mu_clone t i s)) -> exact_solver sv -> forall tg, efficient_return sv (NFloat tg) false w2 o2 = (x2, y2, Ok d2) ->
    merged_answers (map fst (mu_clone t i s)) i (chosen (length s) (zeros_to (length s)) (ones_to (length s)) 1 (fun x => tg <= inner (map snd s) x) (qform rows)) d2.
Proof. exact clone_return. Qed.
Print Assumptions c141_efficient_return.
Theorem c141_efficient_risk : forall t i s cols cols' rows v1 v2 w1 w2 o1 o2, ef_clones t i s cols cols' rows v1 v2 w1 w2 o1 o2 ->
  forall sv x2 y2 d2, NoDup (map fst (mu_clone t i s)) -> exact_solver sv -> forall pinv tg, efficient_risk sv pinv (NFloat tg) false w2 o2 = (x2, y2, Ok d2) ->
    merged_answers (map fst (mu_clone t i s)) i (chosen (length s) (zeros_to (length s)) (ones_to (length s)) 1 (fun x => qform rows x <= tg * tg) (fun x => - inner (map snd s) x)) d2.
Proof. exact clone_risk. Qed.
Print Assumptions c141_efficient_risk.
Theorem c141_max_sharpe : forall t i s cols cols' rows v1 v2 w1 w2 o1 o2, ef_clones t i s cols cols' rows v1 v2 w1 w2 o1 o2 ->
  forall sv x2 y2 d2, NoDup (map fst (mu_clone t i s)) -> exact_solver sv -> forall rf, psd (length s) rows -> max_sharpe sv (NFloat rf) w2 o2 = (x2, y2, Ok d2) ->
    merged_answers (map fst (mu_clone t i s)) i (best_ratio (length s) (zeros_to (length s)) (ones_to (length s)) (map snd s) rows rf) d2.
Proof. exact clone_sharpe. Qed.
Print Assumptions c141_max_sharpe.
Theorem c141_min_volatility_both : forall t i s cols cols' rows v1 v2 w1 w2 o1 o2, ef_clones t i s cols cols' rows v1 v2 w1 w2 o1 o2 ->
  forall sv1 sv2, exact_solver sv1 -> exact_solver sv2 -> complete_solver sv1 -> complete_solver sv2 -> (succeeds (min_volatility sv1) w1 o1 <-> succeeds (min_volatility sv2) w2 o2).
Proof. exact clone_both_min_volatility. Qed.
Print Assumptions c141_min_volatility_both.
Theorem c141_quadratic_utility_both : forall t i s cols cols' rows v1 v2 w1 w2 o1 o2, ef_clones t i s cols cols' rows v1 v2 w1 w2 o1 o2 ->
  forall sv1 sv2, exact_solver sv1 -> exact_solver sv2 -> complete_solver sv1 -> complete_solver sv2 -> forall ra, (succeeds (max_quadratic_utility sv1 ra false) w1 o1 <-> succeeds (max_quadratic_utility sv2 ra false) w2 o2).
Proof. exact clone_both_utility. Qed.
Print Assumptions c141_quadratic_utility_both.
Theorem c141_efficient_return_both : forall t i s cols cols' rows v1 v2 w1 w2 o1 o2, ef_clones t i s cols cols' rows v1 v2 w1 w2 o1 o2 ->
  forall sv1 sv2, exact_solver sv1 -> exact_solver sv2 -> complete_solver sv1 -> complete_solver sv2 -> forall tg, (succeeds (efficient_return sv1 (NFloat tg) false) w1 o1 <-> succeeds (efficient_return sv2 (NFloat tg) false) w2 o2).
Proof. exact clone_both_return. Qed.
Print Assumptions c141_efficient_return_both.
Theorem c141_max_sharpe_both : forall t i s cols cols' rows v1 v2 w1 w2 o1 o2, ef_clones t i s cols cols' rows v1 v2 w1 w2 o1 o2 ->
  forall sv1 sv2, exact_solver sv1 -> exact_solver sv2 -> complete_solver sv1 -> complete_solver sv2 -> forall rf, psd (length s) rows -> (succeeds (max_sharpe sv1 (NFloat rf)) w1 o1 <-> succeeds (max_sharpe sv2 (NFloat rf)) w2 o2).
Proof. exact clone_both_sharpe. Qed.
Print Assumptions c141_max_sharpe_both.
Theorem c141_hrp_refuted : exists (cov : label -> label -> R) (a b c : label) v w, NoDup [c; a; b] /\ (forall t, cov c t = cov a t /\ cov t c = cov t a) /\
  raw_hrp_allocation (labelled [a; b] cov) [a; b] = Ok v /\ raw_hrp_allocation (labelled [c; a; b] cov) [c; a; b] = Ok w /\
  dget b v = Some (1/2) /\ dget b w = Some (1/3).
Proof. exact hrp_clone_refuted. Qed.
Print Assumptions c141_hrp_refuted.
Theorem c141_semivariance_accepted : forall t i s rows freq bench v1 v2 w1 o1 d1, (i < length s)%nat -> semi_init (MIn (MuSeries s)) (RTable (length s) rows) freq bench longs v1 = (w1, Ok (o1, d1)) ->
  exists w2 o2 d2, semi_init (MIn (MuSeries (mu_clone t i s))) (RTable (S (length s)) (rows_clone i rows)) freq bench longs v2 = (w2, Ok (o2, d2)).
Proof. exact semi_clone_accepted. Qed.
Print Assumptions c141_semivariance_accepted.
Theorem c141_cvar_accepted : forall t i s rows beta v1 v2 w1 o1 d1, (i < length s)%nat -> cvar_init (MIn (MuSeries s)) (RTable (length s) rows) beta longs v1 = (w1, Ok (o1, d1)) ->
  exists w2 o2 d2, cvar_init (MIn (MuSeries (mu_clone t i s))) (RTable (S (length s)) (rows_clone i rows)) beta longs v2 = (w2, Ok (o2, d2)).
Proof. exact cvar_clone_accepted. Qed.
Print Assumptions c141_cvar_accepted.
Theorem c141_cdar_accepted : forall t i s rows beta v1 v2 w1 o1 d1, (i < length s)%nat -> cdar_init (MIn (MuSeries s)) (RTable (length s) rows) beta longs v1 = (w1, Ok (o1, d1)) ->
  exists w2 o2 d2, cdar_init (MIn (MuSeries (mu_clone t i s))) (RTable (S (length s)) (rows_clone i rows)) beta longs v2 = (w2, Ok (o2, d2)).
Proof. exact cdar_clone_accepted. Qed.
Print Assumptions c141_cdar_accepted.
Theorem c141_min_semivariance : forall t i s rows freq bench v1 v2 w1 w2 o1 o2 d1 d2, semi_clones t i s rows freq bench v1 v2 w1 w2 o1 o2 d1 d2 ->
  forall sv, exact_solver sv -> forall x y r, NoDup (map fst (mu_clone t i s)) -> min_semivariance sv d2 false w2 o2 = (x, y, Ok r) ->
    merged_answers (map fst (mu_clone t i s)) i (chosen (length s) (zeros_to (length s)) (ones_to (length s)) 1 (fun x => True) (fun x => semivariance (dropna rows) bench x)) r.
Proof. exact min_semivariance_clone. Qed.
Print Assumptions c141_min_semivariance.
Theorem c141_min_semivariance_both : forall t i s rows freq bench v1 v2 w1 w2 o1 o2 d1 d2, semi_clones t i s rows freq bench v1 v2 w1 w2 o1 o2 d1 d2 ->
  forall sv1 sv2, exact_solver sv1 -> exact_solver sv2 -> complete_solver sv1 -> complete_solver sv2 -> (succeeds (min_semivariance sv1 d1 false) w1 o1 <-> succeeds (min_semivariance sv2 d2 false) w2 o2).
Proof. exact min_semivariance_clone_both. Qed.
Print Assumptions c141_min_semivariance_both.
Theorem c141_semivariance_risk : forall t i s rows freq bench v1 v2 w1 w2 o1 o2 d1 d2, semi_clones t i s rows freq bench v1 v2 w1 w2 o1 o2 d1 d2 ->
  forall sv, exact_solver sv -> forall tg, 0 <= freq -> forall x y r, NoDup (map fst (mu_clone t i s)) -> semi_efficient_risk sv d2 tg false w2 o2 = (x, y, Ok r) ->
    merged_answers (map fst (mu_clone t i s)) i (chosen (length s) (zeros_to (length s)) (ones_to (length s)) 1 (fun x => freq * semivariance (dropna rows) bench x <= tg * tg) (fun x => - inner (map snd s) x)) r.
Proof. exact semivariance_risk_clone. Qed.
Print Assumptions c141_semivariance_risk.
Theorem c141_semivariance_risk_both : forall t i s rows freq bench v1 v2 w1 w2 o1 o2 d1 d2, semi_clones t i s rows freq bench v1 v2 w1 w2 o1 o2 d1 d2 ->
  forall sv1 sv2, exact_solver sv1 -> exact_solver sv2 -> complete_solver sv1 -> complete_solver sv2 -> 0 <= freq -> forall tg, (succeeds (semi_efficient_risk sv1 d1 tg false) w1 o1 <-> succeeds (semi_efficient_risk sv2 d2 tg false) w2 o2).
Proof. exact semivariance_risk_clone_both. Qed.
Print Assumptions c141_semivariance_risk_both.
Theorem c141_semivariance_return : forall t i s rows freq bench v1 v2 w1 w2 o1 o2 d1 d2, semi_clones t i s rows freq bench v1 v2 w1 w2 o1 o2 d1 d2 ->
  forall sv, exact_solver sv -> forall tg, forall x y r, NoDup (map fst (mu_clone t i s)) -> semi_efficient_return sv d2 (NFloat tg) false w2 o2 = (x, y, Ok r) ->
    merged_answers (map fst (mu_clone t i s)) i (chosen (length s) (zeros_to (length s)) (ones_to (length s)) 1 (fun x => tg <= inner (map snd s) x) (fun x => semivariance (dropna rows) bench x)) r.
Proof. exact semivariance_return_clone. Qed.
Print Assumptions c141_semivariance_return.
Theorem c141_semivariance_utility : forall t i s rows freq bench v1 v2 w1 w2 o1 o2 d1 d2, semi_clones t i s rows freq bench v1 v2 w1 w2 o1 o2 d1 d2 ->
  forall sv, exact_solver sv -> forall tg, forall x y r, NoDup (map fst (mu_clone t i s)) -> semi_max_quadratic_utility sv d2 tg false w2 o2 = (x, y, Ok r) ->
    merged_answers (map fst (mu_clone t i s)) i (chosen (length s) (zeros_to (length s)) (ones_to (length s)) 1 (fun x => True) (fun x => - inner (map snd s) x / freq + 1 / 2 * tg * semivariance (dropna rows) bench x)) r.
Proof. exact semivariance_utility_clone. Qed.
Print Assumptions c141_semivariance_utility.
Theorem c141_semivariance_utility_both : forall t i s rows freq bench v1 v2 w1 w2 o1 o2 d1 d2, semi_clones t i s rows freq bench v1 v2 w1 w2 o1 o2 d1 d2 ->
  forall sv1 sv2, exact_solver sv1 -> exact_solver sv2 -> complete_solver sv1 -> complete_solver sv2 -> forall tg, (succeeds (semi_max_quadratic_utility sv1 d1 tg false) w1 o1 <-> succeeds (semi_max_quadratic_utility sv2 d2 tg false) w2 o2).
Proof. exact semivariance_utility_clone_both. Qed.
Print Assumptions c141_semivariance_utility_both.
Theorem c141_min_cvar : forall t i s rows beta v1 v2 w1 w2 o1 o2 d1 d2, cvar_clones t i s rows beta v1 v2 w1 w2 o1 o2 d1 d2 ->
  forall sv, exact_solver sv -> forall x y r, NoDup (map fst (mu_clone t i s)) -> min_cvar sv d2 false w2 o2 = (x, y, Ok r) ->
    merged_answers (map fst (mu_clone t i s)) i (chosen (length s) (zeros_to (length s)) (ones_to (length s)) 1 (fun x => True) (fun x => cvar beta (dropna rows) x)) r.
Proof. exact min_cvar_clone. Qed.
Print Assumptions c141_min_cvar.
Theorem c141_min_cvar_both : forall t i s rows beta v1 v2 w1 w2 o1 o2 d1 d2, cvar_clones t i s rows beta v1 v2 w1 w2 o1 o2 d1 d2 ->
  forall sv1 sv2, exact_solver sv1 -> exact_solver sv2 -> complete_solver sv1 -> complete_solver sv2 -> (succeeds (min_cvar sv1 d1 false) w1 o1 <-> succeeds (min_cvar sv2 d2 false) w2 o2).
Proof. exact min_cvar_clone_both. Qed.
Print Assumptions c141_min_cvar_both.
Theorem c141_cvar_risk : forall t i s rows beta v1 v2 w1 w2 o1 o2 d1 d2, cvar_clones t i s rows beta v1 v2 w1 w2 o1 o2 d1 d2 ->
  forall sv, exact_solver sv -> forall tg, forall x y r, NoDup (map fst (mu_clone t i s)) -> cvar_efficient_risk sv d2 tg false w2 o2 = (x, y, Ok r) ->
    merged_answers (map fst (mu_clone t i s)) i (chosen (length s) (zeros_to (length s)) (ones_to (length s)) 1 (fun x => cvar beta (dropna rows) x <= tg) (fun x => - inner (map snd s) x)) r.
Proof. exact cvar_risk_clone. Qed.
Print Assumptions c141_cvar_risk.
Theorem c141_cvar_risk_both : forall t i s rows beta v1 v2 w1 w2 o1 o2 d1 d2, cvar_clones t i s rows beta v1 v2 w1 w2 o1 o2 d1 d2 ->
  forall sv1 sv2, exact_solver sv1 -> exact_solver sv2 -> complete_solver sv1 -> complete_solver sv2 -> forall tg, (succeeds (cvar_efficient_risk sv1 d1 tg false) w1 o1 <-> succeeds (cvar_efficient_risk sv2 d2 tg false) w2 o2).
Proof. exact cvar_risk_clone_both. Qed.
Print Assumptions c141_cvar_risk_both.
Theorem c141_cvar_return : forall t i s rows beta v1 v2 w1 w2 o1 o2 d1 d2, cvar_clones t i s rows beta v1 v2 w1 w2 o1 o2 d1 d2 ->
  forall sv, exact_solver sv -> forall tg, forall x y r, NoDup (map fst (mu_clone t i s)) -> cvar_efficient_return sv d2 tg false w2 o2 = (x, y, Ok r) ->
    merged_answers (map fst (mu_clone t i s)) i (chosen (length s) (zeros_to (length s)) (ones_to (length s)) 1 (fun x => tg <= inner (map snd s) x) (fun x => cvar beta (dropna rows) x)) r.
Proof. exact cvar_return_clone. Qed.
Print Assumptions c141_cvar_return.
Theorem c141_cvar_return_both : forall t i s rows beta v1 v2 w1 w2 o1 o2 d1 d2, cvar_clones t i s rows beta v1 v2 w1 w2 o1 o2 d1 d2 ->
  forall sv1 sv2, exact_solver sv1 -> exact_solver sv2 -> complete_solver sv1 -> complete_solver sv2 -> forall tg, (succeeds (cvar_efficient_return sv1 d1 tg false) w1 o1 <-> succeeds (cvar_efficient_return sv2 d2 tg false) w2 o2).
Proof. exact cvar_return_clone_both. Qed.
Print Assumptions c141_cvar_return_both.
Theorem c141_min_cdar : forall t i s rows beta v1 v2 w1 w2 o1 o2 d1 d2, cdar_clones t i s rows beta v1 v2 w1 w2 o1 o2 d1 d2 ->
  forall sv, exact_solver sv -> forall x y r, NoDup (map fst (mu_clone t i s)) -> min_cdar sv d2 false w2 o2 = (x, y, Ok r) ->
    merged_answers (map fst (mu_clone t i s)) i (chosen (length s) (zeros_to (length s)) (ones_to (length s)) 1 (fun x => True) (fun x => cdar beta (dropna rows) x)) r.
Proof. exact min_cdar_clone. Qed.
Print Assumptions c141_min_cdar.
Theorem c141_min_cdar_both : forall t i s rows beta v1 v2 w1 w2 o1 o2 d1 d2, cdar_clones t i s rows beta v1 v2 w1 w2 o1 o2 d1 d2 ->
  forall sv1 sv2, exact_solver sv1 -> exact_solver sv2 -> complete_solver sv1 -> complete_solver sv2 -> (succeeds (min_cdar sv1 d1 false) w1 o1 <-> succeeds (min_cdar sv2 d2 false) w2 o2).
Proof. exact min_cdar_clone_both. Qed.
Print Assumptions c141_min_cdar_both.
Theorem c141_cdar_risk : forall t i s rows beta v1 v2 w1 w2 o1 o2 d1 d2, cdar_clones t i s rows beta v1 v2 w1 w2 o1 o2 d1 d2 ->
  forall sv, exact_solver sv -> forall tg, forall x y r, NoDup (map fst (mu_clone t i s)) -> cdar_efficient_risk sv d2 tg false w2 o2 = (x, y, Ok r) ->
    merged_answers (map fst (mu_clone t i s)) i (chosen (length s) (zeros_to (length s)) (ones_to (length s)) 1 (fun x => cdar beta (dropna rows) x <= tg) (fun x => - inner (map snd s) x)) r.
Proof. exact cdar_risk_clone. Qed.
Print Assumptions c141_cdar_risk.
Theorem c141_cdar_risk_both : forall t i s rows beta v1 v2 w1 w2 o1 o2 d1 d2, cdar_clones t i s rows beta v1 v2 w1 w2 o1 o2 d1 d2 ->
  forall sv1 sv2, exact_solver sv1 -> exact_solver sv2 -> complete_solver sv1 -> complete_solver sv2 -> forall tg, (succeeds (cdar_efficient_risk sv1 d1 tg false) w1 o1 <-> succeeds (cdar_efficient_risk sv2 d2 tg false) w2 o2).
Proof. exact cdar_risk_clone_both. Qed.
Print Assumptions c141_cdar_risk_both.
Theorem c141_cdar_return : forall t i s rows beta v1 v2 w1 w2 o1 o2 d1 d2, cdar_clones t i s rows beta v1 v2 w1 w2 o1 o2 d1 d2 ->
  forall sv, exact_solver sv -> forall tg, forall x y r, NoDup (map fst (mu_clone t i s)) -> cdar_efficient_return sv d2 tg false w2 o2 = (x, y, Ok r) ->
    merged_answers (map fst (mu_clone t i s)) i (chosen (length s) (zeros_to (length s)) (ones_to (length s)) 1 (fun x => tg <= inner (map snd s) x) (fun x => cdar beta (dropna rows) x)) r.
Proof. exact cdar_return_clone. Qed.
Print Assumptions c141_cdar_return.
Theorem c141_cdar_return_both : forall t i s rows beta v1 v2 w1 w2 o1 o2 d1 d2, cdar_clones t i s rows beta v1 v2 w1 w2 o1 o2 d1 d2 ->
  forall sv1 sv2, exact_solver sv1 -> exact_solver sv2 -> complete_solver sv1 -> complete_solver sv2 -> forall tg, (succeeds (cdar_efficient_return sv1 d1 tg false) w1 o1 <-> succeeds (cdar_efficient_return sv2 d2 tg false) w2 o2).
Proof. exact cdar_return_clone_both. Qed.
Print Assumptions c141_cdar_return_both.
