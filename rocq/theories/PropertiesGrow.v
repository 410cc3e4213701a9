(** * Property theorems: one more asset (C142) *)
From Coq Require Import ZArith String List Bool Reals.
From Verif Require Import Num Py MBase MConvex MEF MDown SLin SBase SConvex SPerm SUnits SDown SExist SGrow PGrow PGrow2 PGrowW.
Import ListNotations.
Local Open Scope R_scope.

Theorem c142_accepted : forall t a v b c lo hi s cols cols' rows v1 v2 w1 o1, length b = length s -> length c = length s -> square (length s) rows ->
  ef_init (MIn (MuSeries s)) (CIn (CovFrame cols rows)) (around lo hi) v1 = (w1, Ok o1) ->
  exists w2 o2, ef_init (MIn (MuSeries (mu_grow t a s))) (CIn (CovFrame cols' (cov_grow v b c rows))) (around lo hi) v2 = (w2, Ok o2).
Proof. exact grow_accepted. Qed.
Print Assumptions c142_accepted.
Theorem c142_min_volatility : forall t a v b c lo hi s cols cols' rows v1 v2 w1 w2 o1 o2, ef_grown t a v b c lo hi s cols cols' rows v1 v2 w1 w2 o1 o2 ->
  forall sv1 sv2 x1 x2 y1 y2 d1 d2, NoDup (t :: map fst s) -> exact_solver sv1 -> exact_solver sv2 -> 
    min_volatility sv1 w1 o1 = (x1, y1, Ok d1) -> min_volatility sv2 w2 o2 = (x2, y2, Ok d2) ->
    improved (map fst s) t (e_lb o1) (e_ub o1) (e_lb o2) (e_ub o2) 1 (fun _ => True) (fun _ => True) (qform rows) (qform (cov_grow v b c rows)) d1 d2.
Proof. exact grow_min_volatility. Qed.
Print Assumptions c142_min_volatility.
Theorem c142_quadratic_utility : forall t a v b c lo hi s cols cols' rows v1 v2 w1 w2 o1 o2, ef_grown t a v b c lo hi s cols cols' rows v1 v2 w1 w2 o1 o2 ->
  forall sv1 sv2 x1 x2 y1 y2 d1 d2, NoDup (t :: map fst s) -> exact_solver sv1 -> exact_solver sv2 -> forall ra mn, 
    max_quadratic_utility sv1 ra mn w1 o1 = (x1, y1, Ok d1) -> max_quadratic_utility sv2 ra mn w2 o2 = (x2, y2, Ok d2) ->
    exists lb ub lb' ub', bounds_in_force mn o1 lb ub /\ bounds_in_force mn o2 lb' ub' /\
    improved (map fst s) t lb ub lb' ub' (if mn then 0 else 1) (fun _ => True) (fun _ => True)
      (fun x => - (inner (map snd s) x - ra / 2 * qform rows x)) (fun x => - (inner (a :: map snd s) x - ra / 2 * qform (cov_grow v b c rows) x)) d1 d2.
Proof. exact grow_utility. Qed.
Print Assumptions c142_quadratic_utility.
Theorem c142_efficient_return : forall t a v b c lo hi s cols cols' rows v1 v2 w1 w2 o1 o2, ef_grown t a v b c lo hi s cols cols' rows v1 v2 w1 w2 o1 o2 ->
  forall sv1 sv2 x1 x2 y1 y2 d1 d2, NoDup (t :: map fst s) -> exact_solver sv1 -> exact_solver sv2 -> forall tg mn, 
    efficient_return sv1 (NFloat tg) mn w1 o1 = (x1, y1, Ok d1) -> efficient_return sv2 (NFloat tg) mn w2 o2 = (x2, y2, Ok d2) ->
    exists lb ub lb' ub', bounds_in_force mn o1 lb ub /\ bounds_in_force mn o2 lb' ub' /\
    improved (map fst s) t lb ub lb' ub' (if mn then 0 else 1) (fun x => tg <= inner (map snd s) x) (fun x => tg <= inner (a :: map snd s) x) (qform rows) (qform (cov_grow v b c rows)) d1 d2.
Proof. exact grow_return. Qed.
Print Assumptions c142_efficient_return.
Theorem c142_efficient_risk : forall t a v b c lo hi s cols cols' rows v1 v2 w1 w2 o1 o2, ef_grown t a v b c lo hi s cols cols' rows v1 v2 w1 w2 o1 o2 ->
  forall sv1 sv2 x1 x2 y1 y2 d1 d2, NoDup (t :: map fst s) -> exact_solver sv1 -> exact_solver sv2 -> forall pinv1 pinv2 tg mn, 
    efficient_risk sv1 pinv1 (NFloat tg) mn w1 o1 = (x1, y1, Ok d1) -> efficient_risk sv2 pinv2 (NFloat tg) mn w2 o2 = (x2, y2, Ok d2) ->
    exists lb ub lb' ub', bounds_in_force mn o1 lb ub /\ bounds_in_force mn o2 lb' ub' /\
    improved (map fst s) t lb ub lb' ub' (if mn then 0 else 1) (fun x => qform rows x <= tg * tg) (fun x => qform (cov_grow v b c rows) x <= tg * tg)
      (fun x => - inner (map snd s) x) (fun x => - inner (a :: map snd s) x) d1 d2.
Proof. exact grow_risk. Qed.
Print Assumptions c142_efficient_risk.
Theorem c142_max_sharpe : forall t a v b c lo hi s cols cols' rows v1 v2 w1 w2 o1 o2, ef_grown t a v b c lo hi s cols cols' rows v1 v2 w1 w2 o1 o2 ->
  forall sv1 sv2 x1 x2 y1 y2 d1 d2, NoDup (t :: map fst s) -> exact_solver sv1 -> exact_solver sv2 -> forall rf, psd (S (length s)) (cov_grow v b c rows) -> 
    max_sharpe sv1 (NFloat rf) w1 o1 = (x1, y1, Ok d1) -> max_sharpe sv2 (NFloat rf) w2 o2 = (x2, y2, Ok d2) ->
    improved_ratio (map fst s) t (e_lb o1) (e_ub o1) (e_lb o2) (e_ub o2) (map snd s) (a :: map snd s) rows (cov_grow v b c rows) rf d1 d2.
Proof. exact grow_sharpe. Qed.
Print Assumptions c142_max_sharpe.
Theorem c142_min_volatility_found : forall t a v b c lo hi s cols cols' rows v1 v2 w1 w2 o1 o2, ef_grown t a v b c lo hi s cols cols' rows v1 v2 w1 w2 o1 o2 ->
  forall sv1 sv2, exact_solver sv1 -> exact_solver sv2 -> complete_solver sv1 -> complete_solver sv2 -> succeeds (min_volatility sv1) w1 o1 -> succeeds (min_volatility sv2) w2 o2.
Proof. exact grow_min_volatility_found. Qed.
Print Assumptions c142_min_volatility_found.
Theorem c142_quadratic_utility_found : forall t a v b c lo hi s cols cols' rows v1 v2 w1 w2 o1 o2, ef_grown t a v b c lo hi s cols cols' rows v1 v2 w1 w2 o1 o2 ->
  forall sv1 sv2, exact_solver sv1 -> exact_solver sv2 -> complete_solver sv1 -> complete_solver sv2 -> forall ra mn, succeeds (max_quadratic_utility sv1 ra mn) w1 o1 -> succeeds (max_quadratic_utility sv2 ra mn) w2 o2.
Proof. exact grow_utility_found. Qed.
Print Assumptions c142_quadratic_utility_found.
Theorem c142_efficient_return_found : forall t a v b c lo hi s cols cols' rows v1 v2 w1 w2 o1 o2, ef_grown t a v b c lo hi s cols cols' rows v1 v2 w1 w2 o1 o2 ->
  forall sv1 sv2, exact_solver sv1 -> exact_solver sv2 -> complete_solver sv1 -> complete_solver sv2 -> forall tg, succeeds (efficient_return sv1 (NFloat tg) false) w1 o1 -> succeeds (efficient_return sv2 (NFloat tg) false) w2 o2.
Proof. exact grow_return_found. Qed.
Print Assumptions c142_efficient_return_found.
Theorem c142_max_sharpe_found : forall t a v b c lo hi s cols cols' rows v1 v2 w1 w2 o1 o2, ef_grown t a v b c lo hi s cols cols' rows v1 v2 w1 w2 o1 o2 ->
  forall sv1 sv2, exact_solver sv1 -> exact_solver sv2 -> complete_solver sv1 -> complete_solver sv2 -> forall rf, psd (S (length s)) (cov_grow v b c rows) -> (forall x, fits (S (length s)) (e_lb o2) (e_ub o2) 1 x -> 0 < qform (cov_grow v b c rows) x) ->
    succeeds (max_sharpe sv1 (NFloat rf)) w1 o1 -> succeeds (max_sharpe sv2 (NFloat rf)) w2 o2.
Proof. exact grow_sharpe_found. Qed.
Print Assumptions c142_max_sharpe_found.
Theorem c142_gaps_refuted : exists t a q s rows v1 v2 w1 w2 o1 o2 d1 d2 sv, length q = length rows /\ good_rows (length s) rows /\ good_rows (S (length s)) (rows_grow q rows) /\
  NoDup (t :: map fst s) /\ exact_solver sv /\
  cvar_init (MIn (MuSeries s)) (RTable (length s) rows) 0 (around 0 1) v1 = (w1, Ok (o1, d1)) /\
  cvar_init (MIn (MuSeries (mu_grow t a s))) (RTable (S (length s)) (rows_grow q rows)) 0 (around 0 1) v2 = (w2, Ok (o2, d2)) /\
  succeeds (min_cvar sv d1 false) w1 o1 /\ succeeds (min_cvar sv d2 false) w2 o2 /\
  forall x x', length x = length s -> total x = 1 -> length x' = S (length s) -> total x' = 1 -> cvar 0 (dropna rows) x < cvar 0 (dropna (rows_grow q rows)) x'.
Proof. exact gaps_refuted. Qed.
Print Assumptions c142_gaps_refuted.
Theorem c142_min_semivariance : forall t a q lo hi s rows freq bench v1 v2 w1 w2 o1 o2 d1 d2, semi_grown t a q lo hi s rows freq bench v1 v2 w1 w2 o1 o2 d1 d2 ->
  forall sv1 sv2 mn, exact_solver sv1 -> exact_solver sv2 -> forall x1 y1 r1 x2 y2 r2, NoDup (t :: map fst s) ->
    min_semivariance sv1 d1 mn w1 o1 = (x1, y1, Ok r1) -> min_semivariance sv2 d2 mn w2 o2 = (x2, y2, Ok r2) ->
    exists lb ub lb' ub', bounds_in_force mn o1 lb ub /\ bounds_in_force mn o2 lb' ub' /\
    improved (map fst s) t lb ub lb' ub' (if mn then 0 else 1) (fun x => True) (fun x => True)
      (fun x => semivariance (dropna rows) (bench * (if mn then 0 else 1)) x) (fun x => semivariance (dropna (rows_grow (map Some q) rows)) (bench * (if mn then 0 else 1)) x) r1 r2.
Proof. exact min_semivariance_grow. Qed.
Print Assumptions c142_min_semivariance.
Theorem c142_min_semivariance_found : forall t a q lo hi s rows freq bench v1 v2 w1 w2 o1 o2 d1 d2, semi_grown t a q lo hi s rows freq bench v1 v2 w1 w2 o1 o2 d1 d2 ->
  forall sv1 sv2 mn, exact_solver sv1 -> exact_solver sv2 -> complete_solver sv1 -> complete_solver sv2 -> succeeds (min_semivariance sv1 d1 mn) w1 o1 -> succeeds (min_semivariance sv2 d2 mn) w2 o2.
Proof. exact min_semivariance_grow_found. Qed.
Print Assumptions c142_min_semivariance_found.
Theorem c142_semivariance_risk : forall t a q lo hi s rows freq bench v1 v2 w1 w2 o1 o2 d1 d2, semi_grown t a q lo hi s rows freq bench v1 v2 w1 w2 o1 o2 d1 d2 ->
  forall sv1 sv2 mn, exact_solver sv1 -> exact_solver sv2 -> forall tg, 0 <= freq -> forall x1 y1 r1 x2 y2 r2, NoDup (t :: map fst s) ->
    semi_efficient_risk sv1 d1 tg mn w1 o1 = (x1, y1, Ok r1) -> semi_efficient_risk sv2 d2 tg mn w2 o2 = (x2, y2, Ok r2) ->
    exists lb ub lb' ub', bounds_in_force mn o1 lb ub /\ bounds_in_force mn o2 lb' ub' /\
    improved (map fst s) t lb ub lb' ub' (if mn then 0 else 1) (fun x => freq * semivariance (dropna rows) (bench * (if mn then 0 else 1)) x <= tg * tg) (fun x => freq * semivariance (dropna (rows_grow (map Some q) rows)) (bench * (if mn then 0 else 1)) x <= tg * tg)
      (fun x => - inner (map snd s) x) (fun x => - inner (a :: map snd s) x) r1 r2.
Proof. exact semivariance_risk_grow. Qed.
Print Assumptions c142_semivariance_risk.
Theorem c142_semivariance_risk_found : forall t a q lo hi s rows freq bench v1 v2 w1 w2 o1 o2 d1 d2, semi_grown t a q lo hi s rows freq bench v1 v2 w1 w2 o1 o2 d1 d2 ->
  forall sv1 sv2 mn, exact_solver sv1 -> exact_solver sv2 -> complete_solver sv1 -> complete_solver sv2 -> 0 <= freq -> forall tg, succeeds (semi_efficient_risk sv1 d1 tg mn) w1 o1 -> succeeds (semi_efficient_risk sv2 d2 tg mn) w2 o2.
Proof. exact semivariance_risk_grow_found. Qed.
Print Assumptions c142_semivariance_risk_found.
Theorem c142_semivariance_return : forall t a q lo hi s rows freq bench v1 v2 w1 w2 o1 o2 d1 d2, semi_grown t a q lo hi s rows freq bench v1 v2 w1 w2 o1 o2 d1 d2 ->
  forall sv1 sv2 mn, exact_solver sv1 -> exact_solver sv2 -> forall tg, forall x1 y1 r1 x2 y2 r2, NoDup (t :: map fst s) ->
    semi_efficient_return sv1 d1 (NFloat tg) mn w1 o1 = (x1, y1, Ok r1) -> semi_efficient_return sv2 d2 (NFloat tg) mn w2 o2 = (x2, y2, Ok r2) ->
    exists lb ub lb' ub', bounds_in_force mn o1 lb ub /\ bounds_in_force mn o2 lb' ub' /\
    improved (map fst s) t lb ub lb' ub' (if mn then 0 else 1) (fun x => tg <= inner (map snd s) x) (fun x => tg <= inner (a :: map snd s) x)
      (fun x => semivariance (dropna rows) (bench * (if mn then 0 else 1)) x) (fun x => semivariance (dropna (rows_grow (map Some q) rows)) (bench * (if mn then 0 else 1)) x) r1 r2.
Proof. exact semivariance_return_grow. Qed.
Print Assumptions c142_semivariance_return.
Theorem c142_semivariance_utility : forall t a q lo hi s rows freq bench v1 v2 w1 w2 o1 o2 d1 d2, semi_grown t a q lo hi s rows freq bench v1 v2 w1 w2 o1 o2 d1 d2 ->
  forall sv1 sv2 mn, exact_solver sv1 -> exact_solver sv2 -> forall tg, forall x1 y1 r1 x2 y2 r2, NoDup (t :: map fst s) ->
    semi_max_quadratic_utility sv1 d1 tg mn w1 o1 = (x1, y1, Ok r1) -> semi_max_quadratic_utility sv2 d2 tg mn w2 o2 = (x2, y2, Ok r2) ->
    exists lb ub lb' ub', bounds_in_force mn o1 lb ub /\ bounds_in_force mn o2 lb' ub' /\
    improved (map fst s) t lb ub lb' ub' (if mn then 0 else 1) (fun x => True) (fun x => True)
      (fun x => - inner (map snd s) x / freq + 1 / 2 * tg * semivariance (dropna rows) (bench * (if mn then 0 else 1)) x) (fun x => - inner (a :: map snd s) x / freq + 1 / 2 * tg * semivariance (dropna (rows_grow (map Some q) rows)) (bench * (if mn then 0 else 1)) x) r1 r2.
Proof. exact semivariance_utility_grow. Qed.
Print Assumptions c142_semivariance_utility.
Theorem c142_semivariance_utility_found : forall t a q lo hi s rows freq bench v1 v2 w1 w2 o1 o2 d1 d2, semi_grown t a q lo hi s rows freq bench v1 v2 w1 w2 o1 o2 d1 d2 ->
  forall sv1 sv2 mn, exact_solver sv1 -> exact_solver sv2 -> complete_solver sv1 -> complete_solver sv2 -> forall tg, succeeds (semi_max_quadratic_utility sv1 d1 tg mn) w1 o1 -> succeeds (semi_max_quadratic_utility sv2 d2 tg mn) w2 o2.
Proof. exact semivariance_utility_grow_found. Qed.
Print Assumptions c142_semivariance_utility_found.
Theorem c142_semi_accepted : forall t a q lo hi s rows freq bench v1 v2 w1 o1 d1, semi_init (MIn (MuSeries s)) (RTable (length s) rows) freq bench (around lo hi) v1 = (w1, Ok (o1, d1)) ->
  exists w2 o2 d2, semi_init (MIn (MuSeries (mu_grow t a s))) (RTable (S (length s)) (rows_grow q rows)) freq bench (around lo hi) v2 = (w2, Ok (o2, d2)).
Proof. exact semi_grow_accepted. Qed.
Print Assumptions c142_semi_accepted.
Theorem c142_min_cvar : forall t a q lo hi s rows beta v1 v2 w1 w2 o1 o2 d1 d2, cvar_grown t a q lo hi s rows beta v1 v2 w1 w2 o1 o2 d1 d2 ->
  forall sv1 sv2 mn, exact_solver sv1 -> exact_solver sv2 -> forall x1 y1 r1 x2 y2 r2, NoDup (t :: map fst s) ->
    min_cvar sv1 d1 mn w1 o1 = (x1, y1, Ok r1) -> min_cvar sv2 d2 mn w2 o2 = (x2, y2, Ok r2) ->
    exists lb ub lb' ub', bounds_in_force mn o1 lb ub /\ bounds_in_force mn o2 lb' ub' /\
    improved (map fst s) t lb ub lb' ub' (if mn then 0 else 1) (fun x => True) (fun x => True)
      (fun x => cvar beta (dropna rows) x) (fun x => cvar beta (dropna (rows_grow (map Some q) rows)) x) r1 r2.
Proof. exact min_cvar_grow. Qed.
Print Assumptions c142_min_cvar.
Theorem c142_min_cvar_found : forall t a q lo hi s rows beta v1 v2 w1 w2 o1 o2 d1 d2, cvar_grown t a q lo hi s rows beta v1 v2 w1 w2 o1 o2 d1 d2 ->
  forall sv1 sv2 mn, exact_solver sv1 -> exact_solver sv2 -> complete_solver sv1 -> complete_solver sv2 -> succeeds (min_cvar sv1 d1 mn) w1 o1 -> succeeds (min_cvar sv2 d2 mn) w2 o2.
Proof. exact min_cvar_grow_found. Qed.
Print Assumptions c142_min_cvar_found.
Theorem c142_cvar_risk : forall t a q lo hi s rows beta v1 v2 w1 w2 o1 o2 d1 d2, cvar_grown t a q lo hi s rows beta v1 v2 w1 w2 o1 o2 d1 d2 ->
  forall sv1 sv2 mn, exact_solver sv1 -> exact_solver sv2 -> forall tg, forall x1 y1 r1 x2 y2 r2, NoDup (t :: map fst s) ->
    cvar_efficient_risk sv1 d1 tg mn w1 o1 = (x1, y1, Ok r1) -> cvar_efficient_risk sv2 d2 tg mn w2 o2 = (x2, y2, Ok r2) ->
    exists lb ub lb' ub', bounds_in_force mn o1 lb ub /\ bounds_in_force mn o2 lb' ub' /\
    improved (map fst s) t lb ub lb' ub' (if mn then 0 else 1) (fun x => cvar beta (dropna rows) x <= tg) (fun x => cvar beta (dropna (rows_grow (map Some q) rows)) x <= tg)
      (fun x => - inner (map snd s) x) (fun x => - inner (a :: map snd s) x) r1 r2.
Proof. exact cvar_risk_grow. Qed.
Print Assumptions c142_cvar_risk.
Theorem c142_cvar_risk_found : forall t a q lo hi s rows beta v1 v2 w1 w2 o1 o2 d1 d2, cvar_grown t a q lo hi s rows beta v1 v2 w1 w2 o1 o2 d1 d2 ->
  forall sv1 sv2 mn, exact_solver sv1 -> exact_solver sv2 -> complete_solver sv1 -> complete_solver sv2 -> forall tg, succeeds (cvar_efficient_risk sv1 d1 tg mn) w1 o1 -> succeeds (cvar_efficient_risk sv2 d2 tg mn) w2 o2.
Proof. exact cvar_risk_grow_found. Qed.
Print Assumptions c142_cvar_risk_found.
Theorem c142_cvar_return : forall t a q lo hi s rows beta v1 v2 w1 w2 o1 o2 d1 d2, cvar_grown t a q lo hi s rows beta v1 v2 w1 w2 o1 o2 d1 d2 ->
  forall sv1 sv2 mn, exact_solver sv1 -> exact_solver sv2 -> forall tg, forall x1 y1 r1 x2 y2 r2, NoDup (t :: map fst s) ->
    cvar_efficient_return sv1 d1 tg mn w1 o1 = (x1, y1, Ok r1) -> cvar_efficient_return sv2 d2 tg mn w2 o2 = (x2, y2, Ok r2) ->
    exists lb ub lb' ub', bounds_in_force mn o1 lb ub /\ bounds_in_force mn o2 lb' ub' /\
    improved (map fst s) t lb ub lb' ub' (if mn then 0 else 1) (fun x => tg <= inner (map snd s) x) (fun x => tg <= inner (a :: map snd s) x)
      (fun x => cvar beta (dropna rows) x) (fun x => cvar beta (dropna (rows_grow (map Some q) rows)) x) r1 r2.
Proof. exact cvar_return_grow. Qed.
Print Assumptions c142_cvar_return.
Theorem c142_cvar_return_found : forall t a q lo hi s rows beta v1 v2 w1 w2 o1 o2 d1 d2, cvar_grown t a q lo hi s rows beta v1 v2 w1 w2 o1 o2 d1 d2 ->
  forall sv1 sv2 mn, exact_solver sv1 -> exact_solver sv2 -> complete_solver sv1 -> complete_solver sv2 -> forall tg, succeeds (cvar_efficient_return sv1 d1 tg mn) w1 o1 -> succeeds (cvar_efficient_return sv2 d2 tg mn) w2 o2.
Proof. exact cvar_return_grow_found. Qed.
Print Assumptions c142_cvar_return_found.
Theorem c142_cvar_accepted : forall t a q lo hi s rows beta v1 v2 w1 o1 d1, cvar_init (MIn (MuSeries s)) (RTable (length s) rows) beta (around lo hi) v1 = (w1, Ok (o1, d1)) ->
  exists w2 o2 d2, cvar_init (MIn (MuSeries (mu_grow t a s))) (RTable (S (length s)) (rows_grow q rows)) beta (around lo hi) v2 = (w2, Ok (o2, d2)).
Proof. exact cvar_grow_accepted. Qed.
Print Assumptions c142_cvar_accepted.
Theorem c142_min_cdar : forall t a q lo hi s rows beta v1 v2 w1 w2 o1 o2 d1 d2, cdar_grown t a q lo hi s rows beta v1 v2 w1 w2 o1 o2 d1 d2 ->
  forall sv1 sv2 mn, exact_solver sv1 -> exact_solver sv2 -> forall x1 y1 r1 x2 y2 r2, NoDup (t :: map fst s) ->
    min_cdar sv1 d1 mn w1 o1 = (x1, y1, Ok r1) -> min_cdar sv2 d2 mn w2 o2 = (x2, y2, Ok r2) ->
    exists lb ub lb' ub', bounds_in_force mn o1 lb ub /\ bounds_in_force mn o2 lb' ub' /\
    improved (map fst s) t lb ub lb' ub' (if mn then 0 else 1) (fun x => True) (fun x => True)
      (fun x => cdar beta (dropna rows) x) (fun x => cdar beta (dropna (rows_grow (map Some q) rows)) x) r1 r2.
Proof. exact min_cdar_grow. Qed.
Print Assumptions c142_min_cdar.
Theorem c142_min_cdar_found : forall t a q lo hi s rows beta v1 v2 w1 w2 o1 o2 d1 d2, cdar_grown t a q lo hi s rows beta v1 v2 w1 w2 o1 o2 d1 d2 ->
  forall sv1 sv2 mn, exact_solver sv1 -> exact_solver sv2 -> complete_solver sv1 -> complete_solver sv2 -> succeeds (min_cdar sv1 d1 mn) w1 o1 -> succeeds (min_cdar sv2 d2 mn) w2 o2.
Proof. exact min_cdar_grow_found. Qed.
Print Assumptions c142_min_cdar_found.
Theorem c142_cdar_risk : forall t a q lo hi s rows beta v1 v2 w1 w2 o1 o2 d1 d2, cdar_grown t a q lo hi s rows beta v1 v2 w1 w2 o1 o2 d1 d2 ->
  forall sv1 sv2 mn, exact_solver sv1 -> exact_solver sv2 -> forall tg, forall x1 y1 r1 x2 y2 r2, NoDup (t :: map fst s) ->
    cdar_efficient_risk sv1 d1 tg mn w1 o1 = (x1, y1, Ok r1) -> cdar_efficient_risk sv2 d2 tg mn w2 o2 = (x2, y2, Ok r2) ->
    exists lb ub lb' ub', bounds_in_force mn o1 lb ub /\ bounds_in_force mn o2 lb' ub' /\
    improved (map fst s) t lb ub lb' ub' (if mn then 0 else 1) (fun x => cdar beta (dropna rows) x <= tg) (fun x => cdar beta (dropna (rows_grow (map Some q) rows)) x <= tg)
      (fun x => - inner (map snd s) x) (fun x => - inner (a :: map snd s) x) r1 r2.
Proof. exact cdar_risk_grow. Qed.
Print Assumptions c142_cdar_risk.
Theorem c142_cdar_risk_found : forall t a q lo hi s rows beta v1 v2 w1 w2 o1 o2 d1 d2, cdar_grown t a q lo hi s rows beta v1 v2 w1 w2 o1 o2 d1 d2 ->
  forall sv1 sv2 mn, exact_solver sv1 -> exact_solver sv2 -> complete_solver sv1 -> complete_solver sv2 -> forall tg, succeeds (cdar_efficient_risk sv1 d1 tg mn) w1 o1 -> succeeds (cdar_efficient_risk sv2 d2 tg mn) w2 o2.
Proof. exact cdar_risk_grow_found. Qed.
Print Assumptions c142_cdar_risk_found.
Theorem c142_cdar_return : forall t a q lo hi s rows beta v1 v2 w1 w2 o1 o2 d1 d2, cdar_grown t a q lo hi s rows beta v1 v2 w1 w2 o1 o2 d1 d2 ->
  forall sv1 sv2 mn, exact_solver sv1 -> exact_solver sv2 -> forall tg, forall x1 y1 r1 x2 y2 r2, NoDup (t :: map fst s) ->
    cdar_efficient_return sv1 d1 tg mn w1 o1 = (x1, y1, Ok r1) -> cdar_efficient_return sv2 d2 tg mn w2 o2 = (x2, y2, Ok r2) ->
    exists lb ub lb' ub', bounds_in_force mn o1 lb ub /\ bounds_in_force mn o2 lb' ub' /\
    improved (map fst s) t lb ub lb' ub' (if mn then 0 else 1) (fun x => tg <= inner (map snd s) x) (fun x => tg <= inner (a :: map snd s) x)
      (fun x => cdar beta (dropna rows) x) (fun x => cdar beta (dropna (rows_grow (map Some q) rows)) x) r1 r2.
Proof. exact cdar_return_grow. Qed.
Print Assumptions c142_cdar_return.
Theorem c142_cdar_return_found : forall t a q lo hi s rows beta v1 v2 w1 w2 o1 o2 d1 d2, cdar_grown t a q lo hi s rows beta v1 v2 w1 w2 o1 o2 d1 d2 ->
  forall sv1 sv2 mn, exact_solver sv1 -> exact_solver sv2 -> complete_solver sv1 -> complete_solver sv2 -> forall tg, succeeds (cdar_efficient_return sv1 d1 tg mn) w1 o1 -> succeeds (cdar_efficient_return sv2 d2 tg mn) w2 o2.
Proof. exact cdar_return_grow_found. Qed.
Print Assumptions c142_cdar_return_found.
Theorem c142_cdar_accepted : forall t a q lo hi s rows beta v1 v2 w1 o1 d1, cdar_init (MIn (MuSeries s)) (RTable (length s) rows) beta (around lo hi) v1 = (w1, Ok (o1, d1)) ->
  exists w2 o2 d2, cdar_init (MIn (MuSeries (mu_grow t a s))) (RTable (S (length s)) (rows_grow q rows)) beta (around lo hi) v2 = (w2, Ok (o2, d2)).
Proof. exact cdar_grow_accepted. Qed.
Print Assumptions c142_cdar_accepted.
