(** * Concrete cases for the theorems in PropertiesBlend.v *)
From Coq Require Import ZArith String List Bool Reals Lra Lia.
From Verif Require Import Num Py RBase PyLemmas Sums Mat PBase SBL MBase MConvex MEF MDown SLin SBase SConvex SPerm SObj SUnits SDown SDays SExist SEnds SGrow SWide SBlend PConvex PEF PEF2 PEFW PDown5 PDownW PPerm PPerm2 PPerm3 PDays PDays2 PDays3 PShiftW PBlend ExamplesPerm ExamplesDays ExamplesEnds ExamplesWide PropertiesBlend.
Import ListNotations.
Local Open Scope R_scope.

(** two different portfolios of largest return, and all between them *)
Example ex_c144_two : forall t, 0 <= t <= 1 ->
  chosen 2 [Some 0; Some 0] [Some 1; Some 1] 1 (fun _ => True) (fun x => - inner [1/10; 1/10] x) [1; 0] /\
  chosen 2 [Some 0; Some 0] [Some 1; Some 1] 1 (fun _ => True) (fun x => - inner [1/10; 1/10] x) [0; 1] /\
  chosen 2 [Some 0; Some 0] [Some 1; Some 1] 1 (fun _ => True) (fun x => - inner [1/10; 1/10] x) [(1 - t) * 1 + t * 0; (1 - t) * 0 + t * 1].
Proof.
  intros t Ht. assert (H : forall a, 0 <= a <= 1 -> chosen 2 [Some 0; Some 0] [Some 1; Some 1] 1 (fun _ => True) (fun x => - inner [1/10; 1/10] x) [a; 1 - a]).
  { intros a Ha. split; [reflexivity|]. split; [split; (apply Forall2_cons; [|apply Forall2_cons; [|apply Forall2_nil]]); cbn; lra|]. split; [cbn; lra|]. split; [exact I|].
    intros y Ly _ Ty _. destruct y as [|p [|q [|]]]; try discriminate Ly. cbn in *. lra. }
  assert (A := H 1 ltac:(lra)). assert (B := H 0 ltac:(lra)). replace (1 - 1) with 0 in A by ring. replace (1 - 0) with 1 in B by ring. split; [exact A|]. split; [exact B|].
  exact (proj2 (blend_chosen _ _ _ _ _ _ _ _ (PUnique.linear_convex 2 _) (all_kept 2) A B) t Ht).
Qed.
Ltac whole := pose proof best_solver_exact as X; pose proof (lab_init [LStr "A"; LStr "B"] 1 3) as I0.
Example ex_c144_min_volatility : exists x1 y1 d1, min_volatility best_solver lab_world (lab_ef 1 3) = (x1, y1, Ok d1) /\
  blended [LStr "A"; LStr "B"] [Some 0; Some 0] [Some 1; Some 1] 1 (fun _ => True) (qform [[1; 0]; [0; 3]]) d1 d1.
Proof.
  whole. destruct ex_c143_min_volatility as (_ & _ & x1 & y1 & d1 & _ & _ & _ & _ & E1 & _). exists x1, y1, d1. split; [exact E1|].
  exact (c144_min_volatility lab_mu _ _ _ _ _ _ diag_psd I0 _ _ _ _ _ _ _ _ tickers_nodup X X E1 E1).
Qed.
Example ex_c144_utility : exists x1 y1 d1 lb ub, max_quadratic_utility best_solver 1 false lab_world (lab_ef 1 3) = (x1, y1, Ok d1) /\ blended [LStr "A"; LStr "B"] lb ub 1 (fun _ => True) (fun x => - (inner [1/5; 1/10] x - 1 / 2 * qform [[1; 0]; [0; 3]] x)) d1 d1.
Proof.
  whole. destruct ex_c143_utility as (_ & _ & x1 & y1 & d1 & _ & _ & _ & _ & _ & _ & _ & _ & E1 & _).
  destruct (c144_quadratic_utility lab_mu _ _ _ _ _ _ diag_psd I0 _ _ _ _ _ _ _ _ tickers_nodup X X 1 false E1 E1) as (lb & ub & _ & A). exists x1, y1, d1, lb, ub. split; [exact E1|exact A].
Qed.
Example ex_c144_return : exists x1 y1 d1 lb ub, efficient_return best_solver (NFloat (9/50)) false lab_world (lab_ef 1 3) = (x1, y1, Ok d1) /\ blended [LStr "A"; LStr "B"] lb ub 1 (fun x => 9/50 <= inner [1/5; 1/10] x) (qform [[1; 0]; [0; 3]]) d1 d1.
Proof.
  whole. destruct ex_c143_return as (_ & _ & x1 & y1 & d1 & _ & _ & _ & _ & _ & _ & _ & _ & E1 & _).
  destruct (c144_efficient_return lab_mu _ _ _ _ _ _ diag_psd I0 _ _ _ _ _ _ _ _ tickers_nodup X X (9/50) false E1 E1) as (lb & ub & _ & A). exists x1, y1, d1, lb, ub. split; [exact E1|exact A].
Qed.
Example ex_c144_risk : exists x1 y1 d1 lb ub, efficient_risk best_solver pinv_a (NFloat 1) false lab_world (lab_ef 1 3) = (x1, y1, Ok d1) /\ blended [LStr "A"; LStr "B"] lb ub 1 (fun x => qform [[1; 0]; [0; 3]] x <= 1 * 1) (fun x => - inner [1/5; 1/10] x) d1 d1.
Proof.
  whole. destruct ex_c143_risk as (_ & _ & x1 & y1 & d1 & _ & _ & _ & _ & _ & _ & _ & _ & E1 & _).
  destruct (c144_efficient_risk lab_mu _ _ _ _ _ _ diag_psd I0 _ _ _ _ _ _ _ _ tickers_nodup X X pinv_a pinv_a 1 false E1 E1) as (lb & ub & _ & A). exists x1, y1, d1, lb, ub. split; [exact E1|exact A].
Qed.
Example ex_c144_max_sharpe : exists x1 y1 d1, max_sharpe best_solver (NFloat 0) lab_world (lab_ef 1 3) = (x1, y1, Ok d1) /\
  blended_ratio [LStr "A"; LStr "B"] [Some 0; Some 0] [Some 1; Some 1] [1/5; 1/10] [[1; 0]; [0; 3]] 0 d1 d1.
Proof.
  whole. destruct ex_c143_max_sharpe as (_ & _ & x1 & y1 & d1 & _ & _ & _ & _ & E1 & _). exists x1, y1, d1. split; [exact E1|].
  exact (c144_max_sharpe lab_mu _ _ _ _ _ _ diag_psd I0 _ _ _ _ _ _ _ _ tickers_nodup X X 0 E1 E1).
Qed.
Example ex_c144_semi : exists w1 o1 d1, good_rows (length dd_mu) rows0 /\ semi_init (MIn (MuSeries dd_mu)) (RTable (length dd_mu) rows0) 1 0 long w00 = (w1, Ok (o1, d1)) /\
  (exists x y r lb ub, min_semivariance best_solver d1 false w1 o1 = (x, y, Ok r) /\ blended (map fst dd_mu) lb ub 1 (fun _ => True) (semivariance (dropna rows0) (0 * 1)) r r) /\
  (exists x y r lb ub, semi_efficient_risk best_solver d1 1 false w1 o1 = (x, y, Ok r) /\ blended (map fst dd_mu) lb ub 1 (fun x => 1 * semivariance (dropna rows0) (0 * 1) x <= 1 * 1) (fun x => - inner [1/10; 1/10] x) r r) /\
  (exists x y r lb ub, semi_max_quadratic_utility best_solver d1 1 false w1 o1 = (x, y, Ok r) /\ blended (map fst dd_mu) lb ub 1 (fun _ => True) (fun x => - inner [1/10; 1/10] x / 1 + 1 / 2 * 1 * semivariance (dropna rows0) (0 * 1) x) r r).
Proof.
  pose proof best_solver_exact as X. destruct ex_c143_semi as (w1 & _ & o1 & _ & d1 & _ & (Hg & I1 & _) & ((x1 & y1 & r1 & E1) & _) & ((x2 & y2 & r2 & E2) & _) & ((x3 & y3 & r3 & E3) & _) & _).
  exists w1, o1, d1. split; [exact Hg|]. split; [exact I1|]. split; [|split].
  - destruct (c144_min_semivariance _ _ _ _ _ _ _ _ _ Hg I1 _ _ false X X _ _ _ _ _ _ dd_nodup E1 E1) as (lb & ub & _ & A). exists x1, y1, r1, lb, ub. split; [exact E1|exact A].
  - destruct (c144_semivariance_risk _ _ _ _ _ _ _ _ _ Hg I1 _ _ false X X 1 ltac:(lra) _ _ _ _ _ _ dd_nodup E2 E2) as (lb & ub & _ & A). exists x2, y2, r2, lb, ub. split; [exact E2|exact A].
  - destruct (c144_semivariance_utility _ _ _ _ _ _ _ _ _ Hg I1 _ _ false X X 1 _ _ _ _ _ _ dd_nodup E3 E3) as (lb & ub & _ & A). exists x3, y3, r3, lb, ub. split; [exact E3|exact A].
Qed.
Example ex_c144_cvar : exists w1 o1 d1, good_rows (length dd_mu) rows0 /\ cvar_init (MIn (MuSeries dd_mu)) (RTable (length dd_mu) rows0) 0 long w00 = (w1, Ok (o1, d1)) /\
  (exists x y r lb ub, min_cvar best_solver d1 false w1 o1 = (x, y, Ok r) /\ blended (map fst dd_mu) lb ub 1 (fun _ => True) (cvar 0 (dropna rows0)) r r) /\
  (exists x y r lb ub, cvar_efficient_risk best_solver d1 1 false w1 o1 = (x, y, Ok r) /\ blended (map fst dd_mu) lb ub 1 (fun x => cvar 0 (dropna rows0) x <= 1) (fun x => - inner [1/10; 1/10] x) r r) /\
  (exists x y r lb ub, cvar_efficient_return best_solver d1 (1/10) false w1 o1 = (x, y, Ok r) /\ blended (map fst dd_mu) lb ub 1 (fun x => 1/10 <= inner [1/10; 1/10] x) (cvar 0 (dropna rows0)) r r).
Proof.
  pose proof best_solver_exact as X. destruct ex_c143_cvar as (w1 & _ & o1 & _ & d1 & _ & (Hg & I1 & _) & ((x1 & y1 & r1 & E1) & _) & ((x2 & y2 & r2 & E2) & _) & ((x3 & y3 & r3 & E3) & _) & _).
  exists w1, o1, d1. split; [exact Hg|]. split; [exact I1|]. split; [|split].
  - destruct (c144_min_cvar _ _ _ _ _ _ _ _ Hg I1 _ _ false X X _ _ _ _ _ _ dd_nodup E1 E1) as (lb & ub & _ & A). exists x1, y1, r1, lb, ub. split; [exact E1|exact A].
  - destruct (c144_cvar_risk _ _ _ _ _ _ _ _ Hg I1 _ _ false X X 1 _ _ _ _ _ _ dd_nodup E2 E2) as (lb & ub & _ & A). exists x2, y2, r2, lb, ub. split; [exact E2|exact A].
  - destruct (c144_cvar_return _ _ _ _ _ _ _ _ Hg I1 _ _ false X X (1/10) _ _ _ _ _ _ dd_nodup E3 E3) as (lb & ub & _ & A). exists x3, y3, r3, lb, ub. split; [exact E3|exact A].
Qed.
Example ex_c144_cdar : exists w1 o1 d1, good_rows (length dd_mu) rows0 /\ cdar_init (MIn (MuSeries dd_mu)) (RTable (length dd_mu) rows0) 0 long w00 = (w1, Ok (o1, d1)) /\
  (exists x y r lb ub, min_cdar best_solver d1 false w1 o1 = (x, y, Ok r) /\ blended (map fst dd_mu) lb ub 1 (fun _ => True) (cdar 0 (dropna rows0)) r r) /\
  (exists x y r lb ub, cdar_efficient_risk best_solver d1 1 false w1 o1 = (x, y, Ok r) /\ blended (map fst dd_mu) lb ub 1 (fun x => cdar 0 (dropna rows0) x <= 1) (fun x => - inner [1/10; 1/10] x) r r) /\
  (exists x y r lb ub, cdar_efficient_return best_solver d1 (1/10) false w1 o1 = (x, y, Ok r) /\ blended (map fst dd_mu) lb ub 1 (fun x => 1/10 <= inner [1/10; 1/10] x) (cdar 0 (dropna rows0)) r r).
Proof.
  pose proof best_solver_exact as X. destruct ex_c143_cdar as (w1 & _ & o1 & _ & d1 & _ & (Hg & I1 & _) & ((x1 & y1 & r1 & E1) & _) & ((x2 & y2 & r2 & E2) & _) & ((x3 & y3 & r3 & E3) & _) & _).
  exists w1, o1, d1. split; [exact Hg|]. split; [exact I1|]. split; [|split].
  - destruct (c144_min_cdar _ _ _ _ _ _ _ _ Hg I1 _ _ false X X _ _ _ _ _ _ dd_nodup E1 E1) as (lb & ub & _ & A). exists x1, y1, r1, lb, ub. split; [exact E1|exact A].
  - destruct (c144_cdar_risk _ _ _ _ _ _ _ _ Hg I1 _ _ false X X 1 _ _ _ _ _ _ dd_nodup E2 E2) as (lb & ub & _ & A). exists x2, y2, r2, lb, ub. split; [exact E2|exact A].
  - destruct (c144_cdar_return _ _ _ _ _ _ _ _ Hg I1 _ _ false X X (1/10) _ _ _ _ _ _ dd_nodup E3 E3) as (lb & ub & _ & A). exists x3, y3, r3, lb, ub. split; [exact E3|exact A].
Qed.
Example ex_c144_semivariance_return : exists w1 o1 d1, good_rows (length dd_mu) rows0 /\ semi_init (MIn (MuSeries dd_mu)) (RTable (length dd_mu) rows0) 1 0 long w00 = (w1, Ok (o1, d1)) /\
  succeeds (semi_efficient_return best_solver d1 (NFloat (1/10)) false) w1 o1.
Proof. destruct ex_c143_semivariance_return as (w1 & _ & o1 & _ & d1 & _ & (Hg & I1 & _) & S & _). exists w1, o1, d1. auto. Qed.
