(** * Concrete cases for the theorems in PropertiesSlack.v *)
From Coq Require Import ZArith String List Bool Reals Lra Lia.
From Verif Require Import Num Py RBase PyLemmas Sums Mat PBase SBL MBase MConvex MEF MDown SLin SBase SConvex SPerm SObj SUnits SDown SDays SExist SEnds SGrow SWide SBlend SSlack PConvex PEF PEF2 PEFW PObj PDown5 PDownW PPerm PPerm2 PPerm3 PDays PDays2 PDays3 PShiftW PWide PWide2 PBlend PSlack ExamplesPerm ExamplesDays ExamplesEnds ExamplesWide PropertiesWide PropertiesSlack.
Import ListNotations.
Local Open Scope R_scope.

(** 3/4 and 1/4 is the best portfolio under (0, 1), reaches no bound, and is best under (-1, 2) *)
Lemma wide_looser : looser [Some 0; Some 0] [Some 1; Some 1] [Some (-1); Some (-1)] [Some 2; Some 2].
Proof. split; (apply Forall2_cons; [|apply Forall2_cons; [|apply Forall2_nil]]); cbn; lra. Qed.
Example ex_c145_slack : slack [Some 0; Some 0] [Some 1; Some 1] [Some (-1); Some (-1)] [Some 2; Some 2] [3/4; 1/4] /\
  chosen 2 [Some 0; Some 0] [Some 1; Some 1] 1 (fun _ => True) (qform [[1; 0]; [0; 3]]) [3/4; 1/4] /\
  chosen 2 [Some (-1); Some (-1)] [Some 2; Some 2] 1 (fun _ => True) (qform [[1; 0]; [0; 3]]) [3/4; 1/4].
Proof.
  assert (S : slack [Some 0; Some 0] [Some 1; Some 1] [Some (-1); Some (-1)] [Some 2; Some 2] [3/4; 1/4]).
  { split; (split; [right; cbn; lra|split; [right; cbn; lra|exact I]]). }
  assert (C : chosen 2 [Some 0; Some 0] [Some 1; Some 1] 1 (fun _ => True) (qform [[1; 0]; [0; 3]]) [3/4; 1/4]).
  { split; [reflexivity|]. split; [split; (apply Forall2_cons; [|apply Forall2_cons; [|apply Forall2_nil]]); cbn; lra|]. split; [cbn; lra|]. split; [exact I|].
    intros y Ly _ Ty _. destruct y as [|p [|q [|]]]; try discriminate Ly. rewrite !lab_q. cbn in Ty. replace q with (1 - p) by lra. pose proof (Rle_0_sqr (p - 3/4)). unfold Rsqr in *. lra. }
  split; [exact S|]. split; [exact C|]. exact (slack_chosen _ _ _ _ _ _ _ _ _ (qform_convex 2 _ diag_psd) (all_kept 2) wide_looser C S).
Qed.
(** an asset at its bound has slack only if that bound is the same in both *)
Example ex_c145_tight : slack [Some 0; Some 0] [Some 1; Some 1] [Some (-1); Some 0] [Some 2; Some 2] [1/2; 0] /\ ~ slack [Some 0; Some 0] [Some 1; Some 1] [Some (-1); Some (-1)] [Some 2; Some 2] [1/2; 0].
Proof.
  split; [split; (split; [right; cbn; lra|split; [first [left; reflexivity|right; cbn; lra]|exact I]])|]. intros [(_ & [H|H] & _) _]; [injection H as H; lra|cbn in H; lra].
Qed.
Example ex_c145_min_volatility : exists w2 o2 x1 y1 d1 x2 y2 d2, wide_ef (-1) 2 w2 o2 /\ min_volatility best_solver lab_world (lab_ef 1 3) = (x1, y1, Ok d1) /\ min_volatility best_solver w2 o2 = (x2, y2, Ok d2) /\
  unbound [LStr "A"; LStr "B"] [Some 0; Some 0] [Some 1; Some 1] (e_lb o2) (e_ub o2) 1 (fun _ => True) (qform [[1; 0]; [0; 3]]) d1 d2.
Proof.
  pose proof best_solver_exact as X. destruct ex_c143_min_volatility as (w2 & o2 & x1 & y1 & d1 & x2 & y2 & d2 & T & E1 & E2 & _). exists w2, o2, x1, y1, d1, x2, y2, d2. split; [exact T|]. split; [exact E1|]. split; [exact E2|].
  exact (c145_min_volatility lab_mu _ _ _ _ _ _ _ _ _ _ diag_psd T _ _ _ _ _ _ _ _ tickers_nodup X X E1 E2).
Qed.
Example ex_c145_max_sharpe : exists w2 o2 x1 y1 d1 x2 y2 d2, wide_ef (-1) 2 w2 o2 /\ max_sharpe best_solver (NFloat 0) lab_world (lab_ef 1 3) = (x1, y1, Ok d1) /\ max_sharpe best_solver (NFloat 0) w2 o2 = (x2, y2, Ok d2) /\
  unbound_ratio [LStr "A"; LStr "B"] [Some 0; Some 0] [Some 1; Some 1] (e_lb o2) (e_ub o2) [1/5; 1/10] [[1; 0]; [0; 3]] 0 d1 d2.
Proof.
  pose proof best_solver_exact as X. destruct ex_c143_max_sharpe as (w2 & o2 & x1 & y1 & d1 & x2 & y2 & d2 & T & E1 & E2 & _). exists w2, o2, x1, y1, d1, x2, y2, d2. split; [exact T|]. split; [exact E1|]. split; [exact E2|].
  exact (c145_max_sharpe lab_mu _ _ _ _ _ _ _ _ _ _ diag_psd T _ _ _ _ _ _ _ _ tickers_nodup X X 0 E1 E2).
Qed.
Example ex_c145_utility : exists w2 o2 x1 y1 d1 x2 y2 d2 lb ub lb' ub', wide_ef (-1) 2 w2 o2 /\ max_quadratic_utility best_solver 1 false lab_world (lab_ef 1 3) = (x1, y1, Ok d1) /\ max_quadratic_utility best_solver 1 false w2 o2 = (x2, y2, Ok d2) /\
  unbound [LStr "A"; LStr "B"] lb ub lb' ub' 1 (fun _ => True) (fun x => - (inner [1/5; 1/10] x - 1 / 2 * qform [[1; 0]; [0; 3]] x)) d1 d2.
Proof.
  pose proof best_solver_exact as X. destruct ex_c143_utility as (w2 & o2 & x1 & y1 & d1 & x2 & y2 & d2 & _ & _ & _ & _ & T & E1 & E2 & _).
  destruct (c145_quadratic_utility lab_mu _ _ _ _ _ _ _ _ _ _ diag_psd T _ _ _ _ _ _ _ _ tickers_nodup X X 1 false (kind_long _ _) E1 E2) as (lb & ub & lb' & ub' & _ & _ & A). exists w2, o2, x1, y1, d1, x2, y2, d2, lb, ub, lb', ub'. split; [exact T|]. split; [exact E1|]. split; [exact E2|exact A].
Qed.
Example ex_c145_return : exists w2 o2 x1 y1 d1 x2 y2 d2 lb ub lb' ub', wide_ef (-1) 2 w2 o2 /\ efficient_return best_solver (NFloat (9/50)) false lab_world (lab_ef 1 3) = (x1, y1, Ok d1) /\ efficient_return best_solver (NFloat (9/50)) false w2 o2 = (x2, y2, Ok d2) /\
  unbound [LStr "A"; LStr "B"] lb ub lb' ub' 1 (fun x => 9/50 <= inner [1/5; 1/10] x) (qform [[1; 0]; [0; 3]]) d1 d2.
Proof.
  pose proof best_solver_exact as X. destruct ex_c143_return as (w2 & o2 & x1 & y1 & d1 & x2 & y2 & d2 & _ & _ & _ & _ & T & E1 & E2 & _).
  destruct (c145_efficient_return lab_mu _ _ _ _ _ _ _ _ _ _ diag_psd T _ _ _ _ _ _ _ _ tickers_nodup X X (9/50) false (kind_long _ _) E1 E2) as (lb & ub & lb' & ub' & _ & _ & A). exists w2, o2, x1, y1, d1, x2, y2, d2, lb, ub, lb', ub'. split; [exact T|]. split; [exact E1|]. split; [exact E2|exact A].
Qed.
Example ex_c145_risk : exists w2 o2 x1 y1 d1 x2 y2 d2 lb ub lb' ub', wide_ef (-1) 2 w2 o2 /\ efficient_risk best_solver pinv_a (NFloat 1) false lab_world (lab_ef 1 3) = (x1, y1, Ok d1) /\ efficient_risk best_solver pinv_a (NFloat 1) false w2 o2 = (x2, y2, Ok d2) /\
  unbound [LStr "A"; LStr "B"] lb ub lb' ub' 1 (fun x => qform [[1; 0]; [0; 3]] x <= 1 * 1) (fun x => - inner [1/5; 1/10] x) d1 d2.
Proof.
  pose proof best_solver_exact as X. destruct ex_c143_risk as (w2 & o2 & x1 & y1 & d1 & x2 & y2 & d2 & _ & _ & _ & _ & T & E1 & E2 & _).
  destruct (c145_efficient_risk lab_mu _ _ _ _ _ _ _ _ _ _ diag_psd T _ _ _ _ _ _ _ _ tickers_nodup X X pinv_a pinv_a 1 false (kind_long _ _) E1 E2) as (lb & ub & lb' & ub' & _ & _ & A). exists w2, o2, x1, y1, d1, x2, y2, d2, lb, ub, lb', ub'. split; [exact T|]. split; [exact E1|]. split; [exact E2|exact A].
Qed.
Example ex_c145_semi : exists w1 w2 o1 o2 d1 d2, semi_wider dd_mu rows0 1 0 long (around (-1) 2) w00 w00 w1 w2 o1 o2 d1 d2 /\
  (exists r r' lb ub lb' ub', (exists x y, min_semivariance best_solver d1 false w1 o1 = (x, y, Ok r)) /\ (exists x y, min_semivariance best_solver d2 false w2 o2 = (x, y, Ok r')) /\ unbound (map fst dd_mu) lb ub lb' ub' 1 (fun _ => True) (semivariance (dropna rows0) (0 * 1)) r r') /\
  (exists r r' lb ub lb' ub', (exists x y, semi_efficient_risk best_solver d1 1 false w1 o1 = (x, y, Ok r)) /\ (exists x y, semi_efficient_risk best_solver d2 1 false w2 o2 = (x, y, Ok r')) /\ unbound (map fst dd_mu) lb ub lb' ub' 1 (fun x => 1 * semivariance (dropna rows0) (0 * 1) x <= 1 * 1) (fun x => - inner [1/10; 1/10] x) r r') /\
  (exists r r' lb ub lb' ub', (exists x y, semi_max_quadratic_utility best_solver d1 1 false w1 o1 = (x, y, Ok r)) /\ (exists x y, semi_max_quadratic_utility best_solver d2 1 false w2 o2 = (x, y, Ok r')) /\ unbound (map fst dd_mu) lb ub lb' ub' 1 (fun _ => True) (fun x => - inner [1/10; 1/10] x / 1 + 1 / 2 * 1 * semivariance (dropna rows0) (0 * 1) x) r r').
Proof.
  pose proof best_solver_exact as X. destruct ex_c143_semi as (w1 & w2 & o1 & o2 & d1 & d2 & T & ((x1 & y1 & r1 & E1) & (z1 & u1 & s1 & F1)) & ((x2 & y2 & r2 & E2) & (z2 & u2 & s2 & F2)) & ((x3 & y3 & r3 & E3) & (z3 & u3 & s3 & F3)) & _).
  exists w1, w2, o1, o2, d1, d2. split; [exact T|]. split; [|split].
  - destruct (c145_min_semivariance _ _ _ _ _ _ _ _ _ _ _ _ _ _ T _ _ false X X (kind_long _ _) _ _ _ _ _ _ dd_nodup E1 F1) as (lb & ub & lb' & ub' & _ & _ & A). exists r1, s1, lb, ub, lb', ub'. split; [eexists _, _; exact E1|]. split; [eexists _, _; exact F1|exact A].
  - destruct (c145_semivariance_risk _ _ _ _ _ _ _ _ _ _ _ _ _ _ T _ _ false X X (kind_long _ _) 1 ltac:(lra) _ _ _ _ _ _ dd_nodup E2 F2) as (lb & ub & lb' & ub' & _ & _ & A). exists r2, s2, lb, ub, lb', ub'. split; [eexists _, _; exact E2|]. split; [eexists _, _; exact F2|exact A].
  - destruct (c145_semivariance_utility _ _ _ _ _ _ _ _ _ _ _ _ _ _ T _ _ false X X (kind_long _ _) 1 _ _ _ _ _ _ dd_nodup E3 F3) as (lb & ub & lb' & ub' & _ & _ & A). exists r3, s3, lb, ub, lb', ub'. split; [eexists _, _; exact E3|]. split; [eexists _, _; exact F3|exact A].
Qed.
Example ex_c145_cvar : exists w1 w2 o1 o2 d1 d2, cvar_wider dd_mu rows0 0 long (around (-1) 2) w00 w00 w1 w2 o1 o2 d1 d2 /\
  (exists r r' lb ub lb' ub', (exists x y, min_cvar best_solver d1 false w1 o1 = (x, y, Ok r)) /\ (exists x y, min_cvar best_solver d2 false w2 o2 = (x, y, Ok r')) /\ unbound (map fst dd_mu) lb ub lb' ub' 1 (fun _ => True) (cvar 0 (dropna rows0)) r r') /\
  (exists r r' lb ub lb' ub', (exists x y, cvar_efficient_risk best_solver d1 1 false w1 o1 = (x, y, Ok r)) /\ (exists x y, cvar_efficient_risk best_solver d2 1 false w2 o2 = (x, y, Ok r')) /\ unbound (map fst dd_mu) lb ub lb' ub' 1 (fun x => cvar 0 (dropna rows0) x <= 1) (fun x => - inner [1/10; 1/10] x) r r') /\
  (exists r r' lb ub lb' ub', (exists x y, cvar_efficient_return best_solver d1 (1/10) false w1 o1 = (x, y, Ok r)) /\ (exists x y, cvar_efficient_return best_solver d2 (1/10) false w2 o2 = (x, y, Ok r')) /\ unbound (map fst dd_mu) lb ub lb' ub' 1 (fun x => 1/10 <= inner [1/10; 1/10] x) (cvar 0 (dropna rows0)) r r').
Proof.
  pose proof best_solver_exact as X. destruct ex_c143_cvar as (w1 & w2 & o1 & o2 & d1 & d2 & T & ((x1 & y1 & r1 & E1) & (z1 & u1 & s1 & F1)) & ((x2 & y2 & r2 & E2) & (z2 & u2 & s2 & F2)) & ((x3 & y3 & r3 & E3) & (z3 & u3 & s3 & F3)) & _).
  exists w1, w2, o1, o2, d1, d2. split; [exact T|]. split; [|split].
  - destruct (c145_min_cvar _ _ _ _ _ _ _ _ _ _ _ _ _ T _ _ false X X (kind_long _ _) _ _ _ _ _ _ dd_nodup E1 F1) as (lb & ub & lb' & ub' & _ & _ & A). exists r1, s1, lb, ub, lb', ub'. split; [eexists _, _; exact E1|]. split; [eexists _, _; exact F1|exact A].
  - destruct (c145_cvar_risk _ _ _ _ _ _ _ _ _ _ _ _ _ T _ _ false X X (kind_long _ _) 1 _ _ _ _ _ _ dd_nodup E2 F2) as (lb & ub & lb' & ub' & _ & _ & A). exists r2, s2, lb, ub, lb', ub'. split; [eexists _, _; exact E2|]. split; [eexists _, _; exact F2|exact A].
  - destruct (c145_cvar_return _ _ _ _ _ _ _ _ _ _ _ _ _ T _ _ false X X (kind_long _ _) (1/10) _ _ _ _ _ _ dd_nodup E3 F3) as (lb & ub & lb' & ub' & _ & _ & A). exists r3, s3, lb, ub, lb', ub'. split; [eexists _, _; exact E3|]. split; [eexists _, _; exact F3|exact A].
Qed.
Example ex_c145_cdar : exists w1 w2 o1 o2 d1 d2, cdar_wider dd_mu rows0 0 long (around (-1) 2) w00 w00 w1 w2 o1 o2 d1 d2 /\
  (exists r r' lb ub lb' ub', (exists x y, min_cdar best_solver d1 false w1 o1 = (x, y, Ok r)) /\ (exists x y, min_cdar best_solver d2 false w2 o2 = (x, y, Ok r')) /\ unbound (map fst dd_mu) lb ub lb' ub' 1 (fun _ => True) (cdar 0 (dropna rows0)) r r') /\
  (exists r r' lb ub lb' ub', (exists x y, cdar_efficient_risk best_solver d1 1 false w1 o1 = (x, y, Ok r)) /\ (exists x y, cdar_efficient_risk best_solver d2 1 false w2 o2 = (x, y, Ok r')) /\ unbound (map fst dd_mu) lb ub lb' ub' 1 (fun x => cdar 0 (dropna rows0) x <= 1) (fun x => - inner [1/10; 1/10] x) r r') /\
  (exists r r' lb ub lb' ub', (exists x y, cdar_efficient_return best_solver d1 (1/10) false w1 o1 = (x, y, Ok r)) /\ (exists x y, cdar_efficient_return best_solver d2 (1/10) false w2 o2 = (x, y, Ok r')) /\ unbound (map fst dd_mu) lb ub lb' ub' 1 (fun x => 1/10 <= inner [1/10; 1/10] x) (cdar 0 (dropna rows0)) r r').
Proof.
  pose proof best_solver_exact as X. destruct ex_c143_cdar as (w1 & w2 & o1 & o2 & d1 & d2 & T & ((x1 & y1 & r1 & E1) & (z1 & u1 & s1 & F1)) & ((x2 & y2 & r2 & E2) & (z2 & u2 & s2 & F2)) & ((x3 & y3 & r3 & E3) & (z3 & u3 & s3 & F3)) & _).
  exists w1, w2, o1, o2, d1, d2. split; [exact T|]. split; [|split].
  - destruct (c145_min_cdar _ _ _ _ _ _ _ _ _ _ _ _ _ T _ _ false X X (kind_long _ _) _ _ _ _ _ _ dd_nodup E1 F1) as (lb & ub & lb' & ub' & _ & _ & A). exists r1, s1, lb, ub, lb', ub'. split; [eexists _, _; exact E1|]. split; [eexists _, _; exact F1|exact A].
  - destruct (c145_cdar_risk _ _ _ _ _ _ _ _ _ _ _ _ _ T _ _ false X X (kind_long _ _) 1 _ _ _ _ _ _ dd_nodup E2 F2) as (lb & ub & lb' & ub' & _ & _ & A). exists r2, s2, lb, ub, lb', ub'. split; [eexists _, _; exact E2|]. split; [eexists _, _; exact F2|exact A].
  - destruct (c145_cdar_return _ _ _ _ _ _ _ _ _ _ _ _ _ T _ _ false X X (kind_long _ _) (1/10) _ _ _ _ _ _ dd_nodup E3 F3) as (lb & ub & lb' & ub' & _ & _ & A). exists r3, s3, lb, ub, lb', ub'. split; [eexists _, _; exact E3|]. split; [eexists _, _; exact F3|exact A].
Qed.
Example ex_c145_semivariance_return : exists w1 w2 o1 o2 d1 d2 r r' lb ub lb' ub', semi_wider dd_mu rows0 1 0 long (around (-1) 2) w00 w00 w1 w2 o1 o2 d1 d2 /\
  unbound (map fst dd_mu) lb ub lb' ub' 1 (fun x => 1/10 <= inner [1/10; 1/10] x) (semivariance (dropna rows0) (0 * 1)) r r'.
Proof.
  pose proof best_solver_exact as X. destruct ex_c143_semivariance_return as (w1 & w2 & o1 & o2 & d1 & d2 & T & (x1 & y1 & r1 & E1) & (x2 & y2 & r2 & E2)).
  destruct (c145_semivariance_return _ _ _ _ _ _ _ _ _ _ _ _ _ _ T _ _ false X X (kind_long _ _) (1/10) _ _ _ _ _ _ dd_nodup E1 E2) as (lb & ub & lb' & ub' & _ & _ & A). exists w1, w2, o1, o2, d1, d2, r1, r2, lb, ub, lb', ub'. split; [exact T|exact A].
Qed.
