(** * Concrete cases for the theorems in PropertiesUnits.v *)
From Coq Require Import ZArith String List Bool Reals Lra Lia.
From Verif Require Import Num Py MAlloc SAlloc RBase PyLemmas Sums Mat PBase SBL MBase MFrame MConvex MEF SLin SBase SConvex SPerm PConvex PEF PEF2 PEFW PDownW PPerm PPerm2 PPerm3 PPerm4 MReturns SReturns SUnits ExamplesPerm PropertiesUnits.
Import ListNotations.
Local Open Scope R_scope.

(** two assets: daily data, and the same data for a year *)
Definition yearly (a k : R) (w2 : world) (o2 : ef) : Prop :=
  measured a k lab_mu [LStr "A"; LStr "B"] [[1; 0]; [0; 3]] (BPair (Some 0) (Some 1))
    (mkWorld [] (fun _ => None) [] 0) (mkWorld [] (fun _ => None) [] 0) lab_world w2 (lab_ef 1 3) o2.
Example ex_c129_measured : forall a k, 0 < a -> 0 < k -> exists w2 o2, yearly a k w2 o2.
Proof.
  intros a k Ha Hk. destruct (c129_accepted a k lab_mu [LStr "A"; LStr "B"] [[1; 0]; [0; 3]] (BPair (Some 0) (Some 1)) (mkWorld [] (fun _ => None) [] 0) (mkWorld [] (fun _ => None) [] 0) _ _
    diag_square (lab_init _ _ _)) as [w2 [o2 E]].
  exists w2, o2. split; [exact Ha|]. split; [exact Hk|]. split; [exact diag_square|]. split; [apply lab_init|exact E].
Qed.
Example ex_c129_min_volatility : exists w2 o2 x1 y1 d1 x2 y2 d2, yearly 252 252 w2 o2 /\ min_volatility best_solver lab_world (lab_ef 1 3) = (x1, y1, Ok d1) /\
  min_volatility best_solver w2 o2 = (x2, y2, Ok d2) /\ agree d1 d2.
Proof.
  destruct (ex_c129_measured 252 252 ltac:(lra) ltac:(lra)) as [w2 [o2 T]]. destruct quarters as [Q1 Q2].
  destruct (lab_best best_solver 1 3 (3/4) (1/4) best_solver_exact best_solver_complete ltac:(lra) ltac:(lra) ltac:(lra) ltac:(lra) ltac:(lra) ltac:(lra) Q1 Q2) as [x1 [y1 E1]].
  pose proof (proj1 (c129_min_volatility_both _ _ _ _ _ _ _ _ _ _ _ _ T _ _ best_solver_exact best_solver_exact best_solver_complete best_solver_complete)) as B.
  destruct B as [x2 [y2 [d2 E2]]]; [eexists _, _, _; exact E1|].
  exists w2, o2, x1, y1. eexists. exists x2, y2, d2. split; [exact T|]. split; [exact E1|]. split; [exact E2|].
  exact (c129_same_min_volatility _ _ _ _ _ _ _ _ _ _ _ _ T _ _ _ _ _ _ _ _ tickers_nodup diag_pos best_solver_exact best_solver_exact E1 E2).
Qed.
Example ex_c129_utility : exists w2 o2 x1 y1 d1 x2 y2 d2, yearly 252 252 w2 o2 /\ max_quadratic_utility best_solver 1 false lab_world (lab_ef 1 3) = (x1, y1, Ok d1) /\
  max_quadratic_utility best_solver (1 * 252 / 252) false w2 o2 = (x2, y2, Ok d2) /\ agree d1 d2.
Proof.
  destruct (ex_c129_measured 252 252 ltac:(lra) ltac:(lra)) as [w2 [o2 T]]. destruct ex_c41_utility as (_ & _ & x1 & y1 & d1 & _ & _ & _ & _ & E1 & _).
  destruct (proj1 (c129_utility_both _ _ _ _ _ _ _ _ _ _ _ _ T _ _ best_solver_exact best_solver_exact best_solver_complete best_solver_complete 1 false)) as [x2 [y2 [d2 E2]]]; [eexists _, _, _; exact E1|].
  exists w2, o2, x1, y1, d1, x2, y2, d2. split; [exact T|]. split; [exact E1|]. split; [exact E2|].
  exact (c129_same_utility _ _ _ _ _ _ _ _ _ _ _ _ T _ _ _ _ _ _ _ _ tickers_nodup diag_pos best_solver_exact best_solver_exact 1 false ltac:(lra) E1 E2).
Qed.
Example ex_c129_return : exists w2 o2 x1 y1 d1 x2 y2 d2, yearly 252 252 w2 o2 /\ efficient_return best_solver (NFloat (9/50)) false lab_world (lab_ef 1 3) = (x1, y1, Ok d1) /\
  efficient_return best_solver (NFloat (252 * (9/50))) false w2 o2 = (x2, y2, Ok d2) /\ agree d1 d2.
Proof.
  destruct (ex_c129_measured 252 252 ltac:(lra) ltac:(lra)) as [w2 [o2 T]]. destruct ex_c41_return as (_ & _ & x1 & y1 & d1 & _ & _ & _ & _ & E1 & _).
  destruct (proj1 (c129_return_both _ _ _ _ _ _ _ _ _ _ _ _ T _ _ best_solver_exact best_solver_exact best_solver_complete best_solver_complete (9/50) false)) as [x2 [y2 [d2 E2]]]; [eexists _, _, _; exact E1|].
  exists w2, o2, x1, y1, d1, x2, y2, d2. split; [exact T|]. split; [exact E1|]. split; [exact E2|].
  exact (c129_same_return _ _ _ _ _ _ _ _ _ _ _ _ T _ _ _ _ _ _ _ _ tickers_nodup diag_pos best_solver_exact best_solver_exact _ _ E1 E2).
Qed.
Example ex_c129_max_sharpe : exists w2 o2 x1 y1 d1 x2 y2 d2, yearly 252 252 w2 o2 /\ max_sharpe best_solver (NFloat 0) lab_world (lab_ef 1 3) = (x1, y1, Ok d1) /\
  max_sharpe best_solver (NFloat (252 * 0)) w2 o2 = (x2, y2, Ok d2) /\ agree d1 d2.
Proof.
  destruct (ex_c129_measured 252 252 ltac:(lra) ltac:(lra)) as [w2 [o2 T]]. destruct ex_c41_max_sharpe as (_ & _ & x1 & y1 & d1 & _ & _ & _ & _ & E1 & _).
  assert (F1 : Forall (fun c => c <> None) (e_lb (lab_ef 1 3))) by (repeat constructor; discriminate).
  assert (F2 : Forall (fun c => c <> None) (e_ub (lab_ef 1 3))) by (repeat constructor; discriminate).
  destruct (proj1 (c129_max_sharpe_both _ _ _ _ _ _ _ _ _ _ _ _ T _ _ best_solver_exact best_solver_exact best_solver_complete best_solver_complete 0 diag_psd F1 F2)) as [x2 [y2 [d2 E2]]]; [eexists _, _, _; exact E1|].
  exists w2, o2, x1, y1, d1, x2, y2, d2. split; [exact T|]. split; [exact E1|]. split; [exact E2|].
  exact (c129_same_max_sharpe _ _ _ _ _ _ _ _ _ _ _ _ T _ _ _ _ _ _ _ _ tickers_nodup diag_pos best_solver_exact best_solver_exact _ E1 E2).
Qed.
(** the exact inverses in the two units, and a risk target that can be met *)
Definition pinv_y (_ : list (list R)) : list (list R) := cov_times (/ 252) [[1; 0]; [0; 1/3]].
Example ex_c129_risk : exists w2 o2 x1 y1 d1 x2 y2 d2, yearly 252 252 w2 o2 /\ inverse_times 252 [[1; 0]; [0; 3]] pinv_a pinv_y /\
  efficient_risk best_solver pinv_a (NFloat 1) false lab_world (lab_ef 1 3) = (x1, y1, Ok d1) /\
  efficient_risk best_solver pinv_y (NFloat (sqrt 252 * 1)) false w2 o2 = (x2, y2, Ok d2).
Proof.
  destruct (ex_c129_measured 252 252 ltac:(lra) ltac:(lra)) as [w2 [o2 T]]. assert (I : inverse_times 252 [[1; 0]; [0; 3]] pinv_a pinv_y) by reflexivity.
  assert (S1 : succeeds (efficient_risk best_solver pinv_a (NFloat 1) false) lab_world (lab_ef 1 3)).
  { apply (risk_iff _ _ _ best_solver_exact best_solver_complete (lab_open 1 3) eq_refl [1/5; 1/10] eq_refl false pinv_a (NFloat 1) 1 eq_refl (fresh2 _)).
    split; [lra|]. split.
    - unfold below_global_min, pinv_a. rewrite vsum_total. rewrite (map_ext vsum total vsum_total). cbn [map total].
      rewrite (proj2 (Reqb_false _ 0)) by lra. rewrite (proj2 (Rltb_false _ 0)) by lra. apply Rltb_false. apply (Rle_trans _ (sqrt 1)); [apply sqrt_le_1_alt; lra|rewrite sqrt_1; lra].
    - exists [Some 0; Some 0], [Some 1; Some 1], [1; 0]. split; [exact force2|]. change (e_cov (lab_ef 1 3)) with [[1; 0]; [0; 3]].
      apply chosen2; try lra; [rewrite lab_q; lra|]. intros a Ha _. rewrite !r2'. lra. }
  destruct (proj1 (c129_risk_both _ _ _ _ _ _ _ _ _ _ _ _ T _ _ best_solver_exact best_solver_exact best_solver_complete best_solver_complete pinv_a pinv_y 1 false I) S1) as [x2 [y2 [d2 E2]]].
  destruct S1 as [x1 [y1 [d1 E1]]]. exists w2, o2, x1, y1, d1, x2, y2, d2. auto.
Qed.
(** two assets on three dates with a gap: the first after a 2:1 split, the second in another currency *)
Definition gappy : frame (option R) := mkFrame [LInt 0; LInt 1; LInt 2] [LStr "A"; LStr "B"] [[Some 1; Some 10]; [Some 2; None]; [Some 3; Some 5]].
Example ex_c129_prices : price_units [1/2; 3] gappy /\ repriced [1/2; 3] gappy <> gappy /\
  returns_from_prices (repriced [1/2; 3] gappy) false = returns_from_prices gappy false.
Proof.
  split; [|split].
  - split; [repeat constructor; lra|repeat constructor].
  - unfold repriced, gappy. cbn. intros E. injection E. intros. lra.
  - apply c129_returns. split; [repeat constructor; lra|repeat constructor].
Qed.
(** dollars and cents *)
From Verif Require Import PAllocW ExamplesAlloc.
Example ex_c129_lp : exact_milp (in_units 100 one_solver) /\ exists d' d'' al lo, lp_portfolio one_solver exlp false = (d', Ok (al, lo)) /\
  lp_portfolio (in_units 100 one_solver) (da_times 100 exlp) false = (d'', Ok (al, 100 * lo)).
Proof.
  destruct exlp_meets_c09 as (X & _ & _ & _ & d' & al & lo & E). split; [apply c129_lp_exact; [lra|exact X]|].
  exists d', (da_times 100 d'), al, lo. split; [exact E|]. rewrite c129_lp by lra. rewrite E. reflexivity.
Qed.
Example ex_c129_greedy : exists d', greedy_portfolio 10 (da_times 100 ex3) false = (d', Ok ([(L "A", 16%Z); (L "B", 4%Z); (L "C", 2%Z)], 100 * 2)).
Proof. destruct ex3_run as [d' E]. rewrite c129_greedy by lra. rewrite E. eexists. reflexivity. Qed.
