(** * Concrete cases for the theorems in PropertiesShift.v *)
From Coq Require Import ZArith String List Bool Reals Lra Lia.
From Verif Require Import Num Py RBase PyLemmas Sums Mat PBase SBL MBase MConvex MEF SLin SBase SConvex SPerm PConvex PEF PEF2 PEFW PDownW PPerm PPerm2 PPerm3 PPerm4 SShift PShift PShiftW ExamplesPerm PropertiesShift.
Import ListNotations.
Local Open Scope R_scope.

(** two assets, and the same with another level of returns *)
Definition levels (c : R) (w2 : world) (o2 : ef) : Prop :=
  shifted c lab_mu [LStr "A"; LStr "B"] [[1; 0]; [0; 3]] (BPair (Some 0) (Some 1)) blank blank lab_world w2 (lab_ef 1 3) o2.
Example ex_c138_shifted : forall c, exists w2 o2, levels c w2 o2.
Proof.
  intros c. destruct (c138_accepted c lab_mu [LStr "A"; LStr "B"] [[1; 0]; [0; 3]] (BPair (Some 0) (Some 1)) blank blank _ _ diag_square (lab_init _ _ _)) as [w2 [o2 E]].
  exists w2, o2. split; [exact diag_square|]. split; [apply lab_init|exact E].
Qed.
Example ex_c138_min_volatility : exists w2 o2 x1 y1 d1 x2 y2 d2, levels (-1) w2 o2 /\ min_volatility best_solver lab_world (lab_ef 1 3) = (x1, y1, Ok d1) /\
  min_volatility best_solver w2 o2 = (x2, y2, Ok d2) /\ agree d1 d2.
Proof.
  destruct (ex_c138_shifted (-1)) as [w2 [o2 T]]. destruct quarters as [Q1 Q2].
  destruct (lab_best best_solver 1 3 (3/4) (1/4) best_solver_exact best_solver_complete ltac:(lra) ltac:(lra) ltac:(lra) ltac:(lra) ltac:(lra) ltac:(lra) Q1 Q2) as [x1 [y1 E1]].
  pose proof (proj1 (c138_min_volatility_both _ _ _ _ _ _ _ _ _ _ _ T _ _ best_solver_exact best_solver_exact best_solver_complete best_solver_complete)) as B.
  destruct B as [x2 [y2 [d2 E2]]]; [eexists _, _, _; exact E1|].
  exists w2, o2, x1, y1. eexists. exists x2, y2, d2. split; [exact T|]. split; [exact E1|]. split; [exact E2|].
  exact (c138_same_min_volatility _ _ _ _ _ _ _ _ _ _ _ T _ _ _ _ _ _ _ _ tickers_nodup best_solver_exact best_solver_exact diag_pos E1 E2).
Qed.
Example ex_c138_utility : exists w2 o2 x1 y1 d1 x2 y2 d2, levels 1 w2 o2 /\ max_quadratic_utility best_solver 1 false lab_world (lab_ef 1 3) = (x1, y1, Ok d1) /\
  max_quadratic_utility best_solver 1 false w2 o2 = (x2, y2, Ok d2) /\ agree d1 d2.
Proof.
  destruct (ex_c138_shifted 1) as [w2 [o2 T]]. destruct ex_c41_utility as (_ & _ & x1 & y1 & d1 & _ & _ & _ & _ & E1 & _).
  destruct (proj1 (c138_utility_both _ _ _ _ _ _ _ _ _ _ _ T _ _ best_solver_exact best_solver_exact best_solver_complete best_solver_complete 1 false)) as [x2 [y2 [d2 E2]]]; [eexists _, _, _; exact E1|].
  exists w2, o2, x1, y1, d1, x2, y2, d2. split; [exact T|]. split; [exact E1|]. split; [exact E2|].
  exact (c138_same_utility _ _ _ _ _ _ _ _ _ _ _ T _ _ _ _ _ _ _ _ tickers_nodup best_solver_exact best_solver_exact diag_pos 1 false ltac:(lra) E1 E2).
Qed.
Example ex_c138_return : exists w2 o2 x1 y1 d1 x2 y2 d2, levels (-1) w2 o2 /\ efficient_return best_solver (NFloat (9/50)) false lab_world (lab_ef 1 3) = (x1, y1, Ok d1) /\
  efficient_return best_solver (NFloat (9/50 + -1)) false w2 o2 = (x2, y2, Ok d2) /\ agree d1 d2.
Proof.
  destruct (ex_c138_shifted (-1)) as [w2 [o2 T]]. destruct ex_c41_return as (_ & _ & x1 & y1 & d1 & _ & _ & _ & _ & E1 & _).
  destruct (proj1 (c138_return_both _ _ _ _ _ _ _ _ _ _ _ T _ _ best_solver_exact best_solver_exact best_solver_complete best_solver_complete (9/50))) as [x2 [y2 [d2 E2]]]; [eexists _, _, _; exact E1|].
  exists w2, o2, x1, y1, d1, x2, y2, d2. split; [exact T|]. split; [exact E1|]. split; [exact E2|].
  exact (c138_same_return _ _ _ _ _ _ _ _ _ _ _ T _ _ _ _ _ _ _ _ tickers_nodup best_solver_exact best_solver_exact diag_pos _ false E1 E2).
Qed.
Example ex_c138_neutral : exists w2 o2 x1 y1 d1 x2 y2 d2, levels 1 w2 o2 /\ efficient_return best_solver (NFloat (1/20)) true lab_world (lab_ef 1 3) = (x1, y1, Ok d1) /\
  efficient_return best_solver (NFloat (1/20)) true w2 o2 = (x2, y2, Ok d2) /\ agree d1 d2.
Proof.
  destruct (ex_c138_shifted 1) as [w2 [o2 T]]. pose proof (neutral_found _ best_solver_exact best_solver_complete) as S1.
  destruct (c138_return_neutral_up _ _ _ _ _ _ _ _ _ _ _ T _ _ best_solver_exact best_solver_exact best_solver_complete best_solver_complete (1/20) ltac:(lra) S1) as [x2 [y2 [d2 E2]]].
  destruct S1 as [x1 [y1 [d1 E1]]]. exists w2, o2, x1, y1, d1, x2, y2, d2. split; [exact T|]. split; [exact E1|]. split; [exact E2|].
  exact (c138_same_return _ _ _ _ _ _ _ _ _ _ _ T _ _ _ _ _ _ _ _ tickers_nodup best_solver_exact best_solver_exact diag_pos _ true E1 E2).
Qed.
Example ex_c138_max_sharpe : exists w2 o2 x1 y1 d1 x2 y2 d2, levels 1 w2 o2 /\ max_sharpe best_solver (NFloat 0) lab_world (lab_ef 1 3) = (x1, y1, Ok d1) /\
  max_sharpe best_solver (NFloat (0 + 1)) w2 o2 = (x2, y2, Ok d2) /\ agree d1 d2.
Proof.
  destruct (ex_c138_shifted 1) as [w2 [o2 T]]. destruct ex_c41_max_sharpe as (_ & _ & x1 & y1 & d1 & _ & _ & _ & _ & E1 & _).
  assert (F1 : Forall (fun c => c <> None) (e_lb (lab_ef 1 3))) by (repeat constructor; discriminate).
  assert (F2 : Forall (fun c => c <> None) (e_ub (lab_ef 1 3))) by (repeat constructor; discriminate).
  destruct (proj1 (c138_max_sharpe_both _ _ _ _ _ _ _ _ _ _ _ T _ _ best_solver_exact best_solver_exact best_solver_complete best_solver_complete 0 diag_psd F1 F2)) as [x2 [y2 [d2 E2]]]; [eexists _, _, _; exact E1|].
  exists w2, o2, x1, y1, d1, x2, y2, d2. split; [exact T|]. split; [exact E1|]. split; [exact E2|].
  exact (c138_same_max_sharpe _ _ _ _ _ _ _ _ _ _ _ T _ _ _ _ _ _ _ _ tickers_nodup best_solver_exact best_solver_exact diag_pos _ E1 E2).
Qed.
Example ex_c138_risk : exists w2 o2 x1 y1 d1 x2 y2 d2, levels (-1) w2 o2 /\ efficient_risk best_solver pinv_a (NFloat 1) false lab_world (lab_ef 1 3) = (x1, y1, Ok d1) /\
  efficient_risk best_solver pinv_a (NFloat 1) false w2 o2 = (x2, y2, Ok d2) /\
  answers (map fst lab_mu) [Some 0; Some 0] [Some 1; Some 1] 1 (fun x => qform [[1; 0]; [0; 3]] x <= 1 * 1) (fun x => - inner (map snd lab_mu) x) d2.
Proof.
  destruct (ex_c138_shifted (-1)) as [w2 [o2 T]].
  assert (S1 : succeeds (efficient_risk best_solver pinv_a (NFloat 1) false) lab_world (lab_ef 1 3)).
  { apply (risk_iff _ _ _ best_solver_exact best_solver_complete (lab_open 1 3) eq_refl [1/5; 1/10] eq_refl false pinv_a (NFloat 1) 1 eq_refl (fresh2 _)).
    split; [lra|]. split.
    - unfold below_global_min, pinv_a. rewrite vsum_total. rewrite (map_ext vsum total vsum_total). cbn [map total].
      rewrite (proj2 (Reqb_false _ 0)) by lra. rewrite (proj2 (Rltb_false _ 0)) by lra. apply Rltb_false. apply (Rle_trans _ (sqrt 1)); [apply sqrt_le_1_alt; lra|rewrite sqrt_1; lra].
    - exists [Some 0; Some 0], [Some 1; Some 1], [1; 0]. split; [exact force2|]. change (e_cov (lab_ef 1 3)) with [[1; 0]; [0; 3]].
      apply chosen2; try lra; [rewrite lab_q; lra|]. intros a Ha _. rewrite !r2'. lra. }
  destruct (proj1 (c138_risk_both _ _ _ _ _ _ _ _ _ _ _ T _ _ best_solver_exact best_solver_exact best_solver_complete best_solver_complete pinv_a 1 false) S1) as [x2 [y2 [d2 E2]]].
  destruct S1 as [x1 [y1 [d1 E1]]]. exists w2, o2, x1, y1, d1, x2, y2, d2. split; [exact T|]. split; [exact E1|]. split; [exact E2|].
  destruct (c138_risk _ _ _ _ _ _ _ _ _ _ _ T _ _ _ _ _ _ _ _ tickers_nodup best_solver_exact best_solver_exact _ _ _ _ E1 E2) as [lb [ub [tv [Et [B [_ A]]]]]].
  inversion Et; subst tv. destruct (in_force_unique _ _ _ _ _ _ B force2) as [-> ->]. exact A.
Qed.
