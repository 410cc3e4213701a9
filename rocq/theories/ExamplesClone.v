(** * Concrete cases for the theorems in PropertiesClone.v *)
From Coq Require Import ZArith String List Bool Reals Lra Lia.
From Verif Require Import Num Py RBase PyLemmas Sums Mat PBase SBL MBase MConvex MEF MDown SLin SBase SConvex SPerm SUnits SDown SDays SExist SEnds SClone PConvex PEF PEF2 PEFW PDown5 PDownW PPerm PPerm2 PPerm3 PPerm4 PExist4 PDays PDays2 PDays3 PShiftW PTail PClone PClone2 ExamplesPerm ExamplesDays ExamplesEnds PropertiesClone.
Import ListNotations.
Local Open Scope R_scope.

(** two assets, A a second time under the label C *)
Definition lab_c : label := LStr "C".
Definition copies (w2 : world) (o2 : ef) : Prop :=
  ef_clones lab_c 0 lab_mu [LStr "A"; LStr "B"] [lab_c; LStr "A"; LStr "B"] [[1; 0]; [0; 3]] blank blank lab_world w2 (lab_ef 1 3) o2.
Lemma lab_nodup : NoDup (map fst (mu_clone lab_c 0 lab_mu)).
Proof. repeat constructor; cbn; intuition discriminate. Qed.
Example ex_c141_clone : mu_clone lab_c 0 lab_mu = [(LStr "C", 1/5); (LStr "A", 1/5); (LStr "B", 1/10)] /\ cov_clone 0 [[1; 0]; [0; 3]] = [[1; 1; 0]; [1; 1; 0]; [0; 0; 3]] /\
  merge 0 [1/2; 1/4; 1/4] = [1/4 + 1/2; 1/4].
Proof. repeat split. Qed.
Example ex_c141_copies : exists w2 o2, copies w2 o2.
Proof.
  destruct (c141_accepted lab_c 0 lab_mu [LStr "A"; LStr "B"] [lab_c; LStr "A"; LStr "B"] [[1; 0]; [0; 3]] blank blank _ _ ltac:(cbn; lia) diag_square (lab_init _ _ _)) as [w2 [o2 E]].
  exists w2, o2. split; [cbn; lia|]. split; [exact diag_square|]. split; [apply lab_init|exact E].
Qed.
Ltac doubled := pose proof best_solver_exact as X; pose proof best_solver_complete as K; destruct ex_c141_copies as [w2 [o2 T]].
Example ex_c141_min_volatility : exists w2 o2 x2 y2 d2, copies w2 o2 /\ min_volatility best_solver w2 o2 = (x2, y2, Ok d2) /\
  merged_answers [lab_c; LStr "A"; LStr "B"] 0 (chosen 2 [Some 0; Some 0] [Some 1; Some 1] 1 (fun _ => True) (qform [[1; 0]; [0; 3]])) d2.
Proof.
  doubled. destruct quarters as [Q1 Q2].
  destruct (lab_best best_solver 1 3 (3/4) (1/4) best_solver_exact best_solver_complete ltac:(lra) ltac:(lra) ltac:(lra) ltac:(lra) ltac:(lra) ltac:(lra) Q1 Q2) as [x1 [y1 E1]].
  destruct (proj1 (c141_min_volatility_both _ _ _ _ _ _ _ _ _ _ _ _ T _ _ X X K K)) as [x2 [y2 [d2 E2]]]; [eexists _, _, _; exact E1|].
  exists w2, o2, x2, y2, d2. split; [exact T|]. split; [exact E2|]. exact (c141_min_volatility _ _ _ _ _ _ _ _ _ _ _ _ T _ _ _ _ lab_nodup X E2).
Qed.
Example ex_c141_utility : exists w2 o2 x2 y2 d2, copies w2 o2 /\ max_quadratic_utility best_solver 1 false w2 o2 = (x2, y2, Ok d2) /\
  merged_answers [lab_c; LStr "A"; LStr "B"] 0 (chosen 2 [Some 0; Some 0] [Some 1; Some 1] 1 (fun _ => True) (fun x => - (inner [1/5; 1/10] x - 1 / 2 * qform [[1; 0]; [0; 3]] x))) d2.
Proof.
  doubled. destruct ex_c41_utility as (_ & _ & x1 & y1 & d1 & _ & _ & _ & _ & E1 & _).
  destruct (proj1 (c141_quadratic_utility_both _ _ _ _ _ _ _ _ _ _ _ _ T _ _ X X K K 1)) as [x2 [y2 [d2 E2]]]; [eexists _, _, _; exact E1|].
  exists w2, o2, x2, y2, d2. split; [exact T|]. split; [exact E2|]. exact (c141_quadratic_utility _ _ _ _ _ _ _ _ _ _ _ _ T _ _ _ _ lab_nodup X 1 E2).
Qed.
Example ex_c141_return : exists w2 o2 x2 y2 d2, copies w2 o2 /\ efficient_return best_solver (NFloat (9/50)) false w2 o2 = (x2, y2, Ok d2) /\
  merged_answers [lab_c; LStr "A"; LStr "B"] 0 (chosen 2 [Some 0; Some 0] [Some 1; Some 1] 1 (fun x => 9/50 <= inner [1/5; 1/10] x) (qform [[1; 0]; [0; 3]])) d2.
Proof.
  doubled. destruct ex_c41_return as (_ & _ & x1 & y1 & d1 & _ & _ & _ & _ & E1 & _).
  destruct (proj1 (c141_efficient_return_both _ _ _ _ _ _ _ _ _ _ _ _ T _ _ X X K K (9/50))) as [x2 [y2 [d2 E2]]]; [eexists _, _, _; exact E1|].
  exists w2, o2, x2, y2, d2. split; [exact T|]. split; [exact E2|]. exact (c141_efficient_return _ _ _ _ _ _ _ _ _ _ _ _ T _ _ _ _ lab_nodup X _ E2).
Qed.
Example ex_c141_max_sharpe : exists w2 o2 x2 y2 d2, copies w2 o2 /\ max_sharpe best_solver (NFloat 0) w2 o2 = (x2, y2, Ok d2) /\
  merged_answers [lab_c; LStr "A"; LStr "B"] 0 (best_ratio 2 [Some 0; Some 0] [Some 1; Some 1] [1/5; 1/10] [[1; 0]; [0; 3]] 0) d2.
Proof.
  doubled. destruct ex_c41_max_sharpe as (_ & _ & x1 & y1 & d1 & _ & _ & _ & _ & E1 & _).
  destruct (proj1 (c141_max_sharpe_both _ _ _ _ _ _ _ _ _ _ _ _ T _ _ X X K K 0 diag_psd)) as [x2 [y2 [d2 E2]]]; [eexists _, _, _; exact E1|].
  exists w2, o2, x2, y2, d2. split; [exact T|]. split; [exact E2|]. exact (c141_max_sharpe _ _ _ _ _ _ _ _ _ _ _ _ T _ _ _ _ lab_nodup X 0 diag_psd E2).
Qed.
(** efficient_risk: the pseudo-inverse of the larger matrix *)
Definition pinv3 (_ : list (list R)) : list (list R) := [[1/4; 1/4; 0]; [1/4; 1/4; 0]; [0; 0; 1/3]].
Example ex_c141_risk : exists w2 o2 x2 y2 d2, copies w2 o2 /\ efficient_risk best_solver pinv3 (NFloat 1) false w2 o2 = (x2, y2, Ok d2) /\
  merged_answers [lab_c; LStr "A"; LStr "B"] 0 (chosen 2 [Some 0; Some 0] [Some 1; Some 1] 1 (fun x => qform [[1; 0]; [0; 3]] x <= 1 * 1) (fun x => - inner [1/5; 1/10] x)) d2.
Proof.
  doubled. pose proof T as (Hi & HM & _ & I2). destruct (long_facts (mu_clone lab_c 0 lab_mu) _ _ _ _ _ (cov_clone_square _ _ _ HM Hi) I2) as (O2 & N2 & A2 & T2 & M2 & C2 & LB2 & UB2 & R2 & F2).
  assert (S2 : succeeds (efficient_risk best_solver pinv3 (NFloat 1) false) w2 o2).
  { apply (risk_iff _ _ _ X K O2 A2 _ M2 false pinv3 (NFloat 1) 1 eq_refl (F2 _)). split; [lra|]. split.
    - unfold below_global_min, pinv3. rewrite vsum_total. rewrite (map_ext vsum total vsum_total). cbn [map total].
      rewrite (proj2 (Reqb_false _ 0)) by lra. rewrite (proj2 (Rltb_false _ 0)) by lra. apply Rltb_false. apply (Rle_trans _ (sqrt 1)); [apply sqrt_le_1_alt; lra|rewrite sqrt_1; lra].
    - rewrite N2, C2. apply (ex_force o2 3 3 _ _ LB2 UB2). apply (chosen_both 2 0 (fun x => qform [[1; 0]; [0; 3]] x <= 1 * 1) _ (fun x => - inner [1/5; 1/10] x)); [lia| | |].
      + intros x Lx Tx. rewrite (qform_clone 2 [[1; 0]; [0; 3]] 0 x HM ltac:(lia) Lx). tauto.
      + intros x Lx Tx. f_equal. apply (inner_clone [1/5; 1/10] 0 x Lx). cbn. lia.
      + exists [1; 0]. apply chosen2; try lra; [rewrite lab_q; lra|]. intros a Ha _. rewrite !r2'. lra. }
  destruct S2 as [x2 [y2 [d2 E2]]]. exists w2, o2, x2, y2, d2. split; [exact T|]. split; [exact E2|]. exact (c141_efficient_risk _ _ _ _ _ _ _ _ _ _ _ _ T _ _ _ _ lab_nodup X _ _ E2).
Qed.

(** the downside optimizers: two assets and three days, the second asset a second time *)
Lemma dd_nodup3 : NoDup (map fst (mu_clone lab_c 1 dd_mu)).
Proof. pose proof dd_nodup as H. cbn in *. constructor; [|exact H]. intros I. revert I. cbn. intuition discriminate. Qed.
Ltac prepc T := pose proof best_solver_exact as X; pose proof best_solver_complete as K; pose proof T as (Hi & Hg & I1 & I2);
  match goal with L : e_lb ?o = _, U : e_ub ?o = _ |- _ =>
    assert (Bl : bounded (e_lb o)) by (rewrite L; apply bnd); assert (Bu : bounded (e_ub o)) by (rewrite U; apply bnd);
    assert (Hb : bounds_in_force false o [Some 0; Some 0] [Some 1; Some 1]) by (right; rewrite L, U; auto) end.
Lemma copies_semi : exists w1 w2 o1 o2 d1 d2, semi_clones lab_c 1 dd_mu rows0 1 0 w00 w00 w1 w2 o1 o2 d1 d2 /\
  e_lb o1 = [Some 0; Some 0] /\ e_ub o1 = [Some 1; Some 1] /\ e_mu o1 = Some [1/10; 1/10] /\ e_n o1 = 2%nat.
Proof.
  destruct twins_s as (w1 & _ & o1 & _ & d1 & _ & (_ & _ & _ & _ & Hg & _ & E1 & _) & F).
  destruct (c141_semivariance_accepted lab_c 1 dd_mu rows0 1 0 w00 w00 _ _ _ ltac:(cbn; lia) E1) as (w2 & o2 & d2 & E2).
  exists w1, w2, o1, o2, d1, d2. split; [|exact F]. split; [cbn; lia|]. split; [exact Hg|]. split; [exact E1|exact E2].
Qed.
Example ex_c141_semivariance : exists w1 w2 o1 o2 d1 d2, semi_clones lab_c 1 dd_mu rows0 1 0 w00 w00 w1 w2 o1 o2 d1 d2 /\
  succeeds (min_semivariance best_solver d1 false) w1 o1 /\ succeeds (min_semivariance best_solver d2 false) w2 o2 /\
  succeeds (semi_efficient_risk best_solver d1 1 false) w1 o1 /\ succeeds (semi_efficient_risk best_solver d2 1 false) w2 o2 /\
  succeeds (semi_max_quadratic_utility best_solver d1 1 false) w1 o1 /\ succeeds (semi_max_quadratic_utility best_solver d2 1 false) w2 o2 /\
  succeeds (semi_efficient_return best_solver d2 (NFloat (1/10)) false) w2 o2 /\
  exists r, merged_answers (map fst (mu_clone lab_c 1 dd_mu)) 1 (chosen 2 [Some 0; Some 0] [Some 1; Some 1] 1 (fun _ => True) (semivariance (dropna rows0) 0)) r.
Proof.
  destruct copies_semi as (w1 & w2 & o1 & o2 & d1 & d2 & T & L & U & Mu & N). prepc T. exists w1, w2, o1, o2, d1, d2. split; [exact T|].
  assert (S1 : succeeds (min_semivariance best_solver d1 false) w1 o1).
  { apply (exist_min_semivariance _ _ _ _ _ _ _ _ _ _ Hg I1 Bl Bu best_solver X K false _ _ Hb). exists [1; 0]. rewrite N. apply long_fits. }
  assert (S2 : succeeds (semi_efficient_risk best_solver d1 1 false) w1 o1).
  { apply (exist_semi_risk _ _ _ _ _ _ _ _ _ _ Hg I1 Bl Bu best_solver X K false _ _ Hb 1 _ Mu ltac:(lra)). exists [1; 0]. rewrite N. split; [apply long_fits|apply dd_semi_1]. }
  assert (S4 : succeeds (semi_max_quadratic_utility best_solver d1 1 false) w1 o1).
  { apply (exist_semi_utility _ _ _ _ _ _ _ _ _ _ Hg I1 Bl Bu best_solver X K false _ _ Hb 1 _ Mu ltac:(lra)). exists [1; 0]. rewrite N. apply long_fits. }
  pose proof (proj1 (c141_min_semivariance_both _ _ _ _ _ _ _ _ _ _ _ _ _ _ T _ _ X X K K) S1) as S1'.
  split; [exact S1|]. split; [exact S1'|].
  split; [exact S2|]. split; [exact (proj1 (c141_semivariance_risk_both _ _ _ _ _ _ _ _ _ _ _ _ _ _ T _ _ X X K K ltac:(lra) 1) S2)|].
  split; [exact S4|]. split; [exact (proj1 (c141_semivariance_utility_both _ _ _ _ _ _ _ _ _ _ _ _ _ _ T _ _ X X K K 1) S4)|]. split.
  { destruct (co_semi _ _ _ _ _ _ _ _ _ _ _ _ _ _ T) as (_ & L2 & U2). pose proof (cg_semi _ _ _ _ _ _ _ _ _ _ _ _ _ _ T) as G2. pose proof (ci_semi _ _ _ _ _ _ _ _ _ _ _ _ _ _ T) as J2.
    destruct (PTail.semi_run_facts _ _ _ _ _ _ _ _ _ G2 J2) as (_ & _ & _ & (_ & _ & _ & _ & M2 & _) & _ & N2).
    assert (Z : forall k a, bounded (repeat (Some a) k)) by (intros k a; apply Forall_forall; intros b Hb0; apply repeat_spec in Hb0; subst b; discriminate).
    apply (exist_semi_return _ _ _ _ _ _ _ _ _ _ G2 J2 ltac:(rewrite L2; apply Z) ltac:(rewrite U2; apply Z) best_solver X K false _ _ (long_force_ok _ _ L2 U2) (1/10) _ M2); [lra|constructor; cbn; rewrite Rabs_right; lra|].
    exists [0; 1; 0]. rewrite N2. split; [|cbn; lra]. split; [reflexivity|]. split; [|cbn; lra]. apply (cons_within 2). apply in2; lra. }
  destruct S1' as (x2 & y2 & r2 & C2). exists r2. exact (c141_min_semivariance _ _ _ _ _ _ _ _ _ _ _ _ _ _ T _ X _ _ _ dd_nodup3 C2).
Qed.
Lemma copies_cvar : exists w1 w2 o1 o2 d1 d2, cvar_clones lab_c 1 dd_mu rows0 0 w00 w00 w1 w2 o1 o2 d1 d2 /\
  e_lb o1 = [Some 0; Some 0] /\ e_ub o1 = [Some 1; Some 1] /\ e_mu o1 = Some [1/10; 1/10] /\ e_n o1 = 2%nat.
Proof.
  destruct (made_cvar 0 ltac:(lra)) as (w1 & o1 & d1 & (Hg & E1) & F).
  destruct (c141_cvar_accepted lab_c 1 dd_mu rows0 0 w00 w00 _ _ _ ltac:(cbn; lia) E1) as (w2 & o2 & d2 & E2).
  exists w1, w2, o1, o2, d1, d2. split; [|exact F]. split; [cbn; lia|]. split; [exact Hg|]. split; [exact E1|exact E2].
Qed.
Example ex_c141_cvar : exists w1 w2 o1 o2 d1 d2, cvar_clones lab_c 1 dd_mu rows0 0 w00 w00 w1 w2 o1 o2 d1 d2 /\
  succeeds (min_cvar best_solver d1 false) w1 o1 /\ succeeds (min_cvar best_solver d2 false) w2 o2 /\
  succeeds (cvar_efficient_risk best_solver d1 1 false) w1 o1 /\ succeeds (cvar_efficient_risk best_solver d2 1 false) w2 o2 /\
  succeeds (cvar_efficient_return best_solver d1 (1/10) false) w1 o1 /\ succeeds (cvar_efficient_return best_solver d2 (1/10) false) w2 o2 /\
  exists r, merged_answers (map fst (mu_clone lab_c 1 dd_mu)) 1 (chosen 2 [Some 0; Some 0] [Some 1; Some 1] 1 (fun _ => True) (cvar 0 (dropna rows0))) r.
Proof.
  destruct copies_cvar as (w1 & w2 & o1 & o2 & d1 & d2 & T & L & U & Mu & N). prepc T. exists w1, w2, o1, o2, d1, d2. split; [exact T|].
  assert (S1 : succeeds (min_cvar best_solver d1 false) w1 o1).
  { apply (exist_min_cvar _ _ _ _ _ _ _ _ _ Hg I1 Bl Bu best_solver X K false _ _ Hb). exists [1; 0]. rewrite N. apply long_fits. }
  assert (S2 : succeeds (cvar_efficient_risk best_solver d1 1 false) w1 o1).
  { apply (exist_cvar_risk _ _ _ _ _ _ _ _ _ Hg I1 Bl Bu best_solver X K false _ _ Hb 1 _ Mu ltac:(lra)). exists [1; 0]. rewrite N. split; [apply long_fits|apply dd_cvar_1]. }
  assert (S3 : succeeds (cvar_efficient_return best_solver d1 (1/10) false) w1 o1).
  { apply (exist_cvar_return _ _ _ _ _ _ _ _ _ Hg I1 Bl Bu best_solver X K false _ _ Hb (1/10) _ Mu). exists [1; 0]. rewrite N. split; [apply long_fits|rewrite dd_inner; lra]. }
  pose proof (proj1 (c141_min_cvar_both _ _ _ _ _ _ _ _ _ _ _ _ _ T _ _ X X K K) S1) as S1'.
  split; [exact S1|]. split; [exact S1'|]. split; [exact S2|]. split; [exact (proj1 (c141_cvar_risk_both _ _ _ _ _ _ _ _ _ _ _ _ _ T _ _ X X K K 1) S2)|].
  split; [exact S3|]. split; [exact (proj1 (c141_cvar_return_both _ _ _ _ _ _ _ _ _ _ _ _ _ T _ _ X X K K _) S3)|].
  destruct S1' as (x2 & y2 & r2 & C2). exists r2. exact (c141_min_cvar _ _ _ _ _ _ _ _ _ _ _ _ _ T _ X _ _ _ dd_nodup3 C2).
Qed.
Lemma copies_cdar : exists w1 w2 o1 o2 d1 d2, cdar_clones lab_c 1 dd_mu rows0 0 w00 w00 w1 w2 o1 o2 d1 d2 /\
  e_lb o1 = [Some 0; Some 0] /\ e_ub o1 = [Some 1; Some 1] /\ e_mu o1 = Some [1/10; 1/10] /\ e_n o1 = 2%nat.
Proof.
  destruct (made_cdar 0 ltac:(lra)) as (w1 & o1 & d1 & (Hg & E1) & F).
  destruct (c141_cdar_accepted lab_c 1 dd_mu rows0 0 w00 w00 _ _ _ ltac:(cbn; lia) E1) as (w2 & o2 & d2 & E2).
  exists w1, w2, o1, o2, d1, d2. split; [|exact F]. split; [cbn; lia|]. split; [exact Hg|]. split; [exact E1|exact E2].
Qed.
Example ex_c141_cdar : exists w1 w2 o1 o2 d1 d2, cdar_clones lab_c 1 dd_mu rows0 0 w00 w00 w1 w2 o1 o2 d1 d2 /\
  succeeds (min_cdar best_solver d1 false) w1 o1 /\ succeeds (min_cdar best_solver d2 false) w2 o2 /\
  succeeds (cdar_efficient_risk best_solver d1 1 false) w1 o1 /\ succeeds (cdar_efficient_risk best_solver d2 1 false) w2 o2 /\
  succeeds (cdar_efficient_return best_solver d1 (1/10) false) w1 o1 /\ succeeds (cdar_efficient_return best_solver d2 (1/10) false) w2 o2 /\
  exists r, merged_answers (map fst (mu_clone lab_c 1 dd_mu)) 1 (chosen 2 [Some 0; Some 0] [Some 1; Some 1] 1 (fun _ => True) (cdar 0 (dropna rows0))) r.
Proof.
  destruct copies_cdar as (w1 & w2 & o1 & o2 & d1 & d2 & T & L & U & Mu & N). prepc T. exists w1, w2, o1, o2, d1, d2. split; [exact T|].
  assert (S1 : succeeds (min_cdar best_solver d1 false) w1 o1).
  { apply (exist_min_cdar _ _ _ _ _ _ _ _ _ Hg I1 Bl Bu best_solver X K false _ _ Hb). exists [1; 0]. rewrite N. apply long_fits. }
  assert (S2 : succeeds (cdar_efficient_risk best_solver d1 1 false) w1 o1).
  { apply (exist_cdar_risk _ _ _ _ _ _ _ _ _ Hg I1 Bl Bu best_solver X K false _ _ Hb 1 _ Mu ltac:(lra)). exists [1; 0]. rewrite N. split; [apply long_fits|apply dd_cdar_1]. }
  assert (S3 : succeeds (cdar_efficient_return best_solver d1 (1/10) false) w1 o1).
  { apply (exist_cdar_return _ _ _ _ _ _ _ _ _ Hg I1 Bl Bu best_solver X K false _ _ Hb (1/10) _ Mu ltac:(lra)). exists [1; 0]. rewrite N. split; [apply long_fits|rewrite dd_inner; lra]. }
  pose proof (proj1 (c141_min_cdar_both _ _ _ _ _ _ _ _ _ _ _ _ _ T _ _ X X K K) S1) as S1'.
  split; [exact S1|]. split; [exact S1'|]. split; [exact S2|]. split; [exact (proj1 (c141_cdar_risk_both _ _ _ _ _ _ _ _ _ _ _ _ _ T _ _ X X K K 1) S2)|].
  split; [exact S3|]. split; [exact (proj1 (c141_cdar_return_both _ _ _ _ _ _ _ _ _ _ _ _ _ T _ _ X X K K _) S3)|].
  destruct S1' as (x2 & y2 & r2 & C2). exists r2. exact (c141_min_cdar _ _ _ _ _ _ _ _ _ _ _ _ _ T _ X _ _ _ dd_nodup3 C2).
Qed.
