(** * Concrete cases for the theorems in PropertiesLevel.v *)
From Coq Require Import ZArith String List Bool Reals Lra Lia Permutation.
From Verif Require Import Num Py RBase PyLemmas SBL MBase MConvex MEF MDown SLin SBase SConvex SPerm SUnits SDown SDays SExist SEnds SShift SLevel PBase PConvex PEF PEF2 PEFW PDown5 PDownW PPerm PPerm2 PPerm4 PExist4 PDays PDays2 PDays3 PEnds PLevel PropertiesLevel ExamplesDays ExamplesEnds.
Import ListNotations.
Local Open Scope R_scope.

(** two assets and three days; one per cent more on each day, 252 per cent more a year *)
Lemma level_semi : exists w1 w2 o1 o2 d1 d2, semi_level (1/100) (252/100) dd_mu rows0 1 0 long w00 w00 w1 w2 o1 o2 d1 d2 /\
  e_lb o1 = [Some 0; Some 0] /\ e_ub o1 = [Some 1; Some 1] /\ e_mu o1 = Some [1/10; 1/10] /\ e_n o1 = 2%nat.
Proof.
  destruct twins_s as (w1 & _ & o1 & _ & d1 & _ & (_ & _ & _ & _ & Hg & _ & E1 & _) & F).
  destruct (c140_semivariance_accepted (1/100) (252/100) dd_mu rows0 1 0 long w00 w00 _ _ _ E1) as (w2 & o2 & d2 & E2).
  exists w1, w2, o1, o2, d1, d2. split; [|exact F]. split; [exact Hg|]. split; [exact E1|exact E2].
Qed.
Ltac prepl T := pose proof best_solver_exact as X; pose proof best_solver_complete as K; pose proof T as (Hg & I1 & I2);
  match goal with L : e_lb ?o = _, U : e_ub ?o = _ |- _ =>
    assert (Bl : bounded (e_lb o)) by (rewrite L; apply bnd); assert (Bu : bounded (e_ub o)) by (rewrite U; apply bnd);
    assert (Hb : bounds_in_force false o [Some 0; Some 0] [Some 1; Some 1]) by (right; rewrite L, U; auto) end.
Example ex_c140_semivariance : exists w1 w2 o1 o2 d1 d2, semi_level (1/100) (252/100) dd_mu rows0 1 0 long w00 w00 w1 w2 o1 o2 d1 d2 /\
  succeeds (min_semivariance best_solver d1 false) w1 o1 /\ succeeds (min_semivariance best_solver d2 false) w2 o2 /\
  succeeds (semi_efficient_risk best_solver d1 1 false) w1 o1 /\ succeeds (semi_efficient_risk best_solver d2 1 false) w2 o2 /\
  succeeds (semi_max_quadratic_utility best_solver d1 1 false) w1 o1 /\ succeeds (semi_max_quadratic_utility best_solver d2 1 false) w2 o2 /\
  exists lb ub r1 r2, answers (map fst dd_mu) lb ub 1 (fun _ => True) (semivariance (dropna rows0) (0 * 1)) r1 /\
    answers (map fst dd_mu) lb ub 1 (fun _ => True) (semivariance (dropna rows0) (0 * 1)) r2.
Proof.
  destruct level_semi as (w1 & w2 & o1 & o2 & d1 & d2 & T & L & U & Mu & N). prepl T. exists w1, w2, o1, o2, d1, d2. split; [exact T|].
  assert (S1 : succeeds (min_semivariance best_solver d1 false) w1 o1).
  { apply (exist_min_semivariance _ _ _ _ _ _ _ _ _ _ Hg I1 Bl Bu best_solver X K false _ _ Hb). exists [1; 0]. rewrite N. apply long_fits. }
  assert (S2 : succeeds (semi_efficient_risk best_solver d1 1 false) w1 o1).
  { apply (exist_semi_risk _ _ _ _ _ _ _ _ _ _ Hg I1 Bl Bu best_solver X K false _ _ Hb 1 _ Mu ltac:(lra)). exists [1; 0]. rewrite N. split; [apply long_fits|apply dd_semi_1]. }
  assert (S4 : succeeds (semi_max_quadratic_utility best_solver d1 1 false) w1 o1).
  { apply (exist_semi_utility _ _ _ _ _ _ _ _ _ _ Hg I1 Bl Bu best_solver X K false _ _ Hb 1 _ Mu ltac:(lra)). exists [1; 0]. rewrite N. apply long_fits. }
  pose proof (proj1 (c140_min_semivariance_both _ _ _ _ _ _ _ _ _ _ _ _ _ _ _ T _ _ false X X K K) S1) as S1'.
  split; [exact S1|]. split; [exact S1'|].
  split; [exact S2|]. split; [exact (proj1 (c140_semivariance_risk_both _ _ _ _ _ _ _ _ _ _ _ _ _ _ _ T _ _ false X X K K ltac:(lra) 1) S2)|].
  split; [exact S4|]. split; [exact (proj1 (c140_semivariance_utility_both _ _ _ _ _ _ _ _ _ _ _ _ _ _ _ T _ _ false X X K K 1) S4)|].
  destruct S1 as (x1 & y1 & r1 & C1). destruct S1' as (x2 & y2 & r2 & C2).
  destruct (c140_min_semivariance _ _ _ _ _ _ _ _ _ _ _ _ _ _ _ T _ _ false X X _ _ _ _ _ _ dd_nodup C1 C2) as (lb & ub & _ & A1 & A2). exists lb, ub, r1, r2. split; [exact A1|exact A2].
Qed.
(** efficient_return: the target 10 per cent on the first, 262 per cent on the second *)
Example ex_c140_semivariance_return : exists w1 w2 o1 o2 d1 d2, semi_level (1/100) (252/100) dd_mu rows0 1 0 long w00 w00 w1 w2 o1 o2 d1 d2 /\
  succeeds (semi_efficient_return best_solver d1 (NFloat (1/10)) false) w1 o1 /\ succeeds (semi_efficient_return best_solver d2 (NFloat (1/10 + 252/100 * sum_of false)) false) w2 o2.
Proof.
  destruct level_semi as (w1 & w2 & o1 & o2 & d1 & d2 & T & L & U & Mu & N). prepl T. exists w1, w2, o1, o2, d1, d2. split; [exact T|]. split.
  { apply (exist_semi_return _ _ _ _ _ _ _ _ _ _ Hg I1 Bl Bu best_solver X K false _ _ Hb (1/10) _ Mu ltac:(lra)); [constructor; rewrite Rabs_right; lra|]. exists [1; 0]. rewrite N. split; [apply long_fits|rewrite dd_inner; lra]. }
  destruct (obj_semi _ _ _ _ _ _ _ _ _ _ _ _ _ _ _ T) as (N2 & L2 & U2). rewrite <- N2 in N. rewrite <- L2 in L, Bl. rewrite <- U2 in U, Bu.
  assert (Hb2 : bounds_in_force false o2 [Some 0; Some 0] [Some 1; Some 1]) by (right; rewrite L, U; auto).
  assert (Mu2 : e_mu o2 = Some [1/10 + 252/100; 1/10 + 252/100]) by (destruct (PTail.semi_run_facts _ _ _ _ _ _ _ _ _ (Hg2_semi _ _ _ _ _ _ _ _ _ _ _ _ _ _ _ T) (E2i_semi _ _ _ _ _ _ _ _ _ _ _ _ _ _ _ T)) as (_ & _ & _ & (_ & _ & _ & _ & M & _) & _); exact M).
  apply (exist_semi_return _ _ _ _ _ _ _ _ _ _ (Hg2_semi _ _ _ _ _ _ _ _ _ _ _ _ _ _ _ T) (E2i_semi _ _ _ _ _ _ _ _ _ _ _ _ _ _ _ T) Bl Bu best_solver X K false _ _ Hb2 _ _ Mu2); unfold sum_of; [lra|constructor; rewrite Rabs_right; lra|].
  exists [1; 0]. rewrite N. split; [apply long_fits|cbn; lra].
Qed.
Lemma level_cvar : exists w1 w2 o1 o2 d1 d2, cvar_level_pair (1/100) (252/100) dd_mu rows0 0 long w00 w00 w1 w2 o1 o2 d1 d2 /\
  e_lb o1 = [Some 0; Some 0] /\ e_ub o1 = [Some 1; Some 1] /\ e_mu o1 = Some [1/10; 1/10] /\ e_n o1 = 2%nat.
Proof.
  destruct (made_cvar 0 ltac:(lra)) as (w1 & o1 & d1 & (Hg & E1) & F).
  destruct (c140_cvar_accepted (1/100) (252/100) dd_mu rows0 0 long w00 w00 _ _ _ E1) as (w2 & o2 & d2 & E2).
  exists w1, w2, o1, o2, d1, d2. split; [|exact F]. split; [exact Hg|]. split; [exact E1|exact E2].
Qed.
Example ex_c140_cvar : exists w1 w2 o1 o2 d1 d2, cvar_level_pair (1/100) (252/100) dd_mu rows0 0 long w00 w00 w1 w2 o1 o2 d1 d2 /\
  succeeds (min_cvar best_solver d1 false) w1 o1 /\ succeeds (min_cvar best_solver d2 false) w2 o2 /\
  succeeds (cvar_efficient_risk best_solver d1 1 false) w1 o1 /\ succeeds (cvar_efficient_risk best_solver d2 (1 - 1/100 * sum_of false) false) w2 o2 /\
  succeeds (cvar_efficient_return best_solver d1 (1/10) false) w1 o1 /\ succeeds (cvar_efficient_return best_solver d2 (1/10 + 252/100 * sum_of false) false) w2 o2.
Proof.
  destruct level_cvar as (w1 & w2 & o1 & o2 & d1 & d2 & T & L & U & Mu & N). prepl T. exists w1, w2, o1, o2, d1, d2. split; [exact T|].
  assert (S1 : succeeds (min_cvar best_solver d1 false) w1 o1).
  { apply (exist_min_cvar _ _ _ _ _ _ _ _ _ Hg I1 Bl Bu best_solver X K false _ _ Hb). exists [1; 0]. rewrite N. apply long_fits. }
  assert (S2 : succeeds (cvar_efficient_risk best_solver d1 1 false) w1 o1).
  { apply (exist_cvar_risk _ _ _ _ _ _ _ _ _ Hg I1 Bl Bu best_solver X K false _ _ Hb 1 _ Mu ltac:(lra)). exists [1; 0]. rewrite N. split; [apply long_fits|apply dd_cvar_1]. }
  assert (S3 : succeeds (cvar_efficient_return best_solver d1 (1/10) false) w1 o1).
  { apply (exist_cvar_return _ _ _ _ _ _ _ _ _ Hg I1 Bl Bu best_solver X K false _ _ Hb (1/10) _ Mu). exists [1; 0]. rewrite N. split; [apply long_fits|rewrite dd_inner; lra]. }
  split; [exact S1|]. split; [exact (proj1 (c140_min_cvar_both _ _ _ _ _ _ _ _ _ _ _ _ _ _ T _ _ false X X K K) S1)|].
  split; [exact S2|]. split; [exact (proj1 (c140_cvar_risk_both _ _ _ _ _ _ _ _ _ _ _ _ _ _ T _ _ false X X K K 1 ltac:(lra) ltac:(unfold sum_of; lra)) S2)|].
  split; [exact S3|]. exact (proj1 (c140_cvar_return_both _ _ _ _ _ _ _ _ _ _ _ _ _ _ T _ _ false X X K K _) S3).
Qed.
(** market neutral: bounds -1 and 1; the empty portfolio meets the targets 1 and 0 *)
Definition both_ways : bounds_arg := BPair (Some (-1)) (Some 1).
Lemma ways_ef : forall w, exists w1 o1, ef_init (MIn (MuSeries dd_mu)) (CIn (CovArray (zeros 2))) both_ways w = (w1, Ok o1) /\ e_lb o1 = [Some (-1); Some (-1)] /\ e_ub o1 = [Some 1; Some 1] /\ e_mu o1 = Some [1/10; 1/10] /\ e_n o1 = 2%nat.
Proof.
  intros w. eexists _, _. split; [apply (ef_init_ok (MuSeries dd_mu) (CovArray (zeros 2)) both_ways w [Some (-1); Some (-1)] [Some 1; Some 1]); [split; reflexivity|cbn; reflexivity]|]. auto.
Qed.
Lemma ways_fits : fits 2 [Some (-1); Some (-1)] [Some 1; Some 1] 0 [0; 0].
Proof. split; [reflexivity|]. split; [|cbn; lra]. split; (constructor; [unfold above, below; lra|constructor; [unfold above, below; lra|constructor]]). Qed.
Lemma level_cdar : exists w1 w2 o1 o2 d1 d2, cdar_level_pair (1/100) (252/100) dd_mu rows0 0 both_ways w00 w00 w1 w2 o1 o2 d1 d2 /\
  e_lb o1 = [Some (-1); Some (-1)] /\ e_ub o1 = [Some 1; Some 1] /\ e_mu o1 = Some [1/10; 1/10] /\ e_n o1 = 2%nat.
Proof.
  destruct (ways_ef w00) as (x & o & E & L & U & Mu & N).
  assert (E1 : exists w1 d1, cdar_init (MIn (MuSeries dd_mu)) (RTable (length dd_mu) rows0) 0 both_ways w00 = (w1, Ok (o, d1))).
  { unfold cdar_init. cbn [mu_values]; change (length (map snd dd_mu)) with 2%nat; change (length dd_mu) with 2%nat. rewrite E. unfold validate_returns. rewrite Mu, (beta_ok 0) by lra. cbn [length Nat.eqb negb]. eauto. }
  destruct E1 as (w1 & d1 & E1). destruct (c140_cdar_accepted (1/100) (252/100) dd_mu rows0 0 both_ways w00 w00 _ _ _ E1) as (w2 & o2 & d2 & E2).
  exists w1, w2, o, o2, d1, d2. split; [|auto]. split; [exact rows0_good|]. split; [exact E1|exact E2].
Qed.
Example ex_c140_cdar : exists w1 w2 o1 o2 d1 d2, cdar_level_pair (1/100) (252/100) dd_mu rows0 0 both_ways w00 w00 w1 w2 o1 o2 d1 d2 /\
  succeeds (min_cdar best_solver d1 true) w1 o1 /\ succeeds (min_cdar best_solver d2 true) w2 o2 /\
  succeeds (cdar_efficient_risk best_solver d1 1 true) w1 o1 /\ succeeds (cdar_efficient_risk best_solver d2 1 true) w2 o2 /\
  succeeds (cdar_efficient_return best_solver d1 0 true) w1 o1 /\ succeeds (cdar_efficient_return best_solver d2 0 true) w2 o2.
Proof.
  destruct level_cdar as (w1 & w2 & o1 & o2 & d1 & d2 & T & L & U & Mu & N). pose proof best_solver_exact as X; pose proof best_solver_complete as K; pose proof T as (Hg & I1 & I2).
  assert (Bl : bounded (e_lb o1)) by (rewrite L; apply bnd). assert (Bu : bounded (e_ub o1)) by (rewrite U; apply bnd).
  assert (Hb : bounds_in_force true o1 [Some (-1); Some (-1)] [Some 1; Some 1]).
  { right. rewrite L, U. split; [|auto]. right. intros H. unfold no_short_allowed in H. inversion H; subst; cbn in *; lra. }
  exists w1, w2, o1, o2, d1, d2. split; [exact T|].
  assert (S1 : succeeds (min_cdar best_solver d1 true) w1 o1).
  { apply (exist_min_cdar _ _ _ _ _ _ _ _ _ Hg I1 Bl Bu best_solver X K true _ _ Hb). exists [0; 0]. rewrite N. apply ways_fits. }
  assert (S2 : succeeds (cdar_efficient_risk best_solver d1 1 true) w1 o1).
  { apply (exist_cdar_risk _ _ _ _ _ _ _ _ _ Hg I1 Bl Bu best_solver X K true _ _ Hb 1 _ Mu ltac:(lra)). exists [0; 0]. rewrite N. split; [apply ways_fits|].
    unfold cdar. rewrite worst_all. unfold rows0, day1, day2, day3. cbn [dropna flat_map complete app period_returns map inner drawdowns_from]. 
    rewrite !Rmult_0_r, !Rplus_0_r. rewrite !Rmax_left by lra. cbn [length INR total]. lra. }
  assert (S3 : succeeds (cdar_efficient_return best_solver d1 0 true) w1 o1).
  { apply (exist_cdar_return _ _ _ _ _ _ _ _ _ Hg I1 Bl Bu best_solver X K true _ _ Hb 0 _ Mu ltac:(lra)). exists [0; 0]. rewrite N. split; [apply ways_fits|cbn; lra]. }
  split; [exact S1|]. split; [exact (proj1 (c140_min_cdar_neutral_both _ _ _ _ _ _ _ _ _ _ _ _ _ _ T _ _ X X K K) S1)|].
  split; [exact S2|]. split; [exact (proj1 (c140_cdar_risk_neutral_both _ _ _ _ _ _ _ _ _ _ _ _ _ _ T _ _ X X K K 1) S2)|].
  split; [exact S3|]. exact (proj1 (c140_cdar_return_neutral_both _ _ _ _ _ _ _ _ _ _ _ _ _ _ T _ _ X X K K _) S3).
Qed.
