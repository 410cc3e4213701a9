(** * Concrete cases for the theorems in PropertiesGrow.v *)
From Coq Require Import ZArith String List Bool Reals Lra Lia.
From Verif Require Import Num Py RBase PyLemmas Sums Mat PBase SBL MBase MConvex MEF MDown SLin SBase SConvex SPerm SUnits SDown SDays SExist SEnds SGrow PConvex PEF PEF2 PEFW PDown5 PDownW PPerm PPerm2 PPerm3 PPerm4 PExist PExist4 PDays PDays2 PDays3 PShiftW PTail PClone PClone2 PGrow PGrow2 ExamplesPerm ExamplesDays ExamplesEnds PropertiesGrow.
Import ListNotations.
Local Open Scope R_scope.

(** two assets, and C with expected return 3/20 and variance 2, uncorrelated with them *)
Definition new_c : label := LStr "C".
Definition cov3 : list (list R) := [[2; 0; 0]; [0; 1; 0]; [0; 0; 3]].
Definition more (w2 : world) (o2 : ef) : Prop :=
  ef_grown new_c (3/20) 2 [0; 0] [0; 0] 0 1 lab_mu [LStr "A"; LStr "B"] [new_c; LStr "A"; LStr "B"] [[1; 0]; [0; 3]] blank blank lab_world w2 (lab_ef 1 3) o2.
Example ex_c142_grow : mu_grow new_c (3/20) lab_mu = [(LStr "C", 3/20); (LStr "A", 1/5); (LStr "B", 1/10)] /\ cov_grow 2 [0; 0] [0; 0] [[1; 0]; [0; 3]] = cov3.
Proof. split; reflexivity. Qed.
Lemma grow_nodup : NoDup (new_c :: map fst lab_mu).
Proof. repeat constructor; cbn; intuition discriminate. Qed.
Lemma cov3_q : forall x y z, qform cov3 [x; y; z] = 2 * (x * x) + y * y + 3 * (z * z).
Proof. intros. unfold qform, cov3. cbn. ring. Qed.
Lemma cov3_square : square 3 cov3. Proof. split; [reflexivity|repeat constructor]. Qed.
Lemma cov3_psd : psd 3 cov3.
Proof. split; [exact cov3_square|]. intros x L. destruct x as [|p [|q [|r [|]]]]; try discriminate L. rewrite cov3_q. nra. Qed.
Lemma cov3_pos : forall lb ub x, fits 3 lb ub 1 x -> 0 < qform cov3 x.
Proof.
  intros lb ub x (L & _ & T). destruct x as [|p [|q [|r [|]]]]; try discriminate L. rewrite cov3_q. cbn in T.
  assert (6 * (2 * (p * p) + q * q + 3 * (r * r)) >= (p + q + r) * (p + q + r)) by (pose proof (Rle_0_sqr (p - q)); pose proof (Rle_0_sqr (p - r)); pose proof (Rle_0_sqr (q - r)); pose proof (Rle_0_sqr p); pose proof (Rle_0_sqr q); pose proof (Rle_0_sqr r); unfold Rsqr in *; nra).
  replace (p + q + r) with 1 in H by lra. lra.
Qed.
Example ex_c142_more : exists w2 o2, more w2 o2.
Proof.
  destruct (c142_accepted new_c (3/20) 2 [0; 0] [0; 0] 0 1 lab_mu [LStr "A"; LStr "B"] [new_c; LStr "A"; LStr "B"] [[1; 0]; [0; 3]] blank blank _ _ eq_refl eq_refl diag_square (lab_init _ _ _)) as [w2 [o2 E]].
  exists w2, o2. split; [lra|]. split; [cbn; lia|]. split; [reflexivity|]. split; [reflexivity|]. split; [exact diag_square|]. split; [apply lab_init|exact E].
Qed.
Ltac grown := pose proof best_solver_exact as X; pose proof best_solver_complete as K; destruct ex_c142_more as [w2 [o2 T]].
Example ex_c142_min_volatility : exists w2 o2 x1 y1 d1 x2 y2 d2, more w2 o2 /\ min_volatility best_solver lab_world (lab_ef 1 3) = (x1, y1, Ok d1) /\ min_volatility best_solver w2 o2 = (x2, y2, Ok d2) /\
  improved [LStr "A"; LStr "B"] new_c [Some 0; Some 0] [Some 1; Some 1] (e_lb o2) (e_ub o2) 1 (fun _ => True) (fun _ => True) (qform [[1; 0]; [0; 3]]) (qform cov3) d1 d2.
Proof.
  grown. destruct quarters as [Q1 Q2].
  destruct (lab_best best_solver 1 3 (3/4) (1/4) best_solver_exact best_solver_complete ltac:(lra) ltac:(lra) ltac:(lra) ltac:(lra) ltac:(lra) ltac:(lra) Q1 Q2) as [x1 [y1 E1]].
  destruct (c142_min_volatility_found _ _ _ _ _ _ _ _ _ _ _ _ _ _ _ _ _ T _ _ X X K K) as [x2 [y2 [d2 E2]]]; [eexists _, _, _; exact E1|].
  eexists w2, o2, _, _, _, x2, y2, d2. split; [exact T|]. split; [exact E1|]. split; [exact E2|]. exact (c142_min_volatility _ _ _ _ _ _ _ _ _ _ _ _ _ _ _ _ _ T _ _ _ _ _ _ _ _ grow_nodup X X E1 E2).
Qed.
Example ex_c142_utility : exists w2 o2 x1 y1 d1 x2 y2 d2 lb ub lb' ub', more w2 o2 /\ max_quadratic_utility best_solver 1 false lab_world (lab_ef 1 3) = (x1, y1, Ok d1) /\ max_quadratic_utility best_solver 1 false w2 o2 = (x2, y2, Ok d2) /\
  improved [LStr "A"; LStr "B"] new_c lb ub lb' ub' 1 (fun _ => True) (fun _ => True) (fun x => - (inner [1/5; 1/10] x - 1 / 2 * qform [[1; 0]; [0; 3]] x)) (fun x => - (inner [3/20; 1/5; 1/10] x - 1 / 2 * qform cov3 x)) d1 d2.
Proof.
  grown. destruct ex_c41_utility as (_ & _ & x1 & y1 & d1 & _ & _ & _ & _ & E1 & _).
  destruct (c142_quadratic_utility_found _ _ _ _ _ _ _ _ _ _ _ _ _ _ _ _ _ T _ _ X X K K 1 false) as [x2 [y2 [d2 E2]]]; [eexists _, _, _; exact E1|].
  destruct (c142_quadratic_utility _ _ _ _ _ _ _ _ _ _ _ _ _ _ _ _ _ T _ _ _ _ _ _ _ _ grow_nodup X X 1 false E1 E2) as (lb & ub & lb' & ub' & _ & _ & A).
  exists w2, o2, x1, y1, d1, x2, y2, d2, lb, ub, lb', ub'. split; [exact T|]. split; [exact E1|]. split; [exact E2|]. exact A.
Qed.
Example ex_c142_return : exists w2 o2 x1 y1 d1 x2 y2 d2 lb ub lb' ub', more w2 o2 /\ efficient_return best_solver (NFloat (9/50)) false lab_world (lab_ef 1 3) = (x1, y1, Ok d1) /\ efficient_return best_solver (NFloat (9/50)) false w2 o2 = (x2, y2, Ok d2) /\
  improved [LStr "A"; LStr "B"] new_c lb ub lb' ub' 1 (fun x => 9/50 <= inner [1/5; 1/10] x) (fun x => 9/50 <= inner [3/20; 1/5; 1/10] x) (qform [[1; 0]; [0; 3]]) (qform cov3) d1 d2.
Proof.
  grown. destruct ex_c41_return as (_ & _ & x1 & y1 & d1 & _ & _ & _ & _ & E1 & _).
  destruct (c142_efficient_return_found _ _ _ _ _ _ _ _ _ _ _ _ _ _ _ _ _ T _ _ X X K K (9/50)) as [x2 [y2 [d2 E2]]]; [eexists _, _, _; exact E1|].
  destruct (c142_efficient_return _ _ _ _ _ _ _ _ _ _ _ _ _ _ _ _ _ T _ _ _ _ _ _ _ _ grow_nodup X X _ false E1 E2) as (lb & ub & lb' & ub' & _ & _ & A).
  exists w2, o2, x1, y1, d1, x2, y2, d2, lb, ub, lb', ub'. split; [exact T|]. split; [exact E1|]. split; [exact E2|]. exact A.
Qed.
Example ex_c142_max_sharpe : exists w2 o2 x1 y1 d1 x2 y2 d2, more w2 o2 /\ max_sharpe best_solver (NFloat 0) lab_world (lab_ef 1 3) = (x1, y1, Ok d1) /\ max_sharpe best_solver (NFloat 0) w2 o2 = (x2, y2, Ok d2) /\
  improved_ratio [LStr "A"; LStr "B"] new_c [Some 0; Some 0] [Some 1; Some 1] (e_lb o2) (e_ub o2) [1/5; 1/10] [3/20; 1/5; 1/10] [[1; 0]; [0; 3]] cov3 0 d1 d2.
Proof.
  grown. destruct ex_c41_max_sharpe as (_ & _ & x1 & y1 & d1 & _ & _ & _ & _ & E1 & _).
  destruct (c142_max_sharpe_found _ _ _ _ _ _ _ _ _ _ _ _ _ _ _ _ _ T _ _ X X K K 0 cov3_psd (cov3_pos _ _)) as [x2 [y2 [d2 E2]]]; [eexists _, _, _; exact E1|].
  exists w2, o2, x1, y1, d1, x2, y2, d2. split; [exact T|]. split; [exact E1|]. split; [exact E2|]. exact (c142_max_sharpe _ _ _ _ _ _ _ _ _ _ _ _ _ _ _ _ _ T _ _ _ _ _ _ _ _ grow_nodup X X 0 cov3_psd E1 E2).
Qed.
(** efficient_risk: the pseudo-inverses of the two matrices *)
Definition pinv_3 (_ : list (list R)) : list (list R) := [[1/2; 0; 0]; [0; 1; 0]; [0; 0; 1/3]].
Example ex_c142_risk : exists w2 o2 x1 y1 d1 x2 y2 d2 lb ub lb' ub', more w2 o2 /\ efficient_risk best_solver pinv_a (NFloat 1) false lab_world (lab_ef 1 3) = (x1, y1, Ok d1) /\ efficient_risk best_solver pinv_3 (NFloat 1) false w2 o2 = (x2, y2, Ok d2) /\
  improved [LStr "A"; LStr "B"] new_c lb ub lb' ub' 1 (fun x => qform [[1; 0]; [0; 3]] x <= 1 * 1) (fun x => qform cov3 x <= 1 * 1) (fun x => - inner [1/5; 1/10] x) (fun x => - inner [3/20; 1/5; 1/10] x) d1 d2.
Proof.
  grown. pose proof T as (_ & _ & _ & _ & HM & I1 & I2).
  destruct (around_facts _ _ _ _ _ _ _ _ HM I1) as (O1 & N1 & A1 & T1 & M1 & C1 & LB1 & UB1 & R1 & F1).
  destruct (around_facts (mu_grow new_c (3/20) lab_mu) _ _ _ _ _ _ _ cov3_square I2) as (O2 & N2 & A2 & T2 & M2 & C2 & LB2 & UB2 & R2 & F2).
  assert (S1 : succeeds (efficient_risk best_solver pinv_a (NFloat 1) false) lab_world (lab_ef 1 3)).
  { apply (risk_iff _ _ _ X K O1 A1 _ M1 false pinv_a (NFloat 1) 1 eq_refl (F1 _)). split; [lra|]. split.
    - unfold below_global_min, pinv_a. rewrite vsum_total. rewrite (map_ext vsum total vsum_total). cbn [map total].
      rewrite (proj2 (Reqb_false _ 0)) by lra. rewrite (proj2 (Rltb_false _ 0)) by lra. apply Rltb_false. apply (Rle_trans _ (sqrt 1)); [apply sqrt_le_1_alt; lra|rewrite sqrt_1; lra].
    - exists [Some 0; Some 0], [Some 1; Some 1], [1; 0]. split; [exact force2|]. change (e_cov (lab_ef 1 3)) with [[1; 0]; [0; 3]]. apply chosen2; try lra; [rewrite lab_q; lra|]. intros a Ha _. rewrite !r2. lra. }
  assert (S2 : succeeds (efficient_risk best_solver pinv_3 (NFloat 1) false) w2 o2).
  { apply (risk_iff _ _ _ X K O2 A2 _ M2 false pinv_3 (NFloat 1) 1 eq_refl (F2 _)). split; [lra|]. split.
    - unfold below_global_min, pinv_3. rewrite vsum_total. rewrite (map_ext vsum total vsum_total). cbn [map total].
      rewrite (proj2 (Reqb_false _ 0)) by lra. rewrite (proj2 (Rltb_false _ 0)) by lra. apply Rltb_false. apply (Rle_trans _ (sqrt 1)); [apply sqrt_le_1_alt; lra|rewrite sqrt_1; lra].
    - exists (e_lb o2), (e_ub o2), [0; 1; 0]. split; [right; auto|]. rewrite N2, C2, LB2, UB2. change (cov_grow 2 [0; 0] [0; 0] [[1; 0]; [0; 3]]) with cov3. split; [reflexivity|]. split; [split; repeat constructor; cbn; lra|]. split; [cbn; lra|]. split; [rewrite cov3_q; lra|].
      intros y Ly [Wl _] Ty _. destruct y as [|p [|q [|r [|]]]]; try discriminate Ly. cbn in Wl. inversion Wl as [|? ? ? ? P Wl1]; subst. inversion Wl1 as [|? ? ? ? Q Wl2]; subst. inversion Wl2 as [|? ? ? ? W _]; subst. cbn in P, Q, W, Ty |- *. lra. }
  destruct S1 as (x1 & y1 & d1 & E1). destruct S2 as (x2 & y2 & d2 & E2).
  destruct (c142_efficient_risk _ _ _ _ _ _ _ _ _ _ _ _ _ _ _ _ _ T _ _ _ _ _ _ _ _ grow_nodup X X _ _ _ false E1 E2) as (lb & ub & lb' & ub' & _ & _ & A).
  exists w2, o2, x1, y1, d1, x2, y2, d2, lb, ub, lb', ub'. split; [exact T|]. split; [exact E1|]. split; [exact E2|]. exact A.
Qed.

(** the downside optimizers: two assets and three days, one asset more; also market neutral *)
Lemma grow_nodup3 : NoDup (new_c :: map fst dd_mu).
Proof. pose proof dd_nodup as H. cbn in *. constructor; [|exact H]. intros I. revert I. cbn. intuition discriminate. Qed.
Definition new_days : list R := [1/50; -(1/100); 1/100].
Lemma neutral_fits : fits 2 [Some (-1); Some (-1)] [Some 1; Some 1] 0 [1; -1].
Proof. split; [reflexivity|]. split; [split; repeat constructor; cbn; lra|cbn; lra]. Qed.
Ltac prepg T := pose proof best_solver_exact as X; pose proof best_solver_complete as K; pose proof T as (Hz & Hn & Lq & Hg & I1 & I2);
  match goal with L : e_lb ?o = _, U : e_ub ?o = _, N : e_n ?o = _ |- _ =>
    assert (Bl : bounded (e_lb o)) by (rewrite L; apply bnd); assert (Bu : bounded (e_ub o)) by (rewrite U; apply bnd);
    assert (Hb : bounds_in_force false o [Some 0; Some 0] [Some 1; Some 1]) by (right; rewrite L, U; auto);
    assert (Hb' : bounds_in_force true o [Some (-1); Some (-1)] [Some 1; Some 1]) by (left; rewrite L, N; repeat split; repeat constructor; cbn; lra) end.
Lemma more_semi : exists w1 w2 o1 o2 d1 d2, semi_grown new_c (1/5) new_days 0 1 dd_mu rows0 1 0 w00 w00 w1 w2 o1 o2 d1 d2 /\
  e_lb o1 = [Some 0; Some 0] /\ e_ub o1 = [Some 1; Some 1] /\ e_mu o1 = Some [1/10; 1/10] /\ e_n o1 = 2%nat.
Proof.
  destruct twins_s as (w1 & _ & o1 & _ & d1 & _ & (_ & _ & _ & _ & Hg & _ & E1 & _) & F).
  destruct (c142_semi_accepted new_c (1/5) (map Some new_days) 0 1 dd_mu rows0 1 0 w00 w00 _ _ _ E1) as (w2 & o2 & d2 & E2).
  exists w1, w2, o1, o2, d1, d2. split; [|exact F]. split; [lra|]. split; [cbn; lia|]. split; [reflexivity|]. split; [exact Hg|]. split; [exact E1|exact E2].
Qed.
Example ex_c142_semivariance : exists w1 w2 o1 o2 d1 d2, semi_grown new_c (1/5) new_days 0 1 dd_mu rows0 1 0 w00 w00 w1 w2 o1 o2 d1 d2 /\
  (succeeds (min_semivariance best_solver d1 false) w1 o1 /\ succeeds (min_semivariance best_solver d2 false) w2 o2) /\
  (succeeds (min_semivariance best_solver d1 true) w1 o1 /\ succeeds (min_semivariance best_solver d2 true) w2 o2) /\
  (succeeds (semi_efficient_risk best_solver d1 1 false) w1 o1 /\ succeeds (semi_efficient_risk best_solver d2 1 false) w2 o2) /\
  (succeeds (semi_max_quadratic_utility best_solver d1 1 false) w1 o1 /\ succeeds (semi_max_quadratic_utility best_solver d2 1 false) w2 o2) /\
  exists lb ub lb' ub' r1 r2, improved (map fst dd_mu) new_c lb ub lb' ub' 0 (fun _ => True) (fun _ => True) (semivariance (dropna rows0) (0 * 0)) (semivariance (dropna (rows_grow (map Some new_days) rows0)) (0 * 0)) r1 r2.
Proof.
  destruct more_semi as (w1 & w2 & o1 & o2 & d1 & d2 & T & L & U & Mu & N). prepg T. exists w1, w2, o1, o2, d1, d2. split; [exact T|].
  assert (S0 : succeeds (min_semivariance best_solver d1 false) w1 o1).
  { apply (exist_min_semivariance _ _ _ _ _ _ _ _ _ _ Hg I1 Bl Bu best_solver X K false _ _ Hb). exists [1; 0]. rewrite N. apply long_fits. }
  assert (S1 : succeeds (min_semivariance best_solver d1 true) w1 o1).
  { apply (exist_min_semivariance _ _ _ _ _ _ _ _ _ _ Hg I1 Bl Bu best_solver X K true _ _ Hb'). exists [1; -1]. rewrite N. apply neutral_fits. }
  assert (S2 : succeeds (semi_efficient_risk best_solver d1 1 false) w1 o1).
  { apply (exist_semi_risk _ _ _ _ _ _ _ _ _ _ Hg I1 Bl Bu best_solver X K false _ _ Hb 1 _ Mu ltac:(lra)). exists [1; 0]. rewrite N. split; [apply long_fits|apply dd_semi_1]. }
  assert (S4 : succeeds (semi_max_quadratic_utility best_solver d1 1 false) w1 o1).
  { apply (exist_semi_utility _ _ _ _ _ _ _ _ _ _ Hg I1 Bl Bu best_solver X K false _ _ Hb 1 _ Mu ltac:(lra)). exists [1; 0]. rewrite N. apply long_fits. }
  pose proof (c142_min_semivariance_found _ _ _ _ _ _ _ _ _ _ _ _ _ _ _ _ _ T _ _ true X X K K S1) as S1'.
  split; [split; [exact S0|exact (c142_min_semivariance_found _ _ _ _ _ _ _ _ _ _ _ _ _ _ _ _ _ T _ _ false X X K K S0)]|]. split; [auto|].
  split; [split; [exact S2|exact (c142_semivariance_risk_found _ _ _ _ _ _ _ _ _ _ _ _ _ _ _ _ _ T _ _ false X X K K ltac:(lra) 1 S2)]|].
  split; [split; [exact S4|exact (c142_semivariance_utility_found _ _ _ _ _ _ _ _ _ _ _ _ _ _ _ _ _ T _ _ false X X K K 1 S4)]|].
  destruct S1 as (x1 & y1 & r1 & E1). destruct S1' as (x2 & y2 & r2 & E2). destruct (c142_min_semivariance _ _ _ _ _ _ _ _ _ _ _ _ _ _ _ _ _ T _ _ true X X _ _ _ _ _ _ grow_nodup3 E1 E2) as (lb & ub & lb' & ub' & _ & _ & A).
  exists lb, ub, lb', ub', r1, r2. exact A.
Qed.
Lemma more_cvar : exists w1 w2 o1 o2 d1 d2, cvar_grown new_c (1/5) new_days 0 1 dd_mu rows0 0 w00 w00 w1 w2 o1 o2 d1 d2 /\
  e_lb o1 = [Some 0; Some 0] /\ e_ub o1 = [Some 1; Some 1] /\ e_mu o1 = Some [1/10; 1/10] /\ e_n o1 = 2%nat.
Proof.
  destruct (made_cvar 0 ltac:(lra)) as (w1 & o1 & d1 & (Hg & E1) & F).
  destruct (c142_cvar_accepted new_c (1/5) (map Some new_days) 0 1 dd_mu rows0 0 w00 w00 _ _ _ E1) as (w2 & o2 & d2 & E2).
  exists w1, w2, o1, o2, d1, d2. split; [|exact F]. split; [lra|]. split; [cbn; lia|]. split; [reflexivity|]. split; [exact Hg|]. split; [exact E1|exact E2].
Qed.
Example ex_c142_cvar : exists w1 w2 o1 o2 d1 d2, cvar_grown new_c (1/5) new_days 0 1 dd_mu rows0 0 w00 w00 w1 w2 o1 o2 d1 d2 /\
  (succeeds (min_cvar best_solver d1 true) w1 o1 /\ succeeds (min_cvar best_solver d2 true) w2 o2) /\
  (succeeds (cvar_efficient_risk best_solver d1 1 false) w1 o1 /\ succeeds (cvar_efficient_risk best_solver d2 1 false) w2 o2) /\
  (succeeds (cvar_efficient_return best_solver d1 (1/10) false) w1 o1 /\ succeeds (cvar_efficient_return best_solver d2 (1/10) false) w2 o2) /\
  exists lb ub lb' ub' r1 r2, improved (map fst dd_mu) new_c lb ub lb' ub' 0 (fun _ => True) (fun _ => True) (cvar 0 (dropna rows0)) (cvar 0 (dropna (rows_grow (map Some new_days) rows0))) r1 r2.
Proof.
  destruct more_cvar as (w1 & w2 & o1 & o2 & d1 & d2 & T & L & U & Mu & N). prepg T. exists w1, w2, o1, o2, d1, d2. split; [exact T|].
  assert (S1 : succeeds (min_cvar best_solver d1 true) w1 o1).
  { apply (exist_min_cvar _ _ _ _ _ _ _ _ _ Hg I1 Bl Bu best_solver X K true _ _ Hb'). exists [1; -1]. rewrite N. apply neutral_fits. }
  assert (S2 : succeeds (cvar_efficient_risk best_solver d1 1 false) w1 o1).
  { apply (exist_cvar_risk _ _ _ _ _ _ _ _ _ Hg I1 Bl Bu best_solver X K false _ _ Hb 1 _ Mu ltac:(lra)). exists [1; 0]. rewrite N. split; [apply long_fits|apply dd_cvar_1]. }
  assert (S3 : succeeds (cvar_efficient_return best_solver d1 (1/10) false) w1 o1).
  { apply (exist_cvar_return _ _ _ _ _ _ _ _ _ Hg I1 Bl Bu best_solver X K false _ _ Hb (1/10) _ Mu). exists [1; 0]. rewrite N. split; [apply long_fits|rewrite dd_inner; lra]. }
  pose proof (c142_min_cvar_found _ _ _ _ _ _ _ _ _ _ _ _ _ _ _ _ T _ _ true X X K K S1) as S1'. split; [auto|].
  split; [split; [exact S2|exact (c142_cvar_risk_found _ _ _ _ _ _ _ _ _ _ _ _ _ _ _ _ T _ _ false X X K K 1 S2)]|].
  split; [split; [exact S3|exact (c142_cvar_return_found _ _ _ _ _ _ _ _ _ _ _ _ _ _ _ _ T _ _ false X X K K _ S3)]|].
  destruct S1 as (x1 & y1 & r1 & E1). destruct S1' as (x2 & y2 & r2 & E2). destruct (c142_min_cvar _ _ _ _ _ _ _ _ _ _ _ _ _ _ _ _ T _ _ true X X _ _ _ _ _ _ grow_nodup3 E1 E2) as (lb & ub & lb' & ub' & _ & _ & A).
  exists lb, ub, lb', ub', r1, r2. exact A.
Qed.
Lemma more_cdar : exists w1 w2 o1 o2 d1 d2, cdar_grown new_c (1/5) new_days 0 1 dd_mu rows0 0 w00 w00 w1 w2 o1 o2 d1 d2 /\
  e_lb o1 = [Some 0; Some 0] /\ e_ub o1 = [Some 1; Some 1] /\ e_mu o1 = Some [1/10; 1/10] /\ e_n o1 = 2%nat.
Proof.
  destruct (made_cdar 0 ltac:(lra)) as (w1 & o1 & d1 & (Hg & E1) & F).
  destruct (c142_cdar_accepted new_c (1/5) (map Some new_days) 0 1 dd_mu rows0 0 w00 w00 _ _ _ E1) as (w2 & o2 & d2 & E2).
  exists w1, w2, o1, o2, d1, d2. split; [|exact F]. split; [lra|]. split; [cbn; lia|]. split; [reflexivity|]. split; [exact Hg|]. split; [exact E1|exact E2].
Qed.
Example ex_c142_cdar : exists w1 w2 o1 o2 d1 d2, cdar_grown new_c (1/5) new_days 0 1 dd_mu rows0 0 w00 w00 w1 w2 o1 o2 d1 d2 /\
  (succeeds (min_cdar best_solver d1 true) w1 o1 /\ succeeds (min_cdar best_solver d2 true) w2 o2) /\
  (succeeds (cdar_efficient_risk best_solver d1 1 false) w1 o1 /\ succeeds (cdar_efficient_risk best_solver d2 1 false) w2 o2) /\
  (succeeds (cdar_efficient_return best_solver d1 (1/10) false) w1 o1 /\ succeeds (cdar_efficient_return best_solver d2 (1/10) false) w2 o2) /\
  exists lb ub lb' ub' r1 r2, improved (map fst dd_mu) new_c lb ub lb' ub' 0 (fun _ => True) (fun _ => True) (cdar 0 (dropna rows0)) (cdar 0 (dropna (rows_grow (map Some new_days) rows0))) r1 r2.
Proof.
  destruct more_cdar as (w1 & w2 & o1 & o2 & d1 & d2 & T & L & U & Mu & N). prepg T. exists w1, w2, o1, o2, d1, d2. split; [exact T|].
  assert (S1 : succeeds (min_cdar best_solver d1 true) w1 o1).
  { apply (exist_min_cdar _ _ _ _ _ _ _ _ _ Hg I1 Bl Bu best_solver X K true _ _ Hb'). exists [1; -1]. rewrite N. apply neutral_fits. }
  assert (S2 : succeeds (cdar_efficient_risk best_solver d1 1 false) w1 o1).
  { apply (exist_cdar_risk _ _ _ _ _ _ _ _ _ Hg I1 Bl Bu best_solver X K false _ _ Hb 1 _ Mu ltac:(lra)). exists [1; 0]. rewrite N. split; [apply long_fits|apply dd_cdar_1]. }
  assert (S3 : succeeds (cdar_efficient_return best_solver d1 (1/10) false) w1 o1).
  { apply (exist_cdar_return _ _ _ _ _ _ _ _ _ Hg I1 Bl Bu best_solver X K false _ _ Hb (1/10) _ Mu ltac:(lra)). exists [1; 0]. rewrite N. split; [apply long_fits|rewrite dd_inner; lra]. }
  pose proof (c142_min_cdar_found _ _ _ _ _ _ _ _ _ _ _ _ _ _ _ _ T _ _ true X X K K S1) as S1'. split; [auto|].
  split; [split; [exact S2|exact (c142_cdar_risk_found _ _ _ _ _ _ _ _ _ _ _ _ _ _ _ _ T _ _ false X X K K 1 S2)]|].
  split; [split; [exact S3|exact (c142_cdar_return_found _ _ _ _ _ _ _ _ _ _ _ _ _ _ _ _ T _ _ false X X K K _ S3)]|].
  destruct S1 as (x1 & y1 & r1 & E1). destruct S1' as (x2 & y2 & r2 & E2). destruct (c142_min_cdar _ _ _ _ _ _ _ _ _ _ _ _ _ _ _ _ T _ _ true X X _ _ _ _ _ _ grow_nodup3 E1 E2) as (lb & ub & lb' & ub' & _ & _ & A).
  exists lb, ub, lb', ub', r1, r2. exact A.
Qed.
Example ex_c142_semivariance_return : exists w1 w2 o1 o2 d1 d2, semi_grown new_c (1/5) new_days 0 1 dd_mu rows0 1 0 w00 w00 w1 w2 o1 o2 d1 d2 /\
  succeeds (semi_efficient_return best_solver d1 (NFloat (1/10)) false) w1 o1 /\ succeeds (semi_efficient_return best_solver d2 (NFloat (1/10)) false) w2 o2.
Proof.
  destruct more_semi as (w1 & w2 & o1 & o2 & d1 & d2 & T & L & U & Mu & N). prepg T. exists w1, w2, o1, o2, d1, d2. split; [exact T|]. split.
  - apply (exist_semi_return _ _ _ _ _ _ _ _ _ _ Hg I1 Bl Bu best_solver X K false _ _ Hb (1/10) _ Mu); [lra|constructor; cbn; rewrite Rabs_right; lra|].
    exists [1; 0]. rewrite N. split; [apply long_fits|rewrite dd_inner; lra].
  - pose proof (gg_semi _ _ _ _ _ _ _ _ _ _ _ _ _ _ _ _ _ T) as G2. pose proof (gi_semi _ _ _ _ _ _ _ _ _ _ _ _ _ _ _ _ _ T) as J2. destruct (gb_semi _ _ _ _ _ _ _ _ _ _ _ _ _ _ _ _ _ T) as (_ & _ & Bl2 & Bu2 & N2).
    destruct (PTail.semi_run_facts _ _ _ _ _ _ _ _ _ G2 J2) as (_ & _ & _ & (_ & _ & _ & _ & M2 & _) & Q2 & _). unfold read_bounds, around in Q2. rewrite andb_false_r in Q2. injection Q2 as L2 U2.
    apply (exist_semi_return _ _ _ _ _ _ _ _ _ _ G2 J2 Bl2 Bu2 best_solver X K false (e_lb o2) (e_ub o2) ltac:(right; auto) (1/10) _ M2); [lra|constructor; cbn; rewrite Rabs_right; lra|].
    exists [0; 1; 0]. rewrite N2, <- L2, <- U2. split; [|cbn; lra]. split; [reflexivity|]. split; [|cbn; lra]. split; repeat constructor; cbn; lra.
Qed.
