(** * Concrete cases for the theorems in PropertiesWide.v *)
From Coq Require Import ZArith String List Bool Reals Lra Lia.
From Verif Require Import Num Py RBase PyLemmas Sums Mat PBase SBL MBase MConvex MEF MDown SLin SBase SConvex SPerm SUnits SDown SDays SExist SEnds SGrow SWide PConvex PEF PEF2 PEFW PDown5 PDownW PPerm PPerm2 PPerm3 PPerm4 PExist PExist4 PDays PDays2 PDays3 PShiftW PTail PGrow PGrow2 PWide PWide2 PWideW ExamplesPerm ExamplesDays ExamplesEnds ExamplesGrow PropertiesWide.
Import ListNotations.
Local Open Scope R_scope.

(** bounds (0, 1) and the wider bounds (-1, 2) *)
Definition wide_ef (lo hi : R) (w2 : world) (o2 : ef) : Prop :=
  ef_wider lab_mu [LStr "A"; LStr "B"] [[1; 0]; [0; 3]] (BPair (Some 0) (Some 1)) (around lo hi) blank blank lab_world w2 (lab_ef 1 3) o2.
Example ex_c143_wider : forall lo hi, lo <= 0 -> 1 <= hi -> exists w2 o2, wide_ef lo hi w2 o2 /\ e_lb o2 = [Some lo; Some lo] /\ e_ub o2 = [Some hi; Some hi].
Proof.
  intros lo hi Hl Hh. destruct (tenth_made lo hi) as (w2 & o2 & E & L & U). exists w2, o2. split; [|auto].
  split; [exact diag2|]. split; [apply lab_init|]. split; [exact E|]. rewrite L, U. split; (apply Forall2_cons; [|apply Forall2_cons; [|apply Forall2_nil]]); cbn; lra.
Qed.
Lemma wide_bnd : forall l : R, bounded [Some l; Some l]. Proof. intros l. repeat constructor; discriminate. Qed.
Lemma diag_all : forall lb ub x, fits 2 lb ub 1 x -> 0 < qform [[1; 0]; [0; 3]] x.
Proof. intros lb ub x (L & _ & T). destruct x as [|p [|q [|]]]; try discriminate L. rewrite lab_q. cbn in T. replace q with (1 - p) by lra. pose proof (Rle_0_sqr (p - 3/4)). unfold Rsqr in *. nra. Qed.
Lemma kind_long : forall o1 o2, same_kind false o1 o2. Proof. intros o1 o2 H. discriminate H. Qed.
Ltac widened := pose proof best_solver_exact as X; pose proof best_solver_complete as K; destruct (ex_c143_wider (-1) 2 ltac:(lra) ltac:(lra)) as (w2 & o2 & T & L & U);
  assert (Bl : bounded (e_lb o2)) by (rewrite L; apply wide_bnd); assert (Bu : bounded (e_ub o2)) by (rewrite U; apply wide_bnd).
Example ex_c143_min_volatility : exists w2 o2 x1 y1 d1 x2 y2 d2, wide_ef (-1) 2 w2 o2 /\ min_volatility best_solver lab_world (lab_ef 1 3) = (x1, y1, Ok d1) /\ min_volatility best_solver w2 o2 = (x2, y2, Ok d2) /\
  loosened [LStr "A"; LStr "B"] [Some 0; Some 0] [Some 1; Some 1] (e_lb o2) (e_ub o2) 1 (fun _ => True) (qform [[1; 0]; [0; 3]]) d1 d2.
Proof.
  widened. destruct quarters as [Q1 Q2].
  destruct (lab_best best_solver 1 3 (3/4) (1/4) best_solver_exact best_solver_complete ltac:(lra) ltac:(lra) ltac:(lra) ltac:(lra) ltac:(lra) ltac:(lra) Q1 Q2) as [x1 [y1 E1]].
  destruct (c143_min_volatility_found _ _ _ _ _ _ _ _ _ _ _ T _ _ X X K K Bl Bu) as [x2 [y2 [d2 E2]]]; [eexists _, _, _; exact E1|].
  eexists w2, o2, _, _, _, x2, y2, d2. split; [exact T|]. split; [exact E1|]. split; [exact E2|]. exact (c143_min_volatility _ _ _ _ _ _ _ _ _ _ _ T _ _ _ _ _ _ _ _ tickers_nodup X X E1 E2).
Qed.
Example ex_c143_utility : exists w2 o2 x1 y1 d1 x2 y2 d2 lb ub lb' ub', wide_ef (-1) 2 w2 o2 /\ max_quadratic_utility best_solver 1 false lab_world (lab_ef 1 3) = (x1, y1, Ok d1) /\ max_quadratic_utility best_solver 1 false w2 o2 = (x2, y2, Ok d2) /\
  loosened [LStr "A"; LStr "B"] lb ub lb' ub' 1 (fun _ => True) (fun x => - (inner [1/5; 1/10] x - 1 / 2 * qform [[1; 0]; [0; 3]] x)) d1 d2.
Proof.
  widened. destruct ex_c41_utility as (_ & _ & x1 & y1 & d1 & _ & _ & _ & _ & E1 & _).
  destruct (c143_quadratic_utility_found _ _ _ _ _ _ _ _ _ _ _ T _ _ X X K K Bl Bu 1 false (kind_long _ _)) as [x2 [y2 [d2 E2]]]; [eexists _, _, _; exact E1|].
  destruct (c143_quadratic_utility _ _ _ _ _ _ _ _ _ _ _ T _ _ _ _ _ _ _ _ tickers_nodup X X 1 false (kind_long _ _) E1 E2) as (lb & ub & lb' & ub' & _ & _ & A).
  exists w2, o2, x1, y1, d1, x2, y2, d2, lb, ub, lb', ub'. split; [exact T|]. split; [exact E1|]. split; [exact E2|]. exact A.
Qed.
Example ex_c143_return : exists w2 o2 x1 y1 d1 x2 y2 d2 lb ub lb' ub', wide_ef (-1) 2 w2 o2 /\ efficient_return best_solver (NFloat (9/50)) false lab_world (lab_ef 1 3) = (x1, y1, Ok d1) /\ efficient_return best_solver (NFloat (9/50)) false w2 o2 = (x2, y2, Ok d2) /\
  loosened [LStr "A"; LStr "B"] lb ub lb' ub' 1 (fun x => 9/50 <= inner [1/5; 1/10] x) (qform [[1; 0]; [0; 3]]) d1 d2.
Proof.
  widened. destruct ex_c41_return as (_ & _ & x1 & y1 & d1 & _ & _ & _ & _ & E1 & _).
  destruct (c143_efficient_return_found _ _ _ _ _ _ _ _ _ _ _ T _ _ X X K K Bl Bu (9/50) false (kind_long _ _)) as [x2 [y2 [d2 E2]]]; [eexists _, _, _; exact E1|].
  destruct (c143_efficient_return _ _ _ _ _ _ _ _ _ _ _ T _ _ _ _ _ _ _ _ tickers_nodup X X (9/50) false (kind_long _ _) E1 E2) as (lb & ub & lb' & ub' & _ & _ & A).
  exists w2, o2, x1, y1, d1, x2, y2, d2, lb, ub, lb', ub'. split; [exact T|]. split; [exact E1|]. split; [exact E2|]. exact A.
Qed.
Example ex_c143_risk : exists w2 o2 x1 y1 d1 x2 y2 d2 lb ub lb' ub', wide_ef (-1) 2 w2 o2 /\ efficient_risk best_solver pinv_a (NFloat 1) false lab_world (lab_ef 1 3) = (x1, y1, Ok d1) /\ efficient_risk best_solver pinv_a (NFloat 1) false w2 o2 = (x2, y2, Ok d2) /\
  loosened [LStr "A"; LStr "B"] lb ub lb' ub' 1 (fun x => qform [[1; 0]; [0; 3]] x <= 1 * 1) (fun x => - inner [1/5; 1/10] x) d1 d2.
Proof.
  widened. destruct ex_c142_risk as (_ & _ & x1 & y1 & d1 & _ & _ & _ & _ & _ & _ & _ & _ & E1 & _).
  destruct (c143_efficient_risk_found _ _ _ _ _ _ _ _ _ _ _ T _ _ X X K K Bl Bu pinv_a 1 false (kind_long _ _)) as [x2 [y2 [d2 E2]]]; [eexists _, _, _; exact E1|].
  destruct (c143_efficient_risk _ _ _ _ _ _ _ _ _ _ _ T _ _ _ _ _ _ _ _ tickers_nodup X X pinv_a pinv_a 1 false (kind_long _ _) E1 E2) as (lb & ub & lb' & ub' & _ & _ & A).
  exists w2, o2, x1, y1, d1, x2, y2, d2, lb, ub, lb', ub'. split; [exact T|]. split; [exact E1|]. split; [exact E2|]. exact A.
Qed.
Example ex_c143_max_sharpe : exists w2 o2 x1 y1 d1 x2 y2 d2, wide_ef (-1) 2 w2 o2 /\ max_sharpe best_solver (NFloat 0) lab_world (lab_ef 1 3) = (x1, y1, Ok d1) /\ max_sharpe best_solver (NFloat 0) w2 o2 = (x2, y2, Ok d2) /\
  loosened_ratio [LStr "A"; LStr "B"] [Some 0; Some 0] [Some 1; Some 1] (e_lb o2) (e_ub o2) [1/5; 1/10] [[1; 0]; [0; 3]] 0 d1 d2.
Proof.
  widened. destruct ex_c41_max_sharpe as (_ & _ & x1 & y1 & d1 & _ & _ & _ & _ & E1 & _).
  destruct (c143_max_sharpe_found _ _ _ _ _ _ _ _ _ _ _ T _ _ X X K Bl Bu 0 diag_psd (diag_all _ _)) as [x2 [y2 [d2 E2]]]; [eexists _, _, _; exact E1|].
  exists w2, o2, x1, y1, d1, x2, y2, d2. split; [exact T|]. split; [exact E1|]. split; [exact E2|]. exact (c143_max_sharpe _ _ _ _ _ _ _ _ _ _ _ T _ _ _ _ _ _ _ _ tickers_nodup X X 0 diag_psd E1 E2).
Qed.
(** market neutral: (0, 1) and (0, 2) are both replaced by (-1, 1) *)
Example ex_c143_neutral : exists w2 o2, wide_ef 0 2 w2 o2 /\ same_kind true (lab_ef 1 3) o2 /\ succeeds (efficient_return best_solver (NFloat (1/20)) true) lab_world (lab_ef 1 3) /\ succeeds (efficient_return best_solver (NFloat (1/20)) true) w2 o2.
Proof.
  pose proof best_solver_exact as X; pose proof best_solver_complete as K; destruct (ex_c143_wider 0 2 ltac:(lra) ltac:(lra)) as (w2 & o2 & T & L & U). exists w2, o2.
  assert (Sk : same_kind true (lab_ef 1 3) o2). { intros _ _. rewrite L. repeat constructor; cbn; lra. }
  split; [exact T|]. split; [exact Sk|]. split; [apply neutral_found; assumption|]. apply (c143_efficient_return_found _ _ _ _ _ _ _ _ _ _ _ T _ _ X X K K); try (rewrite ?L, ?U; apply wide_bnd); [exact Sk|apply neutral_found; assumption].
Qed.

(** the downside optimizers *)
Lemma wide_read : forall lo hi, read_bounds (length dd_mu) (around lo hi) = Ok ([Some lo; Some lo], [Some hi; Some hi]).
Proof. intros. unfold read_bounds, around. rewrite andb_false_r. reflexivity. Qed.
Ltac prepw T := pose proof best_solver_exact as X; pose proof best_solver_complete as K; pose proof T as (Hg & I1 & I2 & Lo);
  match goal with L : e_lb ?o = _, U : e_ub ?o = _, N : e_n ?o = _ |- _ =>
    assert (Bl : bounded (e_lb o)) by (rewrite L; apply bnd); assert (Bu : bounded (e_ub o)) by (rewrite U; apply bnd);
    assert (Hb : bounds_in_force false o [Some 0; Some 0] [Some 1; Some 1]) by (right; rewrite L, U; auto);
    assert (Hb' : bounds_in_force true o [Some (-1); Some (-1)] [Some 1; Some 1]) by (left; rewrite L, N; repeat split; repeat constructor; cbn; lra) end.
Lemma wide_semi : forall lo hi, lo <= 0 -> 1 <= hi -> exists w1 w2 o1 o2 d1 d2, semi_wider dd_mu rows0 1 0 long (around lo hi) w00 w00 w1 w2 o1 o2 d1 d2 /\
  (bounded (e_lb o2) /\ bounded (e_ub o2)) /\ (lo = 0 -> same_kind true o1 o2) /\ e_lb o1 = [Some 0; Some 0] /\ e_ub o1 = [Some 1; Some 1] /\ e_mu o1 = Some [1/10; 1/10] /\ e_n o1 = 2%nat.
Proof.
  intros lo hi Hl Hh. destruct twins_s as (w1 & _ & o1 & _ & d1 & _ & (_ & _ & _ & _ & Hg & _ & E1 & _) & F).
  destruct (c143_semi_accepted dd_mu rows0 1 0 long (around lo hi) w00 w00 _ _ _ _ _ (wide_read lo hi) E1) as (w2 & o2 & d2 & E2).
  destruct (semi_run_facts dd_mu _ _ _ _ _ _ _ _ Hg E2) as (_ & _ & _ & _ & Q2 & _). rewrite wide_read in Q2. injection Q2 as L2 U2. pose proof F as (L & U & _).
  exists w1, w2, o1, o2, d1, d2. split; [|split; [split; [rewrite <- L2|rewrite <- U2]; apply wide_bnd|split; [|exact F]]].
  - split; [exact Hg|]. split; [exact E1|]. split; [exact E2|]. rewrite L, U, <- L2, <- U2. split; (apply Forall2_cons; [|apply Forall2_cons; [|apply Forall2_nil]]); cbn; lra.
  - intros -> _ _. rewrite <- L2. repeat constructor; cbn; lra.
Qed.
Example ex_c143_semi : exists w1 w2 o1 o2 d1 d2, semi_wider dd_mu rows0 1 0 long (around (-1) 2) w00 w00 w1 w2 o1 o2 d1 d2 /\
  (succeeds (min_semivariance best_solver d1 false) w1 o1 /\ succeeds (min_semivariance best_solver d2 false) w2 o2) /\
  (succeeds (semi_efficient_risk best_solver d1 1 false) w1 o1 /\ succeeds (semi_efficient_risk best_solver d2 1 false) w2 o2) /\
  (succeeds (semi_max_quadratic_utility best_solver d1 1 false) w1 o1 /\ succeeds (semi_max_quadratic_utility best_solver d2 1 false) w2 o2) /\
  exists lb ub lb' ub' r1 r2, loosened (map fst dd_mu) lb ub lb' ub' 1 (fun _ => True) (semivariance (dropna rows0) (0 * 1)) r1 r2.
Proof.
  destruct (wide_semi (-1) 2 ltac:(lra) ltac:(lra)) as (w1 & w2 & o1 & o2 & d1 & d2 & T & (Bl2 & Bu2) & _ & L & U & Mu & N). prepw T. exists w1, w2, o1, o2, d1, d2. split; [exact T|].
  assert (S1 : succeeds (min_semivariance best_solver d1 false) w1 o1).
  { apply (exist_min_semivariance _ _ _ _ _ _ _ _ _ _ Hg I1 Bl Bu best_solver X K false _ _ Hb). exists [1; 0]. rewrite N. apply long_fits. }
  assert (S2 : succeeds (semi_efficient_risk best_solver d1 1 false) w1 o1).
  { apply (exist_semi_risk _ _ _ _ _ _ _ _ _ _ Hg I1 Bl Bu best_solver X K false _ _ Hb 1 _ Mu ltac:(lra)). exists [1; 0]. rewrite N. split; [apply long_fits|apply dd_semi_1]. }
  assert (S3 : succeeds (semi_max_quadratic_utility best_solver d1 1 false) w1 o1).
  { apply (exist_semi_utility _ _ _ _ _ _ _ _ _ _ Hg I1 Bl Bu best_solver X K false _ _ Hb 1 _ Mu ltac:(lra)). exists [1; 0]. rewrite N. apply long_fits. }
  pose proof (c143_min_semivariance_found _ _ _ _ _ _ _ _ _ _ _ _ _ _ T _ _ false X X K K Bl2 Bu2 (kind_long _ _) S1) as S1'. split; [auto|].
  split; [split; [exact S2|exact (c143_semivariance_risk_found _ _ _ _ _ _ _ _ _ _ _ _ _ _ T _ _ false X X K K Bl2 Bu2 (kind_long _ _) ltac:(lra) 1 S2)]|].
  split; [split; [exact S3|exact (c143_semivariance_utility_found _ _ _ _ _ _ _ _ _ _ _ _ _ _ T _ _ false X X K K Bl2 Bu2 (kind_long _ _) _ S3)]|].
  destruct S1 as (x1 & y1 & r1 & E1). destruct S1' as (x2 & y2 & r2 & E2). destruct (c143_min_semivariance _ _ _ _ _ _ _ _ _ _ _ _ _ _ T _ _ false X X (kind_long _ _) _ _ _ _ _ _ dd_nodup E1 E2) as (lb & ub & lb' & ub' & _ & _ & A).
  exists lb, ub, lb', ub', r1, r2. exact A.
Qed.
Example ex_c143_semi_neutral : exists w1 w2 o1 o2 d1 d2, semi_wider dd_mu rows0 1 0 long (around 0 2) w00 w00 w1 w2 o1 o2 d1 d2 /\ same_kind true o1 o2 /\
  succeeds (min_semivariance best_solver d1 true) w1 o1 /\ succeeds (min_semivariance best_solver d2 true) w2 o2.
Proof.
  destruct (wide_semi 0 2 ltac:(lra) ltac:(lra)) as (w1 & w2 & o1 & o2 & d1 & d2 & T & (Bl2 & Bu2) & Sk & L & U & Mu & N). specialize (Sk eq_refl). prepw T. exists w1, w2, o1, o2, d1, d2. split; [exact T|]. split; [exact Sk|].
  assert (S1 : succeeds (min_semivariance best_solver d1 true) w1 o1).
  { apply (exist_min_semivariance _ _ _ _ _ _ _ _ _ _ Hg I1 Bl Bu best_solver X K true _ _ Hb'). exists [1; -1]. rewrite N. apply neutral_fits. }
  split; [exact S1|exact (c143_min_semivariance_found _ _ _ _ _ _ _ _ _ _ _ _ _ _ T _ _ true X X K K Bl2 Bu2 Sk S1)].
Qed.
Lemma wide_cvar : forall lo hi, lo <= 0 -> 1 <= hi -> exists w1 w2 o1 o2 d1 d2, cvar_wider dd_mu rows0 0 long (around lo hi) w00 w00 w1 w2 o1 o2 d1 d2 /\
  (bounded (e_lb o2) /\ bounded (e_ub o2)) /\ (lo = 0 -> same_kind true o1 o2) /\ e_lb o1 = [Some 0; Some 0] /\ e_ub o1 = [Some 1; Some 1] /\ e_mu o1 = Some [1/10; 1/10] /\ e_n o1 = 2%nat.
Proof.
  intros lo hi Hl Hh. destruct (made_cvar 0 ltac:(lra)) as (w1 & o1 & d1 & (Hg & E1) & F).
  destruct (c143_cvar_accepted dd_mu rows0 0 long (around lo hi) w00 w00 _ _ _ _ _ (wide_read lo hi) E1) as (w2 & o2 & d2 & E2).
  destruct (cvar_run_facts dd_mu _ _ _ _ _ _ _ Hg E2) as (_ & _ & _ & _ & Q2 & _). rewrite wide_read in Q2. injection Q2 as L2 U2. pose proof F as (L & U & _).
  exists w1, w2, o1, o2, d1, d2. split; [|split; [split; [rewrite <- L2|rewrite <- U2]; apply wide_bnd|split; [|exact F]]].
  - split; [exact Hg|]. split; [exact E1|]. split; [exact E2|]. rewrite L, U, <- L2, <- U2. split; (apply Forall2_cons; [|apply Forall2_cons; [|apply Forall2_nil]]); cbn; lra.
  - intros -> _ _. rewrite <- L2. repeat constructor; cbn; lra.
Qed.
Example ex_c143_cvar : exists w1 w2 o1 o2 d1 d2, cvar_wider dd_mu rows0 0 long (around (-1) 2) w00 w00 w1 w2 o1 o2 d1 d2 /\
  (succeeds (min_cvar best_solver d1 false) w1 o1 /\ succeeds (min_cvar best_solver d2 false) w2 o2) /\
  (succeeds (cvar_efficient_risk best_solver d1 1 false) w1 o1 /\ succeeds (cvar_efficient_risk best_solver d2 1 false) w2 o2) /\
  (succeeds (cvar_efficient_return best_solver d1 (1/10) false) w1 o1 /\ succeeds (cvar_efficient_return best_solver d2 (1/10) false) w2 o2) /\
  exists lb ub lb' ub' r1 r2, loosened (map fst dd_mu) lb ub lb' ub' 1 (fun _ => True) (cvar 0 (dropna rows0)) r1 r2.
Proof.
  destruct (wide_cvar (-1) 2 ltac:(lra) ltac:(lra)) as (w1 & w2 & o1 & o2 & d1 & d2 & T & (Bl2 & Bu2) & _ & L & U & Mu & N). prepw T. exists w1, w2, o1, o2, d1, d2. split; [exact T|].
  assert (S1 : succeeds (min_cvar best_solver d1 false) w1 o1).
  { apply (exist_min_cvar _ _ _ _ _ _ _ _ _ Hg I1 Bl Bu best_solver X K false _ _ Hb). exists [1; 0]. rewrite N. apply long_fits. }
  assert (S2 : succeeds (cvar_efficient_risk best_solver d1 1 false) w1 o1).
  { apply (exist_cvar_risk _ _ _ _ _ _ _ _ _ Hg I1 Bl Bu best_solver X K false _ _ Hb 1 _ Mu ltac:(lra)). exists [1; 0]. rewrite N. split; [apply long_fits|apply dd_cvar_1]. }
  assert (S3 : succeeds (cvar_efficient_return best_solver d1 (1/10) false) w1 o1).
  { apply (exist_cvar_return _ _ _ _ _ _ _ _ _ Hg I1 Bl Bu best_solver X K false _ _ Hb (1/10) _ Mu). exists [1; 0]. rewrite N. split; [apply long_fits|rewrite dd_inner; lra]. }
  pose proof (c143_min_cvar_found _ _ _ _ _ _ _ _ _ _ _ _ _ T _ _ false X X K K Bl2 Bu2 (kind_long _ _) S1) as S1'. split; [auto|].
  split; [split; [exact S2|exact (c143_cvar_risk_found _ _ _ _ _ _ _ _ _ _ _ _ _ T _ _ false X X K K Bl2 Bu2 (kind_long _ _) 1 S2)]|].
  split; [split; [exact S3|exact (c143_cvar_return_found _ _ _ _ _ _ _ _ _ _ _ _ _ T _ _ false X X K K Bl2 Bu2 (kind_long _ _) _ S3)]|].
  destruct S1 as (x1 & y1 & r1 & E1). destruct S1' as (x2 & y2 & r2 & E2). destruct (c143_min_cvar _ _ _ _ _ _ _ _ _ _ _ _ _ T _ _ false X X (kind_long _ _) _ _ _ _ _ _ dd_nodup E1 E2) as (lb & ub & lb' & ub' & _ & _ & A).
  exists lb, ub, lb', ub', r1, r2. exact A.
Qed.
Example ex_c143_cvar_neutral : exists w1 w2 o1 o2 d1 d2, cvar_wider dd_mu rows0 0 long (around 0 2) w00 w00 w1 w2 o1 o2 d1 d2 /\ same_kind true o1 o2 /\
  succeeds (min_cvar best_solver d1 true) w1 o1 /\ succeeds (min_cvar best_solver d2 true) w2 o2.
Proof.
  destruct (wide_cvar 0 2 ltac:(lra) ltac:(lra)) as (w1 & w2 & o1 & o2 & d1 & d2 & T & (Bl2 & Bu2) & Sk & L & U & Mu & N). specialize (Sk eq_refl). prepw T. exists w1, w2, o1, o2, d1, d2. split; [exact T|]. split; [exact Sk|].
  assert (S1 : succeeds (min_cvar best_solver d1 true) w1 o1).
  { apply (exist_min_cvar _ _ _ _ _ _ _ _ _ Hg I1 Bl Bu best_solver X K true _ _ Hb'). exists [1; -1]. rewrite N. apply neutral_fits. }
  split; [exact S1|exact (c143_min_cvar_found _ _ _ _ _ _ _ _ _ _ _ _ _ T _ _ true X X K K Bl2 Bu2 Sk S1)].
Qed.
Lemma wide_cdar : forall lo hi, lo <= 0 -> 1 <= hi -> exists w1 w2 o1 o2 d1 d2, cdar_wider dd_mu rows0 0 long (around lo hi) w00 w00 w1 w2 o1 o2 d1 d2 /\
  (bounded (e_lb o2) /\ bounded (e_ub o2)) /\ (lo = 0 -> same_kind true o1 o2) /\ e_lb o1 = [Some 0; Some 0] /\ e_ub o1 = [Some 1; Some 1] /\ e_mu o1 = Some [1/10; 1/10] /\ e_n o1 = 2%nat.
Proof.
  intros lo hi Hl Hh. destruct (made_cdar 0 ltac:(lra)) as (w1 & o1 & d1 & (Hg & E1) & F).
  destruct (c143_cdar_accepted dd_mu rows0 0 long (around lo hi) w00 w00 _ _ _ _ _ (wide_read lo hi) E1) as (w2 & o2 & d2 & E2).
  destruct (cdar_run_facts dd_mu _ _ _ _ _ _ _ Hg E2) as (_ & _ & _ & _ & Q2 & _). rewrite wide_read in Q2. injection Q2 as L2 U2. pose proof F as (L & U & _).
  exists w1, w2, o1, o2, d1, d2. split; [|split; [split; [rewrite <- L2|rewrite <- U2]; apply wide_bnd|split; [|exact F]]].
  - split; [exact Hg|]. split; [exact E1|]. split; [exact E2|]. rewrite L, U, <- L2, <- U2. split; (apply Forall2_cons; [|apply Forall2_cons; [|apply Forall2_nil]]); cbn; lra.
  - intros -> _ _. rewrite <- L2. repeat constructor; cbn; lra.
Qed.
Example ex_c143_cdar : exists w1 w2 o1 o2 d1 d2, cdar_wider dd_mu rows0 0 long (around (-1) 2) w00 w00 w1 w2 o1 o2 d1 d2 /\
  (succeeds (min_cdar best_solver d1 false) w1 o1 /\ succeeds (min_cdar best_solver d2 false) w2 o2) /\
  (succeeds (cdar_efficient_risk best_solver d1 1 false) w1 o1 /\ succeeds (cdar_efficient_risk best_solver d2 1 false) w2 o2) /\
  (succeeds (cdar_efficient_return best_solver d1 (1/10) false) w1 o1 /\ succeeds (cdar_efficient_return best_solver d2 (1/10) false) w2 o2) /\
  exists lb ub lb' ub' r1 r2, loosened (map fst dd_mu) lb ub lb' ub' 1 (fun _ => True) (cdar 0 (dropna rows0)) r1 r2.
Proof.
  destruct (wide_cdar (-1) 2 ltac:(lra) ltac:(lra)) as (w1 & w2 & o1 & o2 & d1 & d2 & T & (Bl2 & Bu2) & _ & L & U & Mu & N). prepw T. exists w1, w2, o1, o2, d1, d2. split; [exact T|].
  assert (S1 : succeeds (min_cdar best_solver d1 false) w1 o1).
  { apply (exist_min_cdar _ _ _ _ _ _ _ _ _ Hg I1 Bl Bu best_solver X K false _ _ Hb). exists [1; 0]. rewrite N. apply long_fits. }
  assert (S2 : succeeds (cdar_efficient_risk best_solver d1 1 false) w1 o1).
  { apply (exist_cdar_risk _ _ _ _ _ _ _ _ _ Hg I1 Bl Bu best_solver X K false _ _ Hb 1 _ Mu ltac:(lra)). exists [1; 0]. rewrite N. split; [apply long_fits|apply dd_cdar_1]. }
  assert (S3 : succeeds (cdar_efficient_return best_solver d1 (1/10) false) w1 o1).
  { apply (exist_cdar_return _ _ _ _ _ _ _ _ _ Hg I1 Bl Bu best_solver X K false _ _ Hb (1/10) _ Mu ltac:(lra)). exists [1; 0]. rewrite N. split; [apply long_fits|rewrite dd_inner; lra]. }
  pose proof (c143_min_cdar_found _ _ _ _ _ _ _ _ _ _ _ _ _ T _ _ false X X K K Bl2 Bu2 (kind_long _ _) S1) as S1'. split; [auto|].
  split; [split; [exact S2|exact (c143_cdar_risk_found _ _ _ _ _ _ _ _ _ _ _ _ _ T _ _ false X X K K Bl2 Bu2 (kind_long _ _) 1 S2)]|].
  split; [split; [exact S3|exact (c143_cdar_return_found _ _ _ _ _ _ _ _ _ _ _ _ _ T _ _ false X X K K Bl2 Bu2 (kind_long _ _) _ S3)]|].
  destruct S1 as (x1 & y1 & r1 & E1). destruct S1' as (x2 & y2 & r2 & E2). destruct (c143_min_cdar _ _ _ _ _ _ _ _ _ _ _ _ _ T _ _ false X X (kind_long _ _) _ _ _ _ _ _ dd_nodup E1 E2) as (lb & ub & lb' & ub' & _ & _ & A).
  exists lb, ub, lb', ub', r1, r2. exact A.
Qed.
Example ex_c143_cdar_neutral : exists w1 w2 o1 o2 d1 d2, cdar_wider dd_mu rows0 0 long (around 0 2) w00 w00 w1 w2 o1 o2 d1 d2 /\ same_kind true o1 o2 /\
  succeeds (min_cdar best_solver d1 true) w1 o1 /\ succeeds (min_cdar best_solver d2 true) w2 o2.
Proof.
  destruct (wide_cdar 0 2 ltac:(lra) ltac:(lra)) as (w1 & w2 & o1 & o2 & d1 & d2 & T & (Bl2 & Bu2) & Sk & L & U & Mu & N). specialize (Sk eq_refl). prepw T. exists w1, w2, o1, o2, d1, d2. split; [exact T|]. split; [exact Sk|].
  assert (S1 : succeeds (min_cdar best_solver d1 true) w1 o1).
  { apply (exist_min_cdar _ _ _ _ _ _ _ _ _ Hg I1 Bl Bu best_solver X K true _ _ Hb'). exists [1; -1]. rewrite N. apply neutral_fits. }
  split; [exact S1|exact (c143_min_cdar_found _ _ _ _ _ _ _ _ _ _ _ _ _ T _ _ true X X K K Bl2 Bu2 Sk S1)].
Qed.
Example ex_c143_semivariance_return : exists w1 w2 o1 o2 d1 d2, semi_wider dd_mu rows0 1 0 long (around (-1) 2) w00 w00 w1 w2 o1 o2 d1 d2 /\
  succeeds (semi_efficient_return best_solver d1 (NFloat (1/10)) false) w1 o1 /\ succeeds (semi_efficient_return best_solver d2 (NFloat (1/10)) false) w2 o2.
Proof.
  destruct (wide_semi (-1) 2 ltac:(lra) ltac:(lra)) as (w1 & w2 & o1 & o2 & d1 & d2 & T & (Bl2 & Bu2) & _ & L & U & Mu & N). prepw T. exists w1, w2, o1, o2, d1, d2. split; [exact T|]. split.
  - apply (exist_semi_return _ _ _ _ _ _ _ _ _ _ Hg I1 Bl Bu best_solver X K false _ _ Hb (1/10) _ Mu); [lra|constructor; cbn; rewrite Rabs_right; lra|].
    exists [1; 0]. rewrite N. split; [apply long_fits|rewrite dd_inner; lra].
  - destruct (semi_run_facts dd_mu _ _ _ _ _ _ _ _ Hg I2) as (_ & _ & _ & (_ & _ & _ & _ & M2 & _) & Q2 & N2). rewrite wide_read in Q2. injection Q2 as L2 U2.
    apply (exist_semi_return _ _ _ _ _ _ _ _ _ _ Hg I2 Bl2 Bu2 best_solver X K false (e_lb o2) (e_ub o2) ltac:(right; auto) (1/10) _ M2); [lra|constructor; cbn; rewrite Rabs_right; lra|].
    exists [1; 0]. rewrite N2, <- L2, <- U2. split; [|cbn; lra]. split; [reflexivity|]. split; [|cbn; lra]. split; repeat constructor; cbn; lra.
Qed.
