(** * Concrete cases for the theorems in PropertiesDays.v *)
From Coq Require Import ZArith String List Bool Reals Lra Lia Permutation.
From Verif Require Import Num Py RBase PyLemmas SBL MBase MConvex MEF MDown SLin SBase SConvex SPerm SUnits SDown SDays SExist PBase PConvex PEF PEF2 PEFW PDown5 PDownW PPerm PPerm2 PPerm4 PExist4 PDays PDays2 PDays3 PropertiesDays.
Import ListNotations.
Local Open Scope R_scope.

(** two assets, three days, then the assets in the other order, the days in another order, and per cent a year *)
Definition swap : list nat := [1; 0]%nat.
Definition rows0 : list (list (option R)) := [day1; day2; day3].
Definition rows1 : list (list (option R)) := map (day_restated swap 100) [day3; day1; day2].
Definition w00 : world := mkWorld [] (fun _ => None) [] 0.
Definition long : bounds_arg := BPair (Some 0) (Some 1).
Lemma swap_ordering : ordering (length dd_mu) swap. Proof. apply perm_swap. Qed.
Lemma long_reordered : bounds_reordered (length dd_mu) swap long long. Proof. left. exists (Some 0), (Some 1). auto. Qed.
Lemma rows0_good : good_rows (length dd_mu) rows0. Proof. apply (dd_good day2 day3); [left; reflexivity|right; left; reflexivity]. Qed.
Lemma rows_restated : restated swap 100 rows0 rows1.
Proof. exists [day3; day1; day2]. split; [|reflexivity]. apply Permutation_sym, (Permutation_cons_append [day1; day2] day3). Qed.
Lemma dd_nodup : NoDup (map fst dd_mu).
Proof. repeat constructor; cbn; [intros [E|[]]; discriminate E|tauto]. Qed.
Lemma dd_ef : forall w, exists w1 o1, ef_init (MIn (MuSeries dd_mu)) (CIn (CovArray (zeros 2))) long w = (w1, Ok o1) /\ e_lb o1 = [Some 0; Some 0] /\ e_ub o1 = [Some 1; Some 1] /\ e_mu o1 = Some [1/10; 1/10] /\ e_n o1 = 2%nat.
Proof.
  intros w. eexists _, _. split; [apply (ef_init_ok (MuSeries dd_mu) (CovArray (zeros 2)) long w [Some 0; Some 0] [Some 1; Some 1]); [split; reflexivity|cbn; reflexivity]|]. auto.
Qed.
Lemma long_fits : fits 2 [Some 0; Some 0] [Some 1; Some 1] 1 [1; 0].
Proof. split; [reflexivity|]. split; [|cbn; lra]. split; (constructor; [unfold above, below; lra|constructor; [unfold above, below; lra|constructor]]). Qed.
Lemma bnd : forall z, bounded [Some z; Some z]. Proof. intros z. repeat constructor; discriminate. Qed.
Lemma dd_inner : inner [1/10; 1/10] [1; 0] = 1/10. Proof. cbn. lra. Qed.
Lemma dd_semi_1 : 1 * semivariance (dropna rows0) (0 * 1) [1; 0] <= 1 * 1.
Proof.
  unfold semivariance, rows0, day1, day2, day3, shortfall. cbn [dropna flat_map complete app period_returns map inner length INR total].
  repeat match goal with |- context [Rlt_dec ?u ?v] => destruct (Rlt_dec u v) end; lra.
Qed.
Lemma dd_cvar_1 : cvar 0 (dropna rows0) [1; 0] <= 1.
Proof. unfold cvar. rewrite worst_all. unfold rows0, day1, day2, day3. cbn [dropna flat_map complete app period_returns map inner length INR total]. lra. Qed.

Lemma twins_s : exists w1 w2 o1 o2 d1 d2, semi_twins swap 100 252 dd_mu rows0 rows1 1 0 long long w00 w00 w1 w2 o1 o2 d1 d2 /\
  e_lb o1 = [Some 0; Some 0] /\ e_ub o1 = [Some 1; Some 1] /\ e_mu o1 = Some [1/10; 1/10] /\ e_n o1 = 2%nat.
Proof.
  destruct (dd_ef w00) as (x & o & E & L & U & Mu & N).
  assert (E1 : semi_init (MIn (MuSeries dd_mu)) (RTable (length dd_mu) rows0) 1 0 long w00 = (x, Ok (o, mkSemi (dropna rows0) 0 1))).
  { unfold semi_init. change (length dd_mu) with 2%nat. rewrite E. unfold validate_returns. rewrite Mu. reflexivity. }
  destruct (c130_semivariance_accepted swap 100 252 dd_mu rows0 rows1 1 0 long long w00 w00 _ _ _ swap_ordering long_reordered E1) as (w2 & o2 & d2 & E2).
  exists x, w2, o, o2, (mkSemi (dropna rows0) 0 1), d2. split; [|auto]. split; [lra|]. split; [lra|]. split; [exact swap_ordering|]. split; [exact long_reordered|].
  split; [exact rows0_good|]. split; [exact rows_restated|]. split; [exact E1|exact E2].
Qed.
Ltac prep T S := pose proof best_solver_exact as X; pose proof best_solver_complete as K;
  pose proof T as (_ & _ & _ & _ & Hg & _ & I1 & _);
  match goal with L : e_lb ?o = _, U : e_ub ?o = _ |- _ =>
    assert (Bl : bounded (e_lb o)) by (rewrite L; apply bnd); assert (Bu : bounded (e_ub o)) by (rewrite U; apply bnd);
    assert (Hb : bounds_in_force false o [Some 0; Some 0] [Some 1; Some 1]) by (right; rewrite L, U; auto) end.
Example ex_c130_semivariance : exists w1 w2 o1 o2 d1 d2, semi_twins swap 100 252 dd_mu rows0 rows1 1 0 long long w00 w00 w1 w2 o1 o2 d1 d2 /\
  succeeds (min_semivariance best_solver d1 false) w1 o1 /\ succeeds (min_semivariance best_solver d2 false) w2 o2 /\
  succeeds (semi_efficient_risk best_solver d1 1 false) w1 o1 /\ succeeds (semi_efficient_risk best_solver d2 (100 * 1) false) w2 o2 /\
  succeeds (semi_efficient_return best_solver d1 (NFloat (1/10)) false) w1 o1 /\ succeeds (semi_efficient_return best_solver d2 (NFloat (252 * (1/10))) false) w2 o2 /\
  succeeds (semi_max_quadratic_utility best_solver d1 1 false) w1 o1 /\ succeeds (semi_max_quadratic_utility best_solver d2 (1 * 252 / (100 * 100)) false) w2 o2.
Proof.
  destruct twins_s as (w1 & w2 & o1 & o2 & d1 & d2 & T & L & U & Mu & N). prep T S. exists w1, w2, o1, o2, d1, d2. split; [exact T|].
  assert (S1 : succeeds (min_semivariance best_solver d1 false) w1 o1).
  { apply (exist_min_semivariance _ _ _ _ _ _ _ _ _ _ Hg I1 Bl Bu best_solver X K false _ _ Hb). exists [1; 0]. rewrite N. apply long_fits. }
  assert (S2 : succeeds (semi_efficient_risk best_solver d1 1 false) w1 o1).
  { apply (exist_semi_risk _ _ _ _ _ _ _ _ _ _ Hg I1 Bl Bu best_solver X K false _ _ Hb 1 _ Mu ltac:(lra)). exists [1; 0]. rewrite N. split; [apply long_fits|apply dd_semi_1]. }
  assert (S3 : succeeds (semi_efficient_return best_solver d1 (NFloat (1/10)) false) w1 o1).
  { apply (exist_semi_return _ _ _ _ _ _ _ _ _ _ Hg I1 Bl Bu best_solver X K false _ _ Hb (1/10) _ Mu ltac:(lra)); [constructor; rewrite Rabs_right; lra|]. exists [1; 0]. rewrite N. split; [apply long_fits|rewrite dd_inner; lra]. }
  assert (S4 : succeeds (semi_max_quadratic_utility best_solver d1 1 false) w1 o1).
  { apply (exist_semi_utility _ _ _ _ _ _ _ _ _ _ Hg I1 Bl Bu best_solver X K false _ _ Hb 1 _ Mu ltac:(lra)). exists [1; 0]. rewrite N. apply long_fits. }
  split; [exact S1|]. split; [exact (proj1 (c130_min_semivariance_both _ _ _ _ _ _ _ _ _ _ _ _ _ _ _ _ _ _ T _ _ _ X X K K) S1)|].
  split; [exact S2|]. split; [exact (proj1 (c130_semivariance_risk_both _ _ _ _ _ _ _ _ _ _ _ _ _ _ _ _ _ _ T _ _ _ X X K K 1 ltac:(lra)) S2)|].
  split; [exact S3|]. split; [exact (proj1 (c130_semivariance_return_both _ _ _ _ _ _ _ _ _ _ _ _ _ _ _ _ _ _ T _ _ _ X X K K _) S3)|].
  split; [exact S4|]. exact (proj1 (c130_semivariance_utility_both _ _ _ _ _ _ _ _ _ _ _ _ _ _ _ _ _ _ T _ _ _ X X K K _) S4).
Qed.
(** the answers of one method on the two statements of the data *)
Example ex_c130_min_semivariance : exists lb ub r1 r2, answers (map fst dd_mu) lb ub 1 (fun _ => True) (semivariance (dropna rows0) (0 * 1)) r1 /\
  answers (map fst dd_mu) lb ub 1 (fun _ => True) (semivariance (dropna rows0) (0 * 1)) r2.
Proof.
  destruct ex_c130_semivariance as (w1 & w2 & o1 & o2 & d1 & d2 & T & (x1 & y1 & r1 & E1) & (x2 & y2 & r2 & E2) & _).
  destruct (c130_min_semivariance _ _ _ _ _ _ _ _ _ _ _ _ _ _ _ _ _ _ T _ _ false _ _ _ _ _ _ best_solver_exact best_solver_exact dd_nodup E1 E2) as (lb & ub & _ & A1 & A2).
  exists lb, ub, r1, r2. split; [exact A1|exact A2].
Qed.

Lemma twins_cvar : exists w1 w2 o1 o2 d1 d2, cvar_twins swap 100 252 dd_mu rows0 rows1 0 long long w00 w00 w1 w2 o1 o2 d1 d2 /\
  e_lb o1 = [Some 0; Some 0] /\ e_ub o1 = [Some 1; Some 1] /\ e_mu o1 = Some [1/10; 1/10] /\ e_n o1 = 2%nat.
Proof.
  destruct (dd_ef w00) as (x & o & E & L & U & Mu & N).
  assert (V : validate_beta 0 = Ok 0) by (unfold validate_beta; rewrite (proj2 (Rleb_true 0 0)), (proj2 (Rltb_true 0 1)) by lra; reflexivity).
  assert (E1 : exists w1 d1, cvar_init (MIn (MuSeries dd_mu)) (RTable (length dd_mu) rows0) 0 long w00 = (w1, Ok (o, d1))).
  { unfold cvar_init. change (length dd_mu) with 2%nat. rewrite E. unfold validate_returns. rewrite Mu, V. cbn [length Nat.eqb negb]. eauto. }
  destruct E1 as (w1 & d1 & E1).
  destruct (c130_cvar_accepted swap 252 dd_mu rows0 rows1 0 long long w00 w00 _ _ _ swap_ordering long_reordered E1) as (w2 & o2 & d2 & E2).
  exists w1, w2, o, o2, d1, d2. split; [|auto]. split; [lra|]. split; [lra|]. split; [exact swap_ordering|]. split; [exact long_reordered|].
  split; [exact rows0_good|]. split; [exact rows_restated|]. split; [exact E1|exact E2].
Qed.
Example ex_c130_cvar : exists w1 w2 o1 o2 d1 d2, cvar_twins swap 100 252 dd_mu rows0 rows1 0 long long w00 w00 w1 w2 o1 o2 d1 d2 /\
  succeeds (min_cvar best_solver d1 false) w1 o1 /\ succeeds (min_cvar best_solver d2 false) w2 o2 /\
  succeeds (cvar_efficient_risk best_solver d1 1 false) w1 o1 /\ succeeds (cvar_efficient_risk best_solver d2 (100 * 1) false) w2 o2 /\
  succeeds (cvar_efficient_return best_solver d1 (1/10) false) w1 o1 /\ succeeds (cvar_efficient_return best_solver d2 (252 * (1/10)) false) w2 o2.
Proof.
  destruct twins_cvar as (w1 & w2 & o1 & o2 & d1 & d2 & T & L & U & Mu & N). prep T S. exists w1, w2, o1, o2, d1, d2. split; [exact T|].
  assert (S1 : succeeds (min_cvar best_solver d1 false) w1 o1).
  { apply (exist_min_cvar _ _ _ _ _ _ _ _ _ Hg I1 Bl Bu best_solver X K false _ _ Hb). exists [1; 0]. rewrite N. apply long_fits. }
  assert (S2 : succeeds (cvar_efficient_risk best_solver d1 1 false) w1 o1).
  { apply (exist_cvar_risk _ _ _ _ _ _ _ _ _ Hg I1 Bl Bu best_solver X K false _ _ Hb 1 _ Mu ltac:(lra)). exists [1; 0]. rewrite N. split; [apply long_fits|apply dd_cvar_1]. }
  assert (S3 : succeeds (cvar_efficient_return best_solver d1 (1/10) false) w1 o1).
  { apply (exist_cvar_return _ _ _ _ _ _ _ _ _ Hg I1 Bl Bu best_solver X K false _ _ Hb (1/10) _ Mu). exists [1; 0]. rewrite N. split; [apply long_fits|rewrite dd_inner; lra]. }
  split; [exact S1|]. split; [exact (proj1 (c130_min_cvar_both _ _ _ _ _ _ _ _ _ _ _ _ _ _ _ _ _ T _ _ _ X X K K) S1)|].
  split; [exact S2|]. split; [exact (proj1 (c130_cvar_risk_both _ _ _ _ _ _ _ _ _ _ _ _ _ _ _ _ _ T _ _ _ X X K K 1) S2)|].
  split; [exact S3|]. exact (proj1 (c130_cvar_return_both _ _ _ _ _ _ _ _ _ _ _ _ _ _ _ _ _ T _ _ _ X X K K _) S3).
Qed.

Lemma dd_cdar_1 : cdar 0 (dropna rows0) [1; 0] <= 1.
Proof. unfold rows0. rewrite (proj1 (dd_cdar 1 0 ltac:(lra) ltac:(lra) ltac:(lra))). lra. Qed.

Lemma twins_cdar : exists w1 w2 o1 o2 d1 d2, cdar_twins swap 100 252 dd_mu rows0 (map (day_restated swap 100) rows0) 0 long long w00 w00 w1 w2 o1 o2 d1 d2 /\
  e_lb o1 = [Some 0; Some 0] /\ e_ub o1 = [Some 1; Some 1] /\ e_mu o1 = Some [1/10; 1/10] /\ e_n o1 = 2%nat.
Proof.
  destruct (dd_ef w00) as (x & o & E & L & U & Mu & N).
  assert (V : validate_beta 0 = Ok 0) by (unfold validate_beta; rewrite (proj2 (Rleb_true 0 0)), (proj2 (Rltb_true 0 1)) by lra; reflexivity).
  assert (E1 : exists w1 d1, cdar_init (MIn (MuSeries dd_mu)) (RTable (length dd_mu) rows0) 0 long w00 = (w1, Ok (o, d1))).
  { unfold cdar_init. cbn [mu_values]; change (length (map snd dd_mu)) with 2%nat; change (length dd_mu) with 2%nat. rewrite E. unfold validate_returns. rewrite Mu, V. cbn [length Nat.eqb negb]. eauto. }
  destruct E1 as (w1 & d1 & E1).
  destruct (c130_cdar_accepted swap 252 dd_mu rows0 (map (day_restated swap 100) rows0) 0 long long w00 w00 _ _ _ swap_ordering long_reordered E1) as (w2 & o2 & d2 & E2).
  exists w1, w2, o, o2, d1, d2. split; [|auto]. split; [lra|]. split; [lra|]. split; [exact swap_ordering|]. split; [exact long_reordered|].
  split; [exact rows0_good|]. split; [reflexivity|]. split; [exact E1|exact E2].
Qed.
Example ex_c130_cdar : exists w1 w2 o1 o2 d1 d2, cdar_twins swap 100 252 dd_mu rows0 (map (day_restated swap 100) rows0) 0 long long w00 w00 w1 w2 o1 o2 d1 d2 /\
  succeeds (min_cdar best_solver d1 false) w1 o1 /\ succeeds (min_cdar best_solver d2 false) w2 o2 /\
  succeeds (cdar_efficient_risk best_solver d1 1 false) w1 o1 /\ succeeds (cdar_efficient_risk best_solver d2 (100 * 1) false) w2 o2 /\
  succeeds (cdar_efficient_return best_solver d1 (1/10) false) w1 o1 /\ succeeds (cdar_efficient_return best_solver d2 (252 * (1/10)) false) w2 o2.
Proof.
  destruct twins_cdar as (w1 & w2 & o1 & o2 & d1 & d2 & T & L & U & Mu & N). prep T S. exists w1, w2, o1, o2, d1, d2. split; [exact T|].
  assert (S1 : succeeds (min_cdar best_solver d1 false) w1 o1).
  { apply (exist_min_cdar _ _ _ _ _ _ _ _ _ Hg I1 Bl Bu best_solver X K false _ _ Hb). exists [1; 0]. rewrite N. apply long_fits. }
  assert (S2 : succeeds (cdar_efficient_risk best_solver d1 1 false) w1 o1).
  { apply (exist_cdar_risk _ _ _ _ _ _ _ _ _ Hg I1 Bl Bu best_solver X K false _ _ Hb 1 _ Mu ltac:(lra)). exists [1; 0]. rewrite N. split; [apply long_fits|apply dd_cdar_1]. }
  assert (S3 : succeeds (cdar_efficient_return best_solver d1 (1/10) false) w1 o1).
  { apply (exist_cdar_return _ _ _ _ _ _ _ _ _ Hg I1 Bl Bu best_solver X K false _ _ Hb (1/10) _ Mu ltac:(lra)). exists [1; 0]. rewrite N. split; [apply long_fits|rewrite dd_inner; lra]. }
  split; [exact S1|]. split; [exact (proj1 (c130_min_cdar_both _ _ _ _ _ _ _ _ _ _ _ _ _ _ _ _ _ T _ _ _ X X K K) S1)|].
  split; [exact S2|]. split; [exact (proj1 (c130_cdar_risk_both _ _ _ _ _ _ _ _ _ _ _ _ _ _ _ _ _ T _ _ _ X X K K 1) S2)|].
  split; [exact S3|]. exact (proj1 (c130_cdar_return_both _ _ _ _ _ _ _ _ _ _ _ _ _ _ _ _ _ T _ _ _ X X K K _) S3).
Qed.
