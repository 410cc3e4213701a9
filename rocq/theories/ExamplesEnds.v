(** * Concrete cases for the theorems in PropertiesEnds.v *)
From Coq Require Import ZArith String List Bool Reals Lra Lia Permutation.
From Verif Require Import Num Py RBase PyLemmas SBL MBase MConvex MEF MDown SLin SBase SConvex SPerm SUnits SDown SDays SExist SEnds PBase PConvex PEF PEF2 PEFW PDown5 PDownW PPerm PPerm2 PPerm4 PExist4 PDays PDays2 PDays3 PEnds PropertiesEnds ExamplesDays.
Import ListNotations.
Local Open Scope R_scope.

(** three days: at the default level of 95 per cent only the worst day counts *)
Example ex_c139_default : tail_end (95/100) (length (dropna rows0)) largest.
Proof. right. split; [|reflexivity]. cbn. lra. Qed.
Example ex_c139_zero : tail_end 0 (length (dropna rows0)) average.
Proof. left. split; reflexivity. Qed.
Example ex_c139_largest : largest (day_losses (dropna rows0) [1; 0]) = 1 /\ average (day_losses (dropna rows0) [1; 0]) = 0 /\ largest (falls (dropna rows0) [1; 0]) = 1.
Proof.
  unfold falls, day_losses, average, rows0, day1, day2, day3. cbn [dropna flat_map complete app period_returns map inner length INR total largest fold_right drawdowns_from].
  repeat match goal with |- context [Rmax ?u ?v] => lazymatch u with context [Rmax _ _] => fail | _ => lazymatch v with context [Rmax _ _] => fail | _ =>
    first [rewrite (Rmax_left u v) by lra | rewrite (Rmax_right u v) by lra] end end end.
  repeat split; lra.
Qed.
Lemma beta_ok : forall beta, 0 <= beta < 1 -> validate_beta beta = Ok beta.
Proof. intros beta H. unfold validate_beta. rewrite (proj2 (Rleb_true 0 beta)), (proj2 (Rltb_true beta 1)) by lra. reflexivity. Qed.
Lemma made_cvar : forall beta, 0 <= beta < 1 -> exists w o d, cvar_made dd_mu rows0 beta long w00 w o d /\
  e_lb o = [Some 0; Some 0] /\ e_ub o = [Some 1; Some 1] /\ e_mu o = Some [1/10; 1/10] /\ e_n o = 2%nat.
Proof.
  intros beta H. destruct (dd_ef w00) as (x & o & E & L & U & Mu & N).
  assert (E1 : exists w1 d1, cvar_init (MIn (MuSeries dd_mu)) (RTable (length dd_mu) rows0) beta long w00 = (w1, Ok (o, d1))).
  { unfold cvar_init. change (length dd_mu) with 2%nat. rewrite E. unfold validate_returns. rewrite Mu, (beta_ok _ H). cbn [length Nat.eqb negb]. eauto. }
  destruct E1 as (w1 & d1 & E1). exists w1, o, d1. split; [|auto]. split; [exact rows0_good|exact E1].
Qed.
Lemma made_cdar : forall beta, 0 <= beta < 1 -> exists w o d, cdar_made dd_mu rows0 beta long w00 w o d /\
  e_lb o = [Some 0; Some 0] /\ e_ub o = [Some 1; Some 1] /\ e_mu o = Some [1/10; 1/10] /\ e_n o = 2%nat.
Proof.
  intros beta H. destruct (dd_ef w00) as (x & o & E & L & U & Mu & N).
  assert (E1 : exists w1 d1, cdar_init (MIn (MuSeries dd_mu)) (RTable (length dd_mu) rows0) beta long w00 = (w1, Ok (o, d1))).
  { unfold cdar_init. cbn [mu_values]; change (length (map snd dd_mu)) with 2%nat; change (length dd_mu) with 2%nat. rewrite E. unfold validate_returns. rewrite Mu, (beta_ok _ H). cbn [length Nat.eqb negb]. eauto. }
  destruct E1 as (w1 & d1 & E1). exists w1, o, d1. split; [|auto]. split; [exact rows0_good|exact E1].
Qed.
Ltac prep1 T := pose proof best_solver_exact as X; pose proof best_solver_complete as K;
  pose proof T as (Hg & I1);
  match goal with L : e_lb ?o = _, U : e_ub ?o = _ |- _ =>
    assert (Bl : bounded (e_lb o)) by (rewrite L; apply bnd); assert (Bu : bounded (e_ub o)) by (rewrite U; apply bnd);
    assert (Hb : bounds_in_force false o [Some 0; Some 0] [Some 1; Some 1]) by (right; rewrite L, U; auto) end.
(** at either end the three calls succeed, the risk target 1 being met by the first asset alone, and the answers are the best for the
    measure at that end *)
Example ex_c139_cvar : forall beta f, 0 <= beta < 1 -> tail_end beta (length (dropna rows0)) f -> f (day_losses (dropna rows0) [1; 0]) <= 1 ->
  exists w o d, cvar_made dd_mu rows0 beta long w00 w o d /\
  succeeds (min_cvar best_solver d false) w o /\ succeeds (cvar_efficient_risk best_solver d 1 false) w o /\ succeeds (cvar_efficient_return best_solver d (1/10) false) w o /\
  exists lb ub r, answers (map fst dd_mu) lb ub 1 (fun _ => True) (fun x => f (day_losses (dropna rows0) x)) r.
Proof.
  intros beta f Hb0 He Hf. destruct (made_cvar beta Hb0) as (w & o & d & T & L & U & Mu & N). prep1 T. exists w, o, d. split; [exact T|].
  assert (S1 : succeeds (min_cvar best_solver d false) w o).
  { apply (exist_min_cvar _ _ _ _ _ _ _ _ _ Hg I1 Bl Bu best_solver X K false _ _ Hb). exists [1; 0]. rewrite N. apply long_fits. }
  split; [exact S1|]. split.
  { apply (exist_cvar_risk _ _ _ _ _ _ _ _ _ Hg I1 Bl Bu best_solver X K false _ _ Hb 1 _ Mu ltac:(lra)). exists [1; 0]. rewrite N. split; [apply long_fits|].
    rewrite (cvar_at_end _ _ _ _ _ _ _ _ _ T He). exact Hf. }
  split.
  { apply (exist_cvar_return _ _ _ _ _ _ _ _ _ Hg I1 Bl Bu best_solver X K false _ _ Hb (1/10) _ Mu). exists [1; 0]. rewrite N. split; [apply long_fits|rewrite dd_inner; lra]. }
  destruct S1 as (x & y & r & E1). destruct (c139_min_cvar _ _ _ _ _ _ _ _ _ T He best_solver false X _ _ _ dd_nodup E1) as (lb & ub & _ & A). exists lb, ub, r. exact A.
Qed.
Example ex_c139_cdar : forall beta f, 0 <= beta < 1 -> tail_end beta (length (dropna rows0)) f -> f (falls (dropna rows0) [1; 0]) <= 1 ->
  exists w o d, cdar_made dd_mu rows0 beta long w00 w o d /\
  succeeds (min_cdar best_solver d false) w o /\ succeeds (cdar_efficient_risk best_solver d 1 false) w o /\ succeeds (cdar_efficient_return best_solver d (1/10) false) w o /\
  exists lb ub r, answers (map fst dd_mu) lb ub 1 (fun _ => True) (fun x => f (falls (dropna rows0) x)) r.
Proof.
  intros beta f Hb0 He Hf. destruct (made_cdar beta Hb0) as (w & o & d & T & L & U & Mu & N). prep1 T. exists w, o, d. split; [exact T|].
  assert (S1 : succeeds (min_cdar best_solver d false) w o).
  { apply (exist_min_cdar _ _ _ _ _ _ _ _ _ Hg I1 Bl Bu best_solver X K false _ _ Hb). exists [1; 0]. rewrite N. apply long_fits. }
  split; [exact S1|]. split.
  { apply (exist_cdar_risk _ _ _ _ _ _ _ _ _ Hg I1 Bl Bu best_solver X K false _ _ Hb 1 _ Mu ltac:(lra)). exists [1; 0]. rewrite N. split; [apply long_fits|].
    rewrite (cdar_at_end _ _ _ _ _ _ _ _ _ T He). exact Hf. }
  split.
  { apply (exist_cdar_return _ _ _ _ _ _ _ _ _ Hg I1 Bl Bu best_solver X K false _ _ Hb (1/10) _ Mu ltac:(lra)). exists [1; 0]. rewrite N. split; [apply long_fits|rewrite dd_inner; lra]. }
  destruct S1 as (x & y & r & E1). destruct (c139_min_cdar _ _ _ _ _ _ _ _ _ T He best_solver false X _ _ _ dd_nodup E1) as (lb & ub & _ & A). exists lb, ub, r. exact A.
Qed.
(** the hypotheses at the default level *)
Example ex_c139_default_cvar : exists w o d, cvar_made dd_mu rows0 (95/100) long w00 w o d /\ succeeds (cvar_efficient_risk best_solver d 1 false) w o.
Proof.
  destruct (ex_c139_cvar (95/100) largest ltac:(lra) ex_c139_default ltac:(rewrite (proj1 ex_c139_largest); lra)) as (w & o & d & T & _ & S & _). exists w, o, d. auto.
Qed.
Example ex_c139_default_cdar : exists w o d, cdar_made dd_mu rows0 (95/100) long w00 w o d /\ succeeds (cdar_efficient_risk best_solver d 1 false) w o.
Proof.
  destruct (ex_c139_cdar (95/100) largest ltac:(lra) ex_c139_default ltac:(rewrite (proj2 (proj2 ex_c139_largest)); lra)) as (w & o & d & T & _ & S & _). exists w, o, d. auto.
Qed.
