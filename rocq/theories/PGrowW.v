(** * One more asset: a new asset with missing days can make the best portfolio worse (C142) *)
From Coq Require Import ZArith String List Bool Reals Lra Lia.
From Verif Require Import Num Py RBase PyLemmas SBL MBase MConvex MEF MDown SLin SBase SConvex SPerm SUnits SDown SDays SExist SEnds SGrow Sums Mat PBase PConvex PEF PEF2 PEFW PDown5 PDownW PPerm PPerm2 PPerm4 PDays PTail PEnds PExist4 PGrow PGrow2.
Import ListNotations.
Local Open Scope R_scope.

Definition g_mu : list (label * R) := [(LStr "A", 1/10)].
Definition g_rows : list (list (option R)) := [[Some (-1)]; [Some 1]].
(** the new asset was not traded on the second day *)
Definition g_new : list (option R) := [Some (-1); None].
Definition g_world : world := mkWorld [] (fun _ => None) [] 0.
Lemma g_first : exists w o d, cvar_init (MIn (MuSeries g_mu)) (RTable (length g_mu) g_rows) 0 (around 0 1) g_world = (w, Ok (o, d)).
Proof.
  assert (E : exists w o, ef_init (MIn (MuSeries g_mu)) (CIn (CovArray (zeros 1))) (around 0 1) g_world = (w, Ok o) /\ e_mu o = Some [1/10]).
  { eexists _, _. split; [apply ef_init_ok with (lb := [Some 0]) (ub := [Some 1])|reflexivity].
    - destruct (zeros_square 1) as [Z _]. split; [apply Z|]. apply num_cols_square; [cbn; lia|exact Z].
    - unfold read_bounds, around. rewrite andb_false_r. reflexivity. }
  destruct E as (w & o & E & M). unfold cvar_init. cbn [mu_values]. change (length (map snd g_mu)) with 1%nat. change (length g_mu) with 1%nat. rewrite E. unfold validate_returns. rewrite M. cbn [length Nat.eqb negb].
  unfold validate_beta. rewrite (proj2 (Rleb_true 0 0)), (proj2 (Rltb_true 0 1)) by lra. cbv zeta. eexists _, _, _. reflexivity.
Qed.
Lemma g_good1 : good_rows (length g_mu) g_rows.
Proof. split; [repeat constructor|]. exists [Some (-1)], [-1]. split; [left; reflexivity|reflexivity]. Qed.
Lemma g_good2 : good_rows 2 (rows_grow g_new g_rows).
Proof. split; [repeat constructor|]. exists [Some (-1); Some (-1)], [-1; -1]. split; [left; reflexivity|reflexivity]. Qed.
Lemma g_cost1 : forall x, length x = 1%nat -> total x = 1 -> cvar 0 (dropna g_rows) x = 0.
Proof. intros [|a [|]] L T; try discriminate L. cbn in T. rewrite (cvar_end 0 _ average); [|cbn; lia|lra|left; auto]. unfold average, day_losses, period_returns, dropna. cbn. lra. Qed.
Lemma g_cost2 : forall x, length x = 2%nat -> total x = 1 -> cvar 0 (dropna (rows_grow g_new g_rows)) x = 1.
Proof. intros [|a [|b [|]]] L T; try discriminate L. cbn in T. rewrite (cvar_end 0 _ average); [|cbn; lia|lra|left; auto]. unfold average, day_losses, period_returns, dropna. cbn. lra. Qed.
Theorem gaps_refuted : exists t a q s rows v1 v2 w1 w2 o1 o2 d1 d2 sv, length q = length rows /\ good_rows (length s) rows /\ good_rows (S (length s)) (rows_grow q rows) /\
  NoDup (t :: map fst s) /\ exact_solver sv /\
  cvar_init (MIn (MuSeries s)) (RTable (length s) rows) 0 (around 0 1) v1 = (w1, Ok (o1, d1)) /\
  cvar_init (MIn (MuSeries (mu_grow t a s))) (RTable (S (length s)) (rows_grow q rows)) 0 (around 0 1) v2 = (w2, Ok (o2, d2)) /\
  succeeds (min_cvar sv d1 false) w1 o1 /\ succeeds (min_cvar sv d2 false) w2 o2 /\
  forall x x', length x = length s -> total x = 1 -> length x' = S (length s) -> total x' = 1 -> cvar 0 (dropna rows) x < cvar 0 (dropna (rows_grow q rows)) x'.
Proof.
  destruct g_first as (w1 & o1 & d1 & I1). destruct (cvar_grow_accepted (LStr "B") (1/10) g_new 0 1 g_mu g_rows 0 g_world g_world _ _ _ I1) as (w2 & o2 & d2 & I2).
  exists (LStr "B"), (1/10), g_new, g_mu, g_rows, g_world, g_world, w1, w2, o1, o2, d1, d2, best_solver.
  split; [reflexivity|]. split; [exact g_good1|]. split; [exact g_good2|]. split; [repeat constructor; cbn; intuition discriminate|]. split; [exact best_solver_exact|]. split; [exact I1|]. split; [exact I2|].
  destruct (cvar_run_facts _ _ _ _ _ _ _ _ g_good1 I1) as (_ & _ & _ & _ & Q1 & N1). destruct (cvar_run_facts (mu_grow (LStr "B") (1/10) g_mu) _ _ _ _ _ _ _ g_good2 I2) as (_ & _ & _ & _ & Q2 & N2).
  unfold read_bounds, around in Q1, Q2. rewrite andb_false_r in Q1, Q2. injection Q1 as L1 U1. injection Q2 as L2 U2. split; [|split].
  - apply (exist_min_cvar _ _ _ _ _ _ _ _ _ g_good1 I1 ltac:(rewrite <- L1; apply (around_bounded 1)) ltac:(rewrite <- U1; apply (around_bounded 1)) _ best_solver_exact best_solver_complete false (e_lb o1) (e_ub o1) ltac:(right; auto)).
    exists [1]. rewrite N1, <- L1, <- U1. split; [reflexivity|]. split; [split; repeat constructor; cbn; lra|cbn; lra].
  - apply (exist_min_cvar _ _ _ _ _ _ _ _ _ g_good2 I2 ltac:(rewrite <- L2; apply (around_bounded 2)) ltac:(rewrite <- U2; apply (around_bounded 2)) _ best_solver_exact best_solver_complete false (e_lb o2) (e_ub o2) ltac:(right; auto)).
    exists [1; 0]. rewrite N2, <- L2, <- U2. split; [reflexivity|]. split; [split; repeat constructor; cbn; lra|cbn; lra].
  - intros x x' Lx Tx Lx' Tx'. rewrite (g_cost1 x Lx Tx), (g_cost2 x' Lx' Tx'). lra.
Qed.
