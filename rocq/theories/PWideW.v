(** * Wider bounds: in a market neutral problem they can leave no portfolio (C143) *)
From Coq Require Import ZArith String List Bool Reals Lra Lia.
From Verif Require Import Num Py RBase PyLemmas SBL MBase MConvex MEF MDown SLin SBase SConvex SPerm SGrow SWide Sums Mat PBase PConvex PEF PEF2 PEFW PDownW PPerm PPerm2 PPerm3 PPerm4 PGrow PShiftW PWide.
Import ListNotations.
Local Open Scope R_scope.

(** (0, 1) is replaced by (-1, 1), the wider (-1/10, 1) is kept *)
Lemma tenth_made : forall lo hi, exists w2 o2, ef_init (MIn (MuSeries lab_mu)) (CIn (CovFrame [LStr "A"; LStr "B"] [[1; 0]; [0; 3]])) (around lo hi) blank = (w2, Ok o2) /\
  e_lb o2 = [Some lo; Some lo] /\ e_ub o2 = [Some hi; Some hi].
Proof.
  intros lo hi. eexists _, _. split; [apply ef_init_ok with (lb := [Some lo; Some lo]) (ub := [Some hi; Some hi])|split; reflexivity].
  - split; [reflexivity|]. apply (num_cols_square 2); [lia|exact diag2].
  - reflexivity.
Qed.
Theorem wide_neutral_refuted : exists s cols rows b1 b2 v1 v2 w1 w2 o1 o2 sv tg, ef_wider s cols rows b1 b2 v1 v2 w1 w2 o1 o2 /\ exact_solver sv /\ complete_solver sv /\
  e_lb o1 = [Some 0; Some 0] /\ e_ub o1 = [Some 1; Some 1] /\ e_lb o2 = [Some (-(1/10)); Some (-(1/10))] /\ e_ub o2 = [Some 1; Some 1] /\
  succeeds (efficient_return sv (NFloat tg) true) w1 o1 /\ ~ succeeds (efficient_return sv (NFloat tg) true) w2 o2.
Proof.
  destruct (tenth_made (-(1/10)) 1) as (w2 & o2 & E & L & U).
  exists lab_mu, [LStr "A"; LStr "B"], [[1; 0]; [0; 3]], (BPair (Some 0) (Some 1)), (around (-(1/10)) 1), blank, blank, lab_world, w2, (lab_ef 1 3), o2, best_solver, (1/20).
  split.
  { split; [exact diag2|]. split; [apply lab_init|]. split; [exact E|]. rewrite L, U. split; repeat constructor; cbn; lra. }
  split; [exact best_solver_exact|]. split; [exact best_solver_complete|]. split; [reflexivity|]. split; [reflexivity|]. split; [exact L|]. split; [exact U|].
  split; [apply neutral_found; [exact best_solver_exact|exact best_solver_complete]|].
  destruct (bound_facts lab_mu _ _ _ _ _ _ diag2 E) as (O2 & N2 & A2 & T2 & M2 & C2 & R2 & F2).
  rewrite (return_iff best_solver w2 o2 best_solver_exact best_solver_complete O2 A2 _ M2 true (1/20) R2 (F2 _)).
  intros [_ (lb & ub & x & B & (Lx & Wx & Tx & Ox & _))]. destruct B as [(_ & S & _)|(_ & -> & ->)].
  - rewrite L in S. inversion S as [|? ? S1 _]; subst. lra.
  - rewrite L, U in Wx. rewrite N2 in Lx. destruct x as [|p [|q [|]]]; try discriminate Lx. destruct Wx as [W _]. inversion W as [|? ? ? ? P W1]; subst. inversion W1 as [|? ? ? ? Q _]; subst. cbn in *. lra.
Qed.
