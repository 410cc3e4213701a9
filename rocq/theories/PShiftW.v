(** * A market neutral target return depends on the level of the expected returns (C138) *)
From Coq Require Import ZArith String List Bool Reals Lra Lia.
From Verif Require Import Num Py RBase PyLemmas SBL MBase MConvex MEF SLin SBase SConvex SPerm Sums Mat PBase PConvex PEF PEF2 PEFW PDownW PPerm PPerm2 PPerm3 PPerm4 SShift PShift.
Import ListNotations.
Local Open Scope R_scope.

Definition blank : world := mkWorld [] (fun _ => None) [] 0.
Definition lower2 (w2 : world) (o2 : ef) : Prop :=
  shifted (-(1/5)) lab_mu [LStr "A"; LStr "B"] [[1; 0]; [0; 3]] (BPair (Some 0) (Some 1)) blank blank lab_world w2 (lab_ef 1 3) o2.
Lemma diag2 : square 2 [[1; 0]; [0; 3]]. Proof. split; [reflexivity|repeat constructor]. Qed.
Lemma lower2_made : exists w2 o2, lower2 w2 o2.
Proof.
  destruct (shift_accepted (-(1/5)) lab_mu [LStr "A"; LStr "B"] [[1; 0]; [0; 3]] (BPair (Some 0) (Some 1)) blank blank _ _ diag2 (lab_init _ _ _)) as [w2 [o2 E]].
  exists w2, o2. split; [exact diag2|]. split; [apply lab_init|exact E].
Qed.
Lemma neutral_found : forall sv, exact_solver sv -> complete_solver sv -> succeeds (efficient_return sv (NFloat (1/20)) true) lab_world (lab_ef 1 3).
Proof.
  intros sv X K. apply (return_iff sv _ _ X K (lab_open 1 3) eq_refl [1/5; 1/10] eq_refl true (1/20) eq_refl).
  - intros q Hq. cbn in Hq. contradiction.
  - split.
    + exists [1; 0]. split; [cbn; lra|]. split; [reflexivity|]. split; [split; repeat apply Forall2_cons; try apply Forall2_nil; cbn; lra|].
      split; [cbn; lra|]. split; [exact I|]. intros z Lz [Z1 Z2] Z3 _. destruct z as [|a [|b [|]]]; try discriminate Lz. cbn in Z3.
      inversion Z1 as [|? ? ? ? A1 B1]; subst. inversion Z2 as [|? ? ? ? A2 B2]; subst. cbn in A1, A2. cbn. lra.
    + exists [Some (-1); Some (-1)], [Some 1; Some 1], [1/2; -(1/2)]. split.
      * left. split; [reflexivity|]. split; [|split; reflexivity]. unfold no_short_allowed. cbn. repeat constructor; lra.
      * split; [reflexivity|]. split; [split; repeat apply Forall2_cons; try apply Forall2_nil; cbn; lra|]. split; [cbn; lra|]. split; [cbn; lra|].
        intros z Lz _ Z3 Z4. destruct z as [|a [|b [|]]]; try discriminate Lz. change (e_cov (lab_ef 1 3)) with [[1; 0]; [0; 3]]. rewrite !lab_q. cbn in Z3, Z4.
        assert (b = - a) by lra. subst b. assert (1/2 <= a) by lra. nra.
Qed.
Lemma neutral_lost : forall w2 o2 sv, lower2 w2 o2 -> exact_solver sv -> complete_solver sv -> ~ succeeds (efficient_return sv (NFloat (1/20)) true) w2 o2.
Proof.
  intros w2 o2 sv T X K S.
  destruct (shifted_facts _ _ _ _ _ _ _ _ _ _ _ T) as (_ & _ & O2 & _ & N2 & _ & A2 & _ & _ & _ & M2 & _ & _ & LB & UB & _ & R2 & _ & F2).
  pose proof (proj1 (return_iff sv w2 o2 X K O2 A2 _ M2 true (1/20) R2 (F2 _)) S) as [[y [Hy (L & [W1 W2] & Ty & _)]] _].
  rewrite N2 in L. rewrite LB in W1. rewrite UB in W2. destruct y as [|a [|b [|]]]; try discriminate L.
  change (e_lb (lab_ef 1 3)) with [Some 0; Some 0] in W1. change (e_ub (lab_ef 1 3)) with [Some 1; Some 1] in W2. cbn in Hy, Ty.
  inversion W1 as [|? ? ? ? P1 Q1]; subst. inversion Q1 as [|? ? ? ? P2 _]; subst. cbn in P1, P2. lra.
Qed.
Theorem neutral_target_level : exists c s cols rows b v1 v2 w1 w2 o1 o2 t, shifted c s cols rows b v1 v2 w1 w2 o1 o2 /\ pos_def (length s) rows /\
  forall sv1 sv2, exact_solver sv1 -> complete_solver sv1 -> exact_solver sv2 -> complete_solver sv2 ->
  succeeds (efficient_return sv1 (NFloat t) true) w1 o1 /\ ~ succeeds (efficient_return sv2 (NFloat t) true) w2 o2.
Proof.
  destruct lower2_made as [w2 [o2 T]]. eexists _, _, _, _, _, _, _, _, w2, _, o2, (1/20). split; [exact T|]. split.
  - split; [exact diag2|]. intros w Hw Hne. destruct w as [|x [|y [|]]]; try discriminate Hw. rewrite lab_q.
    destruct (Req_dec x 0) as [->|Hx]; [destruct (Req_dec y 0) as [->|Hy]; [contradiction Hne; reflexivity|]|]; [pose proof (Rsqr_pos_lt y Hy)|pose proof (Rsqr_pos_lt x Hx)]; unfold Rsqr in *; nra.
  - intros sv1 sv2 X1 K1 X2 K2. split; [apply neutral_found; assumption|apply neutral_lost; assumption].
Qed.
