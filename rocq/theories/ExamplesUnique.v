(** * Non-trivial cases for the properties about solvers (C133) *)
From Coq Require Import ZArith List String Bool Reals Lra Lia.
From Verif Require Import Num Py MBase MConvex MEF MDown SLin SBase SObj SConvex SDown SCurve SUnique Sums PBase PConvex PEF PEF2 PEF3 PEF4 PEFW PRisk PDown2 PDown4 PDownW PUnique PUniqueW ExamplesEF.
Import ListNotations.
Local Open Scope R_scope.

(** two solvers, both succeed; the covariance matrix is positive definite *)
Example ex_c133_definite : convex_problem two_world o2 [] /\ definite (e_n o2) (e_cov o2) /\
  exists s0, exact_solver (prefer s0) /\ exists w1 o1 d1, min_volatility best_solver two_world o2 = (w1, o1, Ok d1).
Proof.
  split; [split; [exact o2_open|split; constructor]|]. split; [exact id2_definite|]. exists all_first. split; [apply prefer_exact|]. exact ex_c25.
Qed.

(** the two equal assets of c133_min_cvar_refuted, now with L2 regularisation *)
Definition even_l2 : ef := set_add [L2_reg_e (EVar 0) 1] (semi2_ef 0 1).
Example ex_c133_added : add_objective (fun v => L2_reg_e (EVar v) 1) cvar2_world (semi2_ef 0 1) = (cvar2_world, even_l2, Ok tt).
Proof. reflexivity. Qed.
Lemma even_l2_problem : convex_problem cvar2_world even_l2 [].
Proof.
  destruct (library_terms (w_sizes cvar2_world) (par_values cvar2_world) 0 2 eq_refl) as [H _]. specialize (H 1 ltac:(lra)).
  split; [|split; [constructor|constructor; [exact (proj1 H)|constructor]]].
  unfold open_ef. split; [reflexivity|]. split; [eexists; eexists; reflexivity|]. split; [reflexivity|]. split; [reflexivity|]. split; [reflexivity|].
  split; [split; [reflexivity|repeat constructor]|]. split; [intros m E; inversion E; reflexivity|].
  split; [constructor; [intros s ps; reflexivity|constructor]|]. split; [constructor; [constructor|constructor]|constructor].
Qed.
Lemma even_l2_regularised : regularised cvar2_world even_l2.
Proof. constructor. apply (library_terms (w_sizes cvar2_world) (par_values cvar2_world) 0 2 eq_refl). lra. Qed.
Lemma even_l2_ready : cvar_ready cvar2_world even_l2 [] same_data.
Proof.
  split; [split; [cbn; lia|repeat constructor]|]. split; [cbn; lra|]. split; [reflexivity|]. split; [reflexivity|]. split; [discriminate|].
  split; unfold uses; cbn; intuition (try discriminate; try lia).
Qed.
(** the call answers, with equal weights *)
Example ex_c133_regularised : forall sv, complete_solver sv -> exists w' o' dd, min_cvar sv same_data false cvar2_world even_l2 = (w', o', Ok dd).
Proof.
  intros sv Hsv. apply (min_cvar_answers cvar2_world even_l2 [] same_data (proj1 even_l2_problem) even_l2_ready sv false Hsv).
  exists [Some 0; Some 0], [Some 1; Some 1], (fun v => match v with 0%nat => [1/2; 1/2] | _ => [0] end). split; [right; split; [left; reflexivity|split; reflexivity]|].
  split; [|split; [exact I|]].
  - apply admissible_two'; [reflexivity| |exists (1/2), (1/2); split; [reflexivity|lra]].
    intros v Hv. cbn in Hv. destruct v as [|[|[|v]]]; [reflexivity..|lia].
  - intros s' Ha _. apply admissible_two in Ha; [|reflexivity|reflexivity]. destruct Ha as [x [y [E [Hx [Hy Hs]]]]].
    unfold penalty. cbn [even_l2 set_add semi2_ef init_ef e_w e_add empty_world w_sizes List.length map total]. 
    rewrite !(PObj.L2_value _ _ _ _ eq_refl). cbn [eval]. rewrite E. cbn [same_data cv_beta cv_returns]. rewrite !cvar_one by lra. rewrite !qret_two.
    replace y with (1 - x) by lra. pose proof (Rle_0_sqr (x - 1/2)) as S. unfold Rsqr in S. lra.
Qed.
