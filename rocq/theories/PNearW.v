(** * Solvers of limited accuracy: a solver that is not exact *)
From Coq Require Import ZArith List String Bool Reals Lra Lia ClassicalEpsilon.
From Verif Require Import Num Py RBase PyLemmas MBase MConvex MEF SLin SBase SConvex SNear Sums PBase PConvex PEF PEF2 PEF3 PEF4 PEFW PNear1 PNear3.
Import ListNotations.
Local Open Scope R_scope.

Definition good_enough (t g : R) (sizes : list nat) (ps : list R) (obj : expr) (cs : list con) (s : env) : Prop :=
  well_sized sizes s /\ Forall (meets t s ps) cs /\ (forall s', feasible sizes ps cs s' -> evals s ps obj <= evals s' ps obj + g).
(** moves the optimum, where the moved point is still good enough *)
Definition off_solver (t g : R) (move : env -> env) : solver_t := fun sizes ps obj cs =>
  match best_solver sizes ps obj cs with
  | AOptimal s v => if excluded_middle_informative (good_enough t g sizes ps obj cs (move s))
                    then AOptimal (move s) (evals (move s) ps obj) else AOptimal s v
  | a => a
  end.
Lemma off_accurate : forall t g move, 0 <= t -> 0 <= g -> accurate_solver t g (off_solver t g move).
Proof.
  intros t g move Ht Hg sizes ps obj cs s v E. unfold off_solver in E.
  destruct (best_solver sizes ps obj cs) as [s0 v0|b|x] eqn:Eb; try discriminate E.
  destruct (excluded_middle_informative _) as [[H1 [H2 H3]]|H].
  - inversion E; subst. split; [exact H1|]. split; [exact H2|]. split; [exact H3|]. rewrite Rminus_diag_eq, Rabs_R0 by reflexivity. exact Hg.
  - inversion E; subst. pose proof best_solver_exact as Hx. apply exact_accurate in Hx. apply (accurate_mono 0 t 0 g) in Hx; [|exact Ht|exact Hg].
    apply (Hx _ _ _ _ _ _ Eb).
Qed.
Definition nudge (s : env) : env := fun v => match s v with x :: l => (x + 1/1000) :: l | [] => [] end.
Definition rough : solver_t := off_solver (1/1000) (1/100) nudge.

(** the first weight is too large by 1/1000 *)
Lemma rough_sum : exists w' o' d, accurate_solver (1/1000) (1/100) rough /\
  two [1/5; 1/10] 0 1 = (two_world, Ok (two_ef [1/5; 1/10] 0 1)) /\
  min_volatility rough two_world (two_ef [1/5; 1/10] 0 1) = (w', o', Ok d) /\
  exists r, e_weights o' = Some r /\ 1 + 9/10000 <= total r.
Proof.
  set (o := two_ef [1/5; 1/10] 0 1).
  pose (e := EQuad [[1; 0]; [0; 1]] (EVar 0)).
  pose (cs := [lower_con [Some 0; Some 0] 0; upper_con [Some 1; Some 1] 0; CEq (ESum (EVar 0)) (EScalar 1)]).
  assert (Hev : forall s x y, s 0%nat = [x; y] -> forall ps, evals s ps e = x * x + y * y).
  { intros s x y E ps. unfold e. rewrite evals_quad, E. unfold qform. cbn. lra. }
  assert (Hfe : forall s, feasible [2%nat] [] cs s <-> exists x y, s 0%nat = [x; y] /\ 0 <= x <= 1 /\ 0 <= y <= 1 /\ x + y = 1).
  { intros s. assert (Hw : well_sized [2%nat] s <-> List.length (s 0%nat) = 2%nat).
    { split; [intros H; apply (H 0%nat); cbn; lia|intros H v Hv; cbn in Hv; assert (v = 0%nat) by lia; subst; exact H]. }
    unfold feasible. rewrite Hw. split.
    - intros [L F]. destruct (s 0%nat) as [|x [|y [|z l]]] eqn:E; try discriminate L. exists x, y. split; [reflexivity|].
      unfold cs in F. rewrite !Forall_cons_iff' in F. destruct F as [F1 [F2 [F3 _]]].
      apply sat_lower in F1; [|rewrite E; reflexivity]. apply sat_upper in F2; [|rewrite E; reflexivity]. apply sum_is_sat in F3.
      rewrite E in *. cbn [total] in F3. inversion F1 as [|? ? ? ? A1 A2]; subst. inversion A2 as [|? ? ? ? A3 A4]; subst.
      inversion F2 as [|? ? ? ? B1 B2]; subst. inversion B2 as [|? ? ? ? B3 B4]; subst. cbn [above below] in *. lra.
    - intros [x [y [E [H1 [H2 H3]]]]]. split; [rewrite E; reflexivity|]. unfold cs. constructor; [|constructor; [|constructor; [|constructor]]].
      + apply sat_lower; [rewrite E; reflexivity|]. rewrite E. (constructor; [|constructor; [|constructor]]); cbn; lra.
      + apply sat_upper; [rewrite E; reflexivity|]. rewrite E. (constructor; [|constructor; [|constructor]]); cbn; lra.
      + apply sum_is_sat. rewrite E. cbn [total]. lra. }
  assert (Hopt : optimal [2%nat] [] e cs (fun _ => [1/2; 1/2])).
  { split; [apply Hfe; exists (1/2), (1/2); split; [reflexivity|lra]|]. intros s' Hs'. apply Hfe in Hs'. destruct Hs' as [x [y [E [_ [_ H]]]]].
    rewrite (Hev _ (1/2) (1/2) eq_refl), (Hev s' x y E). assert (y = 1 - x) by lra. subst y. pose proof (Rle_0_sqr (x - 1/2)) as G. unfold Rsqr in G. lra. }
  destruct (best_solver_answers _ _ _ _ _ Hopt) as [s [Es [Hs1 Hs2]]].
  pose proof Hs1 as Hf. apply Hfe in Hs1. destruct Hs1 as [x [y [E [H1 [H2 H3]]]]].
  pose proof (Hs2 _ (proj1 Hopt)) as H4. rewrite (Hev _ (1/2) (1/2) eq_refl), (Hev s x y E) in H4.
  assert (Hx : x = 1/2).
  { assert (y = 1 - x) by lra. subst y. assert (G : Rsqr (x - 1/2) = 0) by (apply Rle_antisym; [unfold Rsqr; lra|apply Rle_0_sqr]).
    apply Rsqr_0_uniq in G. lra. } assert (Hy : y = 1/2) by lra. subst x y.
  assert (En : nudge s 0%nat = [1/2 + 1/1000; 1/2]) by (unfold nudge; rewrite E; reflexivity).
  assert (Hgood : good_enough (1/1000) (1/100) [2%nat] [] e cs (nudge s)).
  { split; [intros v Hv; cbn in Hv; assert (v = 0%nat) by lia; subst; rewrite En; reflexivity|]. split.
    - unfold cs. constructor; [|constructor; [|constructor; [|constructor]]].
      + apply meets_lower; [rewrite En; reflexivity|]. rewrite En. (constructor; [|constructor; [|constructor]]); cbn; lra.
      + apply meets_upper; [rewrite En; reflexivity|]. rewrite En. (constructor; [|constructor; [|constructor]]); cbn; lra.
      + apply sum_is_meets. rewrite En. cbn [total]. apply Rabs_le. lra.
    - intros s' Hs'. apply Hfe in Hs'. destruct Hs' as [x [y [E' [_ [_ H]]]]].
      rewrite (Hev _ _ _ En), (Hev s' x y E'). assert (y = 1 - x) by lra. subst y. pose proof (Rle_0_sqr (x - 1/2)) as G. unfold Rsqr in G. lra. }
  assert (Er : rough [2%nat] [] e cs = AOptimal (nudge s) (evals (nudge s) [] e)).
  { unfold rough, off_solver. rewrite Es. destruct (excluded_middle_informative _) as [_|G]; [reflexivity|contradiction]. }
  destruct (min_volatility rough two_world o) as [[w' o'] r] eqn:Em.
  unfold min_volatility, bind, get in Em. rewrite check_cov_run in Em by (split; [reflexivity|repeat constructor]).
  rewrite set_objective_full_run in Em. unfold sum_is in Em. rewrite add_constraint_open in Em by reflexivity.
  set (w1 := mkWorld _ _ _ _) in Em at 1. set (o1 := set_cons _ _) in Em.
  destruct (solve_output_run rough w1 o1 2%nat e (e_cons o1)) as [w2 [o2 [E2 [_ [_ [_ [W _]]]]]]]; [reflexivity|reflexivity|left; reflexivity|].
  assert (Ea : rough (w_sizes w1) (par_values w1) e (map snd (e_cons o1)) = AOptimal (nudge s) (evals (nudge s) [] e)) by exact Er.
  rewrite Ea in E2, W. cbn [outcome out_weights] in E2, W.
  assert (Hf2 : bind (solve_opt rough) (fun _ => output) w1 o1 = (w', o', r)) by exact Em.
  pose proof (eq_trans (eq_sym E2) Em) as H5. inversion H5; subst w' o' r. clear H5.
  exists w2, o2. eexists. split; [apply off_accurate; lra|]. split; [apply two_ok|]. split; [reflexivity|].
  eexists. split; [exact W|]. change (e_w o1) with 0%nat. rewrite En.
  pose proof (round16_rounded [1/2 + 1/1000; 1/2]) as F. apply rounded_close in F. apply total_close in F. apply Rabs_between in F.
  rewrite map_length in F. cbn [List.length INR] in F. revert F. generalize (total (map round16 [1/2 + 1/1000; 1/2])) as tt. intros tt F.
  cbn [total] in F.
  assert (Hh : half_unit 16 <= 1 / 100000).
  { unfold half_unit. apply (Rmult_le_reg_r (IZR (10 ^ 16))); [apply IZR_lt; reflexivity|].
    unfold Rdiv. rewrite Rmult_assoc, Rinv_l by (apply not_0_IZR; discriminate).
    assert (100000 <= IZR (10 ^ 16)) by (apply IZR_le; discriminate). lra. }
  revert F Hh. generalize (half_unit 16) as h. intros h F Hh. lra.
Qed.
Lemma rough_sum_refuted : exists sv w o w' o' d, accurate_solver (1/1000) (1/100) sv /\
  two [1/5; 1/10] 0 1 = (w, Ok o) /\ min_volatility sv w o = (w', o', Ok d) /\
  exists r, e_weights o' = Some r /\ 1 + 9/10000 <= total r.
Proof.
  destruct rough_sum as [w' [o' [d [H1 [H2 [H3 H4]]]]]]. exists rough, two_world, (two_ef [1/5; 1/10] 0 1), w', o', d. auto.
Qed.
