(** * A narrower bound that widens the choice (C134) *)
From Coq Require Import ZArith List String Bool Reals Lra Lia.
From Verif Require Import Num Py RBase PyLemmas MBase MConvex MEF MDown SLin SBase SConvex SDown SObj SCurve SUnique SMore Sums Mat PBase PConvex PObj PEF PEF2 PEF3 PEF4 PEFW PRisk PDown PDown2 PDownW PPerm2 PUnique PUniqueW PMore.
Import ListNotations.
Local Open Scope R_scope.

Lemma round16_half : map round16 [-1/2; 1/2] = [-1/2; 1/2].
Proof.
  pose proof (round16_rounded [-1/2; 1/2]) as H. cbn [map] in *. rewrite Forall2_two in H. destruct H as [R1 R2].
  assert (E : IZR (10 ^ 16) = 2 * IZR (5 * 10 ^ 15)) by (rewrite <- mult_IZR; f_equal).
  assert (A1 : rounded 16 (-1/2) (-1/2)).
  { exists (- (5 * 10 ^ 15))%Z. rewrite E, opp_IZR. replace (-1 / 2 * (2 * IZR (5 * 10 ^ 15))) with (- IZR (5 * 10 ^ 15)) by field. split; [reflexivity|].
    rewrite Rminus_diag_eq, Rabs_R0 by reflexivity. split; [lra|intros; lra]. }
  assert (A2 : rounded 16 (1/2) (1/2)).
  { exists (5 * 10 ^ 15)%Z. rewrite E. replace (1 / 2 * (2 * IZR (5 * 10 ^ 15))) with (IZR (5 * 10 ^ 15)) by field. split; [reflexivity|].
    rewrite Rminus_diag_eq, Rabs_R0 by reflexivity. split; [lra|intros; lra]. }
  rewrite (rounded_unique 16 _ _ _ ltac:(lia) R1 A1), (rounded_unique 16 _ _ _ ltac:(lia) R2 A2). reflexivity.
Qed.
Lemma round16_short : map round16 [-1; 1] = [-1; 1].
Proof.
  pose proof (round16_rounded [-1; 1]) as H. cbn [map] in *. rewrite Forall2_two in H. destruct H as [R1 R2].
  apply (rounded_int (-1)) in R1. apply (rounded_int 1) in R2. rewrite R1, R2. reflexivity.
Qed.
Definition short_of (a : R) : env := fun _ => [-a; a].
(** utility of a market neutral position *)
Lemma neutral_utility : forall s x y, s 0%nat = [x; y] -> x + y = 0 ->
  evals s [1] (quadratic_utility_e (EVar 0) [0; 4] [[1; 0]; [0; 1]] 0 true) = y * y - 4 * y.
Proof.
  intros s x y E Hs. rewrite (utility_value s [1] (EVar 0) (s 0%nat) eq_refl), E. destruct id2_psd as [_ [_ Q]]. rewrite Q. cbn [nth inner]. replace x with (- y) by lra. field.
Qed.
Lemma neutral_run : forall lo a, 0 < a <= 1 -> (lo < 0 /\ lo = - a /\ a = 1/2 \/ lo = 0 /\ a = 1) ->
  exists w' o', max_quadratic_utility (prefer (short_of a)) 1 true two_world (two_ef [0; 4] lo (1/2))
     = (w', o', Ok (dict_of_pairs (combine [LInt 0; LInt 1] (map round16 [-a; a])))).
Proof.
  intros lo a Ha Hlo.
  destruct (util_first (prefer (short_of a)) two_world (two_ef [0; 4] lo (1/2)) [] [0; 4] (two_open _ _ _ _) eq_refl true 1 (two_unused _ _ _ _ _) ltac:(lra)) as [w' [o' E]].
  change (util_e two_world (two_ef [0; 4] lo (1/2)) [0; 4]) with (quadratic_utility_e (EVar 0) [0; 4] [[1; 0]; [0; 1]] 0 true) in E.
  change (w_sizes two_world) with [2%nat] in E. change (par_values two_world ++ [1]) with [1] in E.
  assert (Ecs : exists l h, l <= -a /\ - a <= h /\ a <= h /\ (h = a \/ h = 1) /\ util_cs (two_ef [0; 4] lo (1/2)) [] true = [lower_con [Some l; Some l] 0; upper_con [Some h; Some h] 0; CEq (ESum (EVar 0)) (EScalar 0)] /\ (a < 1 -> h = a)).
  { unfold util_cs, wsum_cons. cbn [two_ef e_lb e_ub e_n e_base b_tickers List.length e_w map app repeat any_negative existsb].
    destruct Hlo as [[H1 [H2 H3]]|[H1 H2]].
    - assert (X : Rltb lo 0 = true) by (apply Rltb_true; lra). rewrite X. cbn [orb negb andb]. exists lo, (1/2). repeat split; try lra.
    - assert (X : Rltb lo 0 = false) by (apply Rltb_false; lra). rewrite X. cbn [orb negb andb]. exists (-1), 1. repeat split; try lra. }
  destruct Ecs as [l [h [C1 [C2 [C3 [C4 [C5 C6]]]]]]]. rewrite C5 in E. rewrite prefer_answers in E.
  - cbn [outcome] in E. change (e_w (two_ef [0; 4] lo (1/2))) with 0%nat in E. exists w', o'. exact E.
  - split.
    + apply two_feasible. exists (-a), a. split; [reflexivity|]. split; [lra|]. split; [lra|]. constructor; [apply sum_is_sat; cbn; lra|constructor].
    + intros s H. apply two_feasible in H. destruct H as [x [y [Es [Hx [Hy Hs]]]]]. rewrite !Forall_cons_iff', sum_is_sat, Es in Hs. destruct Hs as [Hs _]. cbn in Hs.
      rewrite (neutral_utility s x y Es) by lra. rewrite (neutral_utility (short_of a) (-a) a eq_refl) by lra.
      assert (y <= a) by (destruct C4; lra). assert (0 <= (a - y) * (4 - a - y)) by (apply Rmult_le_pos; lra). lra.
Qed.
Lemma narrower_helps : exists sv sv' o o1 w' o' d w1 o1' d1, exact_solver sv /\ complete_solver sv /\ exact_solver sv' /\ complete_solver sv' /\
  two [0; 4] (-1/2) (1/2) = (two_world, Ok o) /\ two [0; 4] 0 (1/2) = (two_world, Ok o1) /\
  (forall x, within (e_lb o1) (e_ub o1) x -> within (e_lb o) (e_ub o) x) /\
  max_quadratic_utility sv 1 true two_world o = (w', o', Ok d) /\ d = [(LInt 0, -1/2); (LInt 1, 1/2)] /\
  max_quadratic_utility sv' 1 true two_world o1 = (w1, o1', Ok d1) /\ d1 = [(LInt 0, -1); (LInt 1, 1)].
Proof.
  destruct (neutral_run (-1/2) (1/2)) as [w' [o' E]]; [lra|left; lra|].
  destruct (neutral_run 0 1) as [w1 [o1' E1]]; [lra|right; lra|].
  eexists (prefer (short_of (1/2))), (prefer (short_of 1)), _, _, w', o', _, w1, o1', _.
  split; [apply prefer_exact|]. split; [apply prefer_complete|]. split; [apply prefer_exact|]. split; [apply prefer_complete|].
  split; [apply two_ok|]. split; [apply two_ok|]. split.
  { intros x [H1 H2]. cbn [two_ef e_lb e_ub] in *. split; [|exact H2]. inversion H1 as [|? a ? x' Ha H1']; subst. inversion H1' as [|? b ? x'' Hb H1'']; subst. inversion H1''; subst.
    cbn in Ha, Hb. repeat constructor; cbn; lra. }
  split; [exact E|]. split; [replace (- (1 / 2)) with (-1/2) by lra; rewrite round16_half; reflexivity|].
  split; [exact E1|]. replace (- (1)) with (-1) by lra. rewrite round16_short. reflexivity.
Qed.
