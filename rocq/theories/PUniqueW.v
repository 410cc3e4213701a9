(** * Problems whose answer does depend on the solver (C133) *)
From Coq Require Import ZArith List String Bool Reals Lra Lia ClassicalEpsilon.
From Verif Require Import Num Py RBase PyLemmas MBase MConvex MEF MDown SLin SBase SConvex SDown SObj SCurve SUnique Sums Mat PBase PConvex PEF PEF2 PEF3 PEF4 PEFW PRisk PDown PDown2 PDown3 PDown4 PDown5 PDownW PUnique.
Import ListNotations.
Local Open Scope R_scope.

Lemma prefer_complete : forall s0, complete_solver (prefer s0).
Proof.
  intros s0 sizes ps obj cs s H. unfold prefer. destruct (excluded_middle_informative _); [eauto|]. exact (best_solver_complete _ _ _ _ _ H).
Qed.
Lemma id2_definite : definite 2 [[1; 0]; [0; 1]].
Proof.
  destruct id2_psd as [P [_ Q]]. split; [exact P|]. intros x L [a [Ha Hn]]. destruct x as [|b [|c [|]]]; try discriminate. rewrite Q.
  assert (Pa : 0 < a * a) by (pose proof (Rsqr_pos_lt a Hn) as S; unfold Rsqr in S; exact S).
  pose proof (Rle_0_sqr b) as Sb. pose proof (Rle_0_sqr c) as Sc. unfold Rsqr in Sb, Sc.
  destruct Ha as [->|[->|[]]]; lra.
Qed.
Definition all_first : env := fun _ => [1; 0].
Definition all_second : env := fun _ => [0; 1].
Lemma round16_01 : map round16 [1; 0] = [1; 0] /\ map round16 [0; 1] = [0; 1].
Proof.
  pose proof (round16_rounded [1; 0]) as H. cbn [map] in *. rewrite Forall2_two in H. destruct H as [R1 R2].
  apply (rounded_int 1) in R1. apply (rounded_int 0) in R2. rewrite R1, R2. auto.
Qed.
Lemma different : forall (da db : dict R), da = [(LInt 0, 1); (LInt 1, 0)] -> db = [(LInt 0, 0); (LInt 1, 1)] -> da <> db.
Proof. intros da db -> -> E. injection E as E _. lra. Qed.

(** equal expected returns, so much risk allowed that the limit does not matter: any portfolio will do *)
Definition even : ef := two_ef [1/10; 1/10] 0 1.
Lemma even_risk : forall s0 x y, s0 0%nat = [x; y] -> 0 <= x -> 0 <= y -> x + y = 1 ->
  exists w' o', efficient_risk (prefer s0) (fun M => M) (NFloat 1) false two_world even = (w', o', Ok (dict_of_pairs (combine [LInt 0; LInt 1] (map round16 [x; y])))).
Proof.
  intros s0 x y E0 Hx Hy Hxy.
  assert (Hb : below_global_min (fun M => M) (e_cov even) 1 = false).
  { unfold below_global_min. assert (E : vsum (map vsum (e_cov even)) = 2).
    { rewrite vsum_total. cbn [even two_ef e_cov map]. rewrite !vsum_total. cbn. lra. }
    rewrite E. assert (E1 : Reqb 2 0 = false) by (apply Reqb_false; lra). assert (E2 : Rltb 2 0 = false) by (apply Rltb_false; lra).
    rewrite E1, E2. apply Rltb_false. apply Rle_trans with (sqrt 1); [apply sqrt_le_1_alt; lra|rewrite sqrt_1; lra]. }
  destruct (risk_first (prefer s0) two_world even [] [1/10; 1/10] (two_open _ _ _ _) eq_refl (fun M => M) false (NFloat 1) 1
     (two_unused _ _ _ _ _) eq_refl ltac:(lra) Hb) as [w' [o' E]].
  change (risk_e even [1/10; 1/10]) with (portfolio_return_e (EVar 0) [1/10; 1/10] true) in E.
  change (risk_cs two_world even [] false) with (lower_con [Some 0; Some 0] 0 :: upper_con [Some 1; Some 1] 0 ::
       [CIneq (EQuad [[1; 0]; [0; 1]] (EVar 0)) (EPar 0); CEq (ESum (EVar 0)) (EScalar 1)]) in E.
  change (w_sizes two_world) with [2%nat] in E. change (par_values two_world ++ [1 * 1]) with [1 * 1] in E.
  rewrite prefer_answers in E.
  - cbn [outcome] in E. change (e_w even) with 0%nat in E. rewrite E0 in E. exists w', o'. exact E.
  - split.
    + apply two_feasible. exists x, y. split; [exact E0|]. split; [lra|]. split; [lra|]. constructor.
      * destruct id2_psd as [_ [_ Hq]]. rewrite (sat_ineq1 s0 [1 * 1] _ _ (qform [[1; 0]; [0; 1]] [x; y]) (1 * 1)); [rewrite Hq; nra| |reflexivity].
        cbn [eval]. rewrite E0, quad_qform. reflexivity.
      * constructor; [apply sum_is_sat; rewrite E0; cbn; lra|constructor].
    + intros s H. apply two_feasible in H. destruct H as [a [b [Es [Ha [Hc Hs]]]]]. rewrite !Forall_cons_iff', sum_is_sat, Es in Hs. destruct Hs as [_ [Hs _]].
      rewrite !evals_ret, Es, E0. cbn [sign_of]. rewrite !qret_two. cbn in Hs. lra.
Qed.
Lemma risk_depends : exists sv sv' o w1 o1 d1 w2 o2 d2, exact_solver sv /\ complete_solver sv /\ exact_solver sv' /\ complete_solver sv' /\
  two [1/10; 1/10] 0 1 = (two_world, Ok o) /\ definite (e_n o) (e_cov o) /\
  efficient_risk sv (fun M => M) (NFloat 1) false two_world o = (w1, o1, Ok d1) /\
  efficient_risk sv' (fun M => M) (NFloat 1) false two_world o = (w2, o2, Ok d2) /\ d1 <> d2.
Proof.
  destruct (even_risk all_first 1 0 eq_refl ltac:(lra) ltac:(lra) ltac:(lra)) as [w1 [o1 E1]].
  destruct (even_risk all_second 0 1 eq_refl ltac:(lra) ltac:(lra) ltac:(lra)) as [w2 [o2 E2]].
  rewrite (proj1 round16_01) in E1. rewrite (proj2 round16_01) in E2.
  eexists (prefer all_first), (prefer all_second), even, w1, o1, _, w2, o2, _.
  split; [apply prefer_exact|]. split; [apply prefer_complete|]. split; [apply prefer_exact|]. split; [apply prefer_complete|].
  split; [apply two_ok|]. split; [exact id2_definite|]. split; [exact E1|]. split; [exact E2|].
  apply different; reflexivity.
Qed.

(** two assets that never differ: without a further objective any portfolio has the least CVaR *)
Definition same_data : cvar_data := mkCVaR [[1/10; 1/10]] (1/2) 1 2.
Lemma same_ok : cvar_init (MIn (MuArray [1/5; 1/10])) (RTable 2 [[Some (1/10); Some (1/10)]]) (1/2) (BPair (Some 0) (Some 1)) empty_world = (cvar2_world, Ok (semi2_ef 0 1, same_data)).
Proof. unfold cvar_init. cbn -[validate_beta]. rewrite half_ok. reflexivity. Qed.
Definition holding (x y : R) : env := fun v => match v with 0%nat => [x; y] | 1%nat => [-1/10] | _ => [0] end.
Lemma same_cvar : forall x y, 0 <= x -> 0 <= y -> x + y = 1 ->
  exists w' o', min_cvar (prefer (holding x y)) same_data false cvar2_world (semi2_ef 0 1) = (w', o', Ok (dict_of_pairs (combine [LInt 0; LInt 1] (map round16 [x; y])))).
Proof.
  intros x y Hx Hy Hxy. set (o := semi2_ef 0 1). set (s0 := holding x y). assert (Ho : e_opt o = None) by reflexivity.
  unfold min_cvar. unfold bind at 1. rewrite set_objective_full_run. unfold bind at 1. rewrite add_cvar_run by exact Ho.
  cbn [w_sizes w_val w_params w_next]. unfold make_weight_sum_constraint, sum_is. unfold bind at 1. unfold bind at 1.
  rewrite add_constraint_open by exact Ho. unfold modify. cbn [w_sizes w_val w_params w_next].
  match goal with |- exists w' o', solve_and_output _ ?w2 ?o2 = _ => set (w1 := w2); set (o1 := o2) end.
  destruct (solve_output_run (prefer s0) w1 o1 2%nat (cvar_e same_data) (e_cons o1)) as [w2 [o2 [Er _]]];
    [reflexivity|reflexivity|left; reflexivity|].
  rewrite prefer_answers in Er; [exists w2, o2; exact Er|].
  change (map snd (e_cons o1)) with [lower_con [Some 0; Some 0] 0; upper_con [Some 1; Some 1] 0;
     nonneg_var 2; cvar_shortfall same_data 0; CEq (ESum (EVar 0)) (EScalar 1)].
  change (par_values w1) with (@nil R). change (w_sizes w1) with [2; 1; 1]%nat.
  split.
  - split; [intros v Hv; cbn in Hv; destruct v as [|[|[|v]]]; [reflexivity..|lia]|].
    rewrite !Forall_cons_iff'. rewrite sat_lower, sat_upper by reflexivity. cbn [s0 holding]. rewrite !Forall2_two.
    split; [cbn; lra|]. split; [cbn; lra|]. split; [apply sat_nonneg_var; cbn; repeat constructor; lra|]. split.
    + apply (sat_shortfall _ _ _ _ (-1/10)); [reflexivity|reflexivity|]. cbn. constructor; [lra|constructor].
    + split; [apply sum_is_sat; cbn; lra|constructor].
  - intros s [Hw Hs]. rewrite !Forall_cons_iff' in Hs. destruct Hs as [_ [_ [S3 [S4 [S5 _]]]]].
    pose proof (Hw 0%nat ltac:(cbn; lia)) as L. cbn in L. destruct (s 0%nat) as [|a [|b [|]]] eqn:E; try discriminate L.
    pose proof (Hw 1%nat ltac:(cbn; lia)) as L1. cbn in L1. destruct (s 1%nat) as [|al [|]] eqn:E1; try discriminate L1.
    pose proof (Hw 2%nat ltac:(cbn; lia)) as L2. cbn in L2. destruct (s 2%nat) as [|uu [|]] eqn:E2; try discriminate L2.
    rewrite sum_is_sat, E in S5. cbn in S5.
    match type of S4 with sat ?s ?ps (cvar_shortfall ?d ?v) => pose proof (proj1 (sat_shortfall s ps d v al E1 ltac:(cbn; rewrite E2; reflexivity)) S4) as S4b end. cbn in S4b. rewrite E2, E in S4b. inversion S4b as [|? ? ? ? S4' _]; subst. cbn in S4'.
    apply sat_nonneg_var in S3. rewrite E2 in S3. inversion S3 as [|? ? S3' _]; subst.
    unfold evals, cvar_e. rewrite (eval_tail _ _ _ _ _ _ (-1/10)) by reflexivity. rewrite (eval_tail _ _ _ _ _ _ al) by exact E1.
    cbn. rewrite E2. cbn. lra.
Qed.
Lemma cvar_depends : exists sv sv' o d w1 o1 d1 w2 o2 d2, exact_solver sv /\ complete_solver sv /\ exact_solver sv' /\ complete_solver sv' /\
  cvar_init (MIn (MuArray [1/5; 1/10])) (RTable 2 [[Some (1/10); Some (1/10)]]) (1/2) (BPair (Some 0) (Some 1)) empty_world = (cvar2_world, Ok (o, d)) /\
  min_cvar sv d false cvar2_world o = (w1, o1, Ok d1) /\ min_cvar sv' d false cvar2_world o = (w2, o2, Ok d2) /\ d1 <> d2.
Proof.
  destruct (same_cvar 1 0 ltac:(lra) ltac:(lra) ltac:(lra)) as [w1 [o1 E1]].
  destruct (same_cvar 0 1 ltac:(lra) ltac:(lra) ltac:(lra)) as [w2 [o2 E2]].
  rewrite (proj1 round16_01) in E1. rewrite (proj2 round16_01) in E2.
  eexists (prefer (holding 1 0)), (prefer (holding 0 1)), (semi2_ef 0 1), same_data, w1, o1, _, w2, o2, _.
  split; [apply prefer_exact|]. split; [apply prefer_complete|]. split; [apply prefer_exact|]. split; [apply prefer_complete|].
  split; [apply same_ok|]. split; [exact E1|]. split; [exact E2|]. apply different; reflexivity.
Qed.
