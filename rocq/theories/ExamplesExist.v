(** * Concrete cases for the theorems in PropertiesExist.v *)
From Coq Require Import ZArith List String Bool Reals Lra Lia.
From Verif Require Import Num Py RBase PBase MBase MConvex MEF MDown SLin SBase SConvex SDown SPrep SExist PConvex PEF PEF2 PEF3 PEF4 PEFW PDown5 PDownW PropertiesFound PropertiesPrep PropertiesExist ExamplesFound ExamplesPrep ExamplesDown.
Import ListNotations.
Local Open Scope R_scope.

Lemma oF_bounded : bounded (e_lb oF) /\ bounded (e_ub oF). Proof. split; repeat constructor; discriminate. Qed.
Lemma steps3_regular : forall ps, Forall (regular (e_n oF) (e_w oF) ps) steps3.
Proof.
  intros ps. constructor; [apply c106_expressions; repeat split|]. constructor; [apply c106_constraints; repeat split|]. constructor; [exact I|constructor].
Qed.
Lemma id2_square : square 2 [[1; 0]; [0; 1]]. Proof. split; [reflexivity|repeat constructor]. Qed.
(** C106: an L2 term, a limit of 2/5 for the first asset and at least 1/10 in its sector: there is such a portfolio, so one is found *)
Example ex_c106_found : exists w2 o2 w3 o3 d, forM steps3 prepare two_world oF = (w2, o2, Ok tt) /\ min_volatility best_solver w2 o2 = (w3, o3, Ok d).
Proof.
  destruct (c102_prepared steps3 two_world oF [] (two_open _ _ _ _) ex_c102_sensible) as (w2 & o2 & u2 & E & _).
  destruct (proj2 (c106_min_volatility _ _ _ _ _ _ steps3 w2 o2 ex_c102_init id2_square eq_refl ex_c102_sensible E (proj1 oF_bounded) (proj2 oF_bounded) (steps3_regular _)
    best_solver best_solver_exact best_solver_complete)) as (w3 & o3 & d & H); [|exists w2, o2, w3, o3, d; auto].
  exists (fun _ => [2/5; 3/5]). split; [|split; [|split; [cbn; lra|]]].
  - intros v Hv. change (w_sizes two_world) with [2%nat] in *. destruct v as [|v]; [reflexivity|cbn in Hv; lia].
  - split; repeat constructor; cbn; lra.
  - constructor; [exact I|]. constructor; [|constructor; [|constructor]]; cbn [demanded].
    + apply (sat_ineq1 _ _ _ _ (2/5) (2/5)); try reflexivity. lra.
    + split; [intros ? ? []|]. intros sec l [El|[]]. injection El as <- <-. cbn. lra.
Qed.
(** at least half in the first asset cannot be combined with that limit, and every solver that is exact and complete says so *)
Definition steps4 : list preparation := steps3 ++ [AddConstraint (fun v => CIneq (EConst [1/2]) (EIndex [0%nat] (EVar v)))].
Example ex_c106_none : exists w2 o2, forM steps4 prepare two_world oF = (w2, o2, Ok tt) /\
  forall sv, exact_solver sv -> complete_solver sv -> ~ exists w3 o3 d, min_volatility sv w2 o2 = (w3, o3, Ok d).
Proof.
  assert (Hse : Forall (sensible (e_w oF) (List.length (w_params two_world))) steps4) by (apply Forall_app; split; [exact ex_c102_sensible|repeat constructor]).
  assert (Hre : forall ps, Forall (regular (e_n oF) (e_w oF) ps) steps4).
  { intros ps. apply Forall_app. split; [apply steps3_regular|]. constructor; [apply c106_constraints; repeat split|constructor]. }
  destruct (c102_prepared steps4 two_world oF [] (two_open _ _ _ _) Hse) as (w2 & o2 & u2 & E & _). exists w2, o2. split; [exact E|]. intros sv He Hc H.
  apply (c106_min_volatility _ _ _ _ _ _ steps4 w2 o2 ex_c102_init id2_square eq_refl Hse E (proj1 oF_bounded) (proj2 oF_bounded) (Hre _) sv He Hc) in H.
  destruct H as (s & A1 & _ & _ & A4). change (w_sizes two_world) with [2%nat] in A1. change (e_w oF) with 0%nat in A4. specialize (A1 0%nat ltac:(cbn; lia)). cbn [nth] in A1.
  destruct (s 0%nat) as [|x [|y [|? ?]]] eqn:Es; try discriminate A1. unfold steps4, steps3 in A4. cbn [app] in A4.
  pose proof (Forall_inv (Forall_inv_tail A4)) as B. pose proof (Forall_inv (Forall_inv_tail (Forall_inv_tail (Forall_inv_tail A4)))) as C. cbn [demanded] in B, C.
  rewrite (sat_ineq1 _ _ _ _ x (2/5)) in B by (cbn [eval map]; rewrite ?Es; reflexivity). rewrite (sat_ineq1 _ _ _ _ (1/2) x) in C by (cbn [eval map]; rewrite ?Es; reflexivity). lra.
Qed.
Lemma oF_force' : bounds_in_force false oF (e_lb oF) (e_ub oF). Proof. exact oF_force. Qed.
(** the largest return is 20 percent *)
Example ex_c106_return : forall sv, exact_solver sv -> complete_solver sv ->
  (exists w3 o3 d, efficient_return sv (NFloat (9/50)) false two_world oF = (w3, o3, Ok d)) /\
  ~ exists w3 o3 d, efficient_return sv (NFloat (1/4)) false two_world oF = (w3, o3, Ok d).
Proof.
  intros sv He Hc. pose proof (fun t => c106_efficient_return _ _ _ _ _ _ [] two_world oF ex_c102_init id2_square eq_refl ltac:(constructor) eq_refl (proj1 oF_bounded) (proj2 oF_bounded) ltac:(constructor)
    sv [1/5; 1/10] t false _ _ He Hc eq_refl ltac:(constructor) oF_force ltac:(discriminate)) as T.
  cbv beta iota in T. split.
  - apply T. exists (fun _ => [1; 0]). split; [|cbn; lra]. split; [|split; [|split; [cbn; lra|constructor]]].
    + intros v Hv. change (w_sizes two_world) with [2%nat] in *. destruct v as [|v]; [reflexivity|cbn in Hv; lia].
    + split; repeat constructor; cbn; lra.
  - intros H. apply T in H. destruct H as (s & (A1 & A2 & A3 & _) & H). change (e_w oF) with 0%nat in *. change (w_sizes two_world) with [2%nat] in A1. specialize (A1 0%nat ltac:(cbn; lia)). cbn [nth] in A1.
    destruct (s 0%nat) as [|x [|y [|? ?]]] eqn:Es; try discriminate A1. cbn in A3, H. destruct A2 as [L _]. inversion L as [|? ? ? ? L1 L2]; subst. inversion L2 as [|? ? ? ? L3 _]; subst. cbn in L1, L3. lra.
Qed.
Example ex_c106_utility : forall sv, exact_solver sv -> complete_solver sv -> exists w3 o3 d, max_quadratic_utility sv 1 true two_world oF = (w3, o3, Ok d).
Proof.
  intros sv He Hc. apply (c106_utility _ _ _ _ _ _ [] two_world oF ex_c102_init id2_square eq_refl ltac:(constructor) eq_refl (proj1 oF_bounded) (proj2 oF_bounded) ltac:(constructor)
    sv [1/5; 1/10] 1 true [Some (-1); Some (-1)] [Some 1; Some 1] He Hc eq_refl ltac:(constructor) ltac:(lra)).
  - left. split; [reflexivity|]. split; [|split; reflexivity]. repeat constructor; lra.
  - exists (fun _ => [1; -1]). split; [|split; [|split; [cbn; lra|constructor]]].
    + intros v Hv. change (w_sizes two_world) with [2%nat] in *. destruct v as [|v]; [reflexivity|cbn in Hv; lia].
    + split; repeat constructor; cbn; lra.
Qed.
(** the least variance is 1/2 *)
Example ex_c106_risk : forall sv, exact_solver sv -> complete_solver sv ->
  (exists w3 o3 d, efficient_risk sv (fun v => v) (NFloat (3/4)) false two_world oF = (w3, o3, Ok d)) /\
  ~ exists w3 o3 d, efficient_risk sv (fun v => v) (NFloat (1/2)) false two_world oF = (w3, o3, Ok d).
Proof.
  intros sv He Hc. pose proof (fun t Ht => c106_efficient_risk _ _ _ _ _ _ [] two_world oF ex_c102_init id2_square eq_refl ltac:(constructor) eq_refl (proj1 oF_bounded) (proj2 oF_bounded) ltac:(constructor)
    sv (fun v => v) [1/5; 1/10] (NFloat t) t false _ _ He Hc eq_refl ltac:(constructor) ltac:(cbn; lia) (proj1 id2_psd) (proj1 (proj2 id2_psd))
    ltac:(split; [exact id2_square|]; intros x Hx; destruct x as [|a [|b [|? ?]]]; try discriminate Hx; cbn; f_equal; [ring|f_equal; ring]) eq_refl Ht oF_force ltac:(discriminate)) as T.
  cbv beta iota in T. split.
  - apply T; [lra|]. exists (fun _ => [1/2; 1/2]). split; [|cbn; lra]. split; [|split; [|split; [cbn; lra|constructor]]].
    + intros v Hv. change (w_sizes two_world) with [2%nat] in *. destruct v as [|v]; [reflexivity|cbn in Hv; lia].
    + split; repeat constructor; cbn; lra.
  - intros H. apply T in H; [|lra]. destruct H as (s & (A1 & A2 & A3 & _) & H). change (e_w oF) with 0%nat in *. change (w_sizes two_world) with [2%nat] in A1. specialize (A1 0%nat ltac:(cbn; lia)). cbn [nth] in A1.
    destruct (s 0%nat) as [|x [|y [|? ?]]] eqn:Es; try discriminate A1. cbn in A3, H. assert (Ey : y = 1 - x) by lra. subst y. pose proof (Rle_0_sqr (x - 1/2)) as Q. unfold Rsqr in Q. nra.
Qed.
Lemma fits_two : forall x, fits 2 [Some 0; Some 0] [Some 1; Some 1] 1 x <-> exists a b, x = [a; b] /\ 0 <= a <= 1 /\ 0 <= b <= 1 /\ a + b = 1.
Proof.
  intros x. split.
  - intros (L & [W1 W2] & T). destruct x as [|a [|b [|? ?]]]; try discriminate L. inversion W1 as [|? ? ? ? A1 A2]; subst. inversion A2 as [|? ? ? ? A3 _]; subst.
    inversion W2 as [|? ? ? ? B1 B2]; subst. inversion B2 as [|? ? ? ? B3 _]; subst. cbn in *. exists a, b. repeat split; lra.
  - intros (a & b & -> & Ha & Hb & T). split; [reflexivity|]. split; [split; (constructor; [cbn; lra|constructor; [cbn; lra|constructor]])|cbn; lra].
Qed.
Example ex_c106_sharpe : forall sv, exact_solver sv -> complete_solver sv ->
  (exists w3 o3 d, max_sharpe sv (NFloat (3/20)) two_world oF = (w3, o3, Ok d)) /\ ~ exists w3 o3 d, max_sharpe sv (NFloat (1/5)) two_world oF = (w3, o3, Ok d).
Proof.
  intros sv He Hc. pose proof (fun rf => c106_max_sharpe _ _ _ _ _ _ [1/5; 1/10] ex_c102_init id2_square eq_refl (proj1 oF_bounded) (proj2 oF_bounded) eq_refl (proj1 id2_psd)
    sv (NFloat rf) rf He Hc eq_refl) as T. cbv zeta in T. change (e_n oF) with 2%nat in T. change (e_lb oF) with [Some 0; Some 0] in T. change (e_ub oF) with [Some 1; Some 1] in T.
  assert (P : forall x, fits 2 [Some 0; Some 0] [Some 1; Some 1] 1 x -> 0 < qform (cov_values (CovArray [[1; 0]; [0; 1]])) x).
  { intros x Hx. apply fits_two in Hx. destruct Hx as (a & b & -> & Ha & Hb & Hs). cbn. assert (Eb : b = 1 - a) by lra. subst b. pose proof (Rle_0_sqr (a - 1/2)) as Q. unfold Rsqr in Q. lra. }
  split.
  - apply (T (3/20) P). split; [left; lra|]. exists [1; 0]. split; [apply fits_two; exists 1, 0; repeat split; lra|]. unfold excess. cbn. lra.
  - intros H. apply (T (1/5) P) in H. destruct H as [H _]. inversion H as [? ? X|? ? X]; subst; [lra|]. inversion X as [? ? Y|? ? Y]; subst; [lra|]. inversion Y.
Qed.
(** C106: losses of 10 percent in the worst period are avoided by the second asset *)
Lemma beta_half : validate_beta (1/2) = Ok (1/2).
Proof. unfold validate_beta. rewrite (proj2 (Rleb_true 0 (1/2))) by lra. rewrite (proj2 (Rltb_true (1/2) 1)) by lra. reflexivity. Qed.
Lemma two_best : forall x, fits 2 [Some 0; Some 0] [Some 1; Some 1] 1 x -> 1/4 <= inner [1/5; 1/10] x -> False.
Proof. intros x Hx H. apply fits_two in Hx. destruct Hx as (a & b & -> & Ha & Hb & Hs). cbn in H. lra. Qed.
Lemma two_some : exists x, fits 2 [Some 0; Some 0] [Some 1; Some 1] 1 x.
Proof. exists [0; 1]. apply fits_two. exists 0, 1. repeat split; lra. Qed.
Lemma two_bounded : bounded [Some 0; Some 0] /\ bounded [Some 1; Some 1]. Proof. split; repeat constructor; discriminate. Qed.
Example ex_c106_cvar : exists w1 o d, cvar_init (MIn (MuArray [1/5; 1/10])) (RTable 2 rows) (1/2) (BPair (Some 0) (Some 1)) empty_world = (w1, Ok (o, d)) /\
  forall sv, exact_solver sv -> complete_solver sv -> (exists w2 o2 x, min_cvar sv d false w1 o = (w2, o2, Ok x)) /\
    ~ exists w2 o2 x, cvar_efficient_return sv d (1/4) false w1 o = (w2, o2, Ok x).
Proof.
  destruct (cvar_init _ _ _ _ _) as [w1 [[o d]|e]] eqn:E; [|exfalso; revert E; unfold cvar_init; rewrite beta_half; discriminate].
  exists w1, o, d. split; [reflexivity|]. intros sv He Hc. pose proof E as E0. unfold cvar_init in E0. rewrite beta_half in E0. cbn in E0.
  assert (En : e_n o = 2%nat /\ e_lb o = [Some 0; Some 0] /\ e_ub o = [Some 1; Some 1] /\ e_mu o = Some [1/5; 1/10]) by (injection E0 as _ <- _; repeat split).
  destruct En as (En & El & Eu & Em). assert (B : bounds_in_force false o (e_lb o) (e_ub o)) by (right; auto).
  assert (Bl : bounded (e_lb o)) by (rewrite El; apply two_bounded). assert (Bu : bounded (e_ub o)) by (rewrite Eu; apply two_bounded). split.
  - apply (c106_min_cvar _ _ _ _ _ _ _ _ _ rows_good E Bl Bu sv He Hc false _ _ B). rewrite En, El, Eu. exact two_some.
  - intros H. apply (c106_cvar_efficient_return _ _ _ _ _ _ _ _ _ rows_good E Bl Bu sv He Hc false _ _ B (1/4) _ Em) in H. rewrite En, El, Eu in H.
    destruct H as (x & Hx & Ht). exact (two_best x Hx Ht).
Qed.
Example ex_c106_cdar : exists w1 o d, cdar_init (MIn (MuArray [1/5; 1/10])) (RTable 2 rows) (1/2) (BPair (Some 0) (Some 1)) empty_world = (w1, Ok (o, d)) /\
  forall sv, exact_solver sv -> complete_solver sv -> (exists w2 o2 x, min_cdar sv d false w1 o = (w2, o2, Ok x)) /\
    ~ exists w2 o2 x, cdar_efficient_return sv d (1/4) false w1 o = (w2, o2, Ok x).
Proof.
  destruct (cdar_init _ _ _ _ _) as [w1 [[o d]|e]] eqn:E; [|exfalso; revert E; unfold cdar_init; rewrite beta_half; discriminate].
  exists w1, o, d. split; [reflexivity|]. intros sv He Hc. pose proof E as E0. unfold cdar_init in E0. rewrite beta_half in E0. cbn in E0.
  assert (En : e_n o = 2%nat /\ e_lb o = [Some 0; Some 0] /\ e_ub o = [Some 1; Some 1] /\ e_mu o = Some [1/5; 1/10]) by (injection E0 as _ <- _; repeat split).
  destruct En as (En & El & Eu & Em). assert (B : bounds_in_force false o (e_lb o) (e_ub o)) by (right; auto).
  assert (Bl : bounded (e_lb o)) by (rewrite El; apply two_bounded). assert (Bu : bounded (e_ub o)) by (rewrite Eu; apply two_bounded). split.
  - apply (c106_min_cdar _ _ _ _ _ _ _ _ _ rows_good E Bl Bu sv He Hc false _ _ B). rewrite En, El, Eu. exact two_some.
  - intros H. apply (c106_cdar_efficient_return _ _ _ _ _ _ _ _ _ rows_good E Bl Bu sv He Hc false _ _ B (1/4) _ Em ltac:(lra)) in H. rewrite En, El, Eu in H.
    destruct H as (x & Hx & Ht). exact (two_best x Hx Ht).
Qed.
Example ex_c106_semi : exists w1 o d, semi_init (MIn (MuArray [1/5; 1/10])) (RTable 2 rows) 252 0 (BPair (Some 0) (Some 1)) empty_world = (w1, Ok (o, d)) /\
  forall sv, exact_solver sv -> complete_solver sv -> (exists w2 o2 x, min_semivariance sv d false w1 o = (w2, o2, Ok x)) /\
    (exists w2 o2 x, semi_efficient_return sv d (NFloat (3/20)) false w1 o = (w2, o2, Ok x)) /\
    exists w2 o2 x, semi_efficient_risk sv d 0 false w1 o = (w2, o2, Ok x).
Proof.
  destruct (semi_init _ _ _ _ _ _) as [w1 [[o d]|e]] eqn:E; [|discriminate E].
  exists w1, o, d. split; [reflexivity|]. intros sv He Hc. pose proof E as E0. cbn in E0.
  assert (En : e_n o = 2%nat /\ e_lb o = [Some 0; Some 0] /\ e_ub o = [Some 1; Some 1] /\ e_mu o = Some [1/5; 1/10]) by (injection E0 as _ <- _; repeat split).
  destruct En as (En & El & Eu & Em). assert (B : bounds_in_force false o (e_lb o) (e_ub o)) by (right; auto).
  assert (Bl : bounded (e_lb o)) by (rewrite El; apply two_bounded). assert (Bu : bounded (e_ub o)) by (rewrite Eu; apply two_bounded). split; [|split].
  - apply (c106_min_semivariance _ _ _ _ _ _ _ _ _ _ rows_good E Bl Bu sv He Hc false _ _ B). rewrite En, El, Eu. exact two_some.
  - apply (c106_semi_efficient_return _ _ _ _ _ _ _ _ _ _ rows_good E Bl Bu sv He Hc false _ _ B (3/20) _ Em ltac:(lra)).
    + left. rewrite Rabs_pos_eq; lra.
    + rewrite En, El, Eu. exists [1; 0]. split; [apply fits_two; exists 1, 0; repeat split; lra|cbn; lra].
  - apply (c106_semi_efficient_risk _ _ _ _ _ _ _ _ _ _ rows_good E Bl Bu sv He Hc false _ _ B 0 _ Em ltac:(lra)). rewrite En, El, Eu. exists [0; 1].
    split; [apply fits_two; exists 0, 1; repeat split; lra|]. unfold semivariance, period_returns. cbn [dropna rows map complete flat_map app inner total List.length]. rewrite !shortfall_0 by lra. lra.
Qed.
