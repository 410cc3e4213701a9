(** * Concrete cases for the theorems in PropertiesNear.v

    The solver [rough] of PNearW.v is accurate up to 1/1000 and 1/100 and not exact; the exact solver
    [best_solver] is accurate up to any tolerance and answers in all the cases below. *)
From Coq Require Import ZArith List String Bool Reals Lra Lia.
From Verif Require Import Num Py RBase PyLemmas MBase MConvex MEF MDown SLin SBase SConvex SDown SNear Sums PBase PConvex PEF PEF2 PEF3 PEF4 PEFW PDown PDown2 PDown3 PDown4 PDownW PNear1 PNear3 PNearW PropertiesNear.
From Verif Require ExamplesEF ExamplesDown ExamplesFound.
Import ListNotations.
Local Open Scope R_scope.

Lemma best_accurate : forall t g, 0 <= t -> 0 <= g -> accurate_solver t g best_solver.
Proof. intros t g Ht Hg. apply (accurate_mono 0 t 0 g); [exact Ht|exact Hg|]. apply exact_accurate. exact best_solver_exact. Qed.
Example ex_c123_solver : accurate_solver (1/1000) (1/100) rough /\ accurate_solver (1/1000) (1/100) best_solver.
Proof. split; [apply off_accurate|apply best_accurate]; lra. Qed.
(** [rough] is not exact: with an exact solver the sum would be right up to rounding *)
Example ex_c123_not_exact : ~ exact_solver rough.
Proof.
  intros Hx. apply exact_accurate in Hx. destruct rough_sum as [w' [o' [d [_ [_ [E [r [Er Hr]]]]]]]].
  destruct (c123_min_volatility _ _ _ _ _ _ _ _ _ Hx ExamplesEF.o2_open E) as [s Hs].
  apply c123_returned in Hs; [|reflexivity]. destruct Hs as [r' [Er' [_ [_ Hs]]]].
  pose proof (eq_trans (eq_sym Er) Er') as Q. inversion Q; subst r'. apply Rabs_between in Hs. change (e_n ExamplesEF.o2) with 2%nat in Hs. cbn [INR] in Hs.
  assert (Hh : half_unit 16 <= 1 / 100000).
  { unfold half_unit. apply (Rmult_le_reg_r (IZR (10 ^ 16))); [apply IZR_lt; reflexivity|].
    unfold Rdiv. rewrite Rmult_assoc, Rinv_l by (apply not_0_IZR; discriminate).
    assert (100000 <= IZR (10 ^ 16)) by (apply IZR_le; discriminate). lra. }
  revert Hs Hh. generalize (half_unit 16) as h. intros h Hs Hh. lra.
Qed.
Example ex_c123_rough : exists w' o' d, open_ef two_world ExamplesEF.o2 [] /\ min_volatility rough two_world ExamplesEF.o2 = (w', o', Ok d).
Proof. destruct rough_sum as [w' [o' [d [_ [_ [H _]]]]]]. exists w', o', d. split; [apply ExamplesEF.o2_open|exact H]. Qed.
Example ex_c123_near_at : exists w' o' d s, min_volatility rough two_world ExamplesEF.o2 = (w', o', Ok d) /\
  nth_error (w_sizes two_world) (e_w ExamplesEF.o2) = Some (e_n ExamplesEF.o2) /\
  near_at (1/1000) (1/100) two_world ExamplesEF.o2 [] (e_lb ExamplesEF.o2) (e_ub ExamplesEF.o2) 1 (fun _ => True) (fun _ => True)
    (qform (e_cov ExamplesEF.o2)) (qform (e_cov ExamplesEF.o2)) (e_weights o') d s.
Proof.
  destruct ex_c123_rough as [w' [o' [d [H1 H2]]]]. destruct (c123_min_volatility _ _ _ _ _ _ _ _ _ (proj1 ex_c123_solver) H1 H2) as [s Hs].
  exists w', o', d, s. split; [exact H2|]. split; [reflexivity|exact Hs].
Qed.
Example ex_c123_risk : fresh_name two_world ExamplesEF.o2 "target_variance" /\ e_mu ExamplesEF.o2 = Some [1/5; 1/10] /\
  exists w' o' d, efficient_risk best_solver ExamplesEF.pinv_id (NFloat 1) false two_world ExamplesEF.o2 = (w', o', Ok d).
Proof. split; [apply ExamplesFound.oF_fresh|]. split; [reflexivity|]. exact ExamplesEF.ex_c26. Qed.
Example ex_c123_return : fresh_name two_world ExamplesEF.o2 "target_return" /\
  exists w' o' d, efficient_return best_solver (NFloat (3/20)) false two_world ExamplesEF.o2 = (w', o', Ok d).
Proof. split; [apply ExamplesFound.oF_fresh|]. exact ExamplesEF.ex_c28. Qed.
Example ex_c123_refusal : e_maxret ExamplesEF.o2 = None /\
  exists w1 o1 v, on_copy (max_return best_solver) two_world ExamplesEF.o2 = (w1, o1, Ok v) /\ 3/20 < v.
Proof.
  split; [reflexivity|]. destruct ExamplesEF.o2_maxret as [v [Ev Hv]].
  destruct (max_return_pre best_solver two_world ExamplesEF.o2 [] [1/5; 1/10] ExamplesEF.o2_open eq_refl two_world ExamplesEF.o2) as [w1 [E _]];
    [split; [reflexivity|]; split; [reflexivity|]; exists None; reflexivity|].
  rewrite Ev in E. exists w1, ExamplesEF.o2, v. split; [exact E|lra].
Qed.
Example ex_c123_utility : fresh_name two_world ExamplesEF.o2 "risk_aversion" /\
  exists w' o' d, max_quadratic_utility best_solver 1 false two_world ExamplesEF.o2 = (w', o', Ok d).
Proof. split; [apply ExamplesFound.oF_fresh|]. exact ExamplesEF.ex_c29. Qed.
Example ex_c123_convex_objective : (forall v, scalar_expr (ESumSq (EVar v))) /\
  exists w' o' d, convex_objective best_solver (fun v => ESumSq (EVar v)) true two_world ExamplesEF.o2 = (w', o', Ok d).
Proof. exact ExamplesEF.ex_c33. Qed.
Example ex_c123_max_sharpe : let o := ExamplesFound.oF in
  open_ef two_world o [] /\ e_add o = [] /\ psd (e_n o) (e_cov o) /\ bounded_by 1 (e_lb o) (e_ub o) /\
  (forall m r, e_mu o = Some m -> target_of (NFloat 0) = Some r ->
     1/1000 * (1 + total (map (fun x => Rabs (x - r)) m) * (1 + 1)) < 1 /\ (1 + Rabs r) * (1/1000) < 1) /\
  exists w' o' d, max_sharpe best_solver (NFloat 0) two_world o = (w', o', Ok d).
Proof.
  cbv zeta. split; [apply two_open|]. split; [reflexivity|]. split; [apply id2_psd|]. split.
  { split; (constructor; [|constructor; [|constructor]]); (eexists; split; [reflexivity|]); rewrite Rabs_right; lra. }
  split; [|exact ExamplesFound.ex_c30_found]. intros m r Em Er. inversion Em; subst m. inversion Er; subst r.
  cbn [map total]. rewrite Rabs_R0, !Rminus_0_r, !Rabs_right; lra.
Qed.

(** C124: the downside optimizers *)
Example ex_c124_min_cvar : open_ef ExamplesDown.w_cv ExamplesDown.o2 [] /\ cvar_ready ExamplesDown.w_cv ExamplesDown.o2 [] ExamplesDown.cv2 /\
  exists w' o' dd, min_cvar best_solver ExamplesDown.cv2 false ExamplesDown.w_cv ExamplesDown.o2 = (w', o', Ok dd).
Proof. destruct ExamplesDown.cv_ready as [H1 H2]. split; [exact H1|]. split; [exact H2|]. exact ExamplesDown.ex_c36. Qed.
Example ex_c124_cvar_risk : exists w' o' dd, cvar_efficient_risk best_solver ExamplesDown.cv2 (1/10) false ExamplesDown.w_cv ExamplesDown.o2 = (w', o', Ok dd).
Proof. exact ExamplesDown.ex_c37. Qed.
Example ex_c124_cvar_return : exists w' o' dd, cvar_efficient_return best_solver ExamplesDown.cv2 (3/20) false ExamplesDown.w_cv ExamplesDown.o2 = (w', o', Ok dd).
Proof.
  destruct ExamplesDown.cv_ready as [Hop Hr].
  apply (cvar_return_answers _ ExamplesDown.o2 [] ExamplesDown.cv2 Hop Hr best_solver false (3/20) [1/5; 1/10] best_solver_complete eq_refl (ExamplesDown.fresh_any _ _)).
  exists [Some 0; Some 0], [Some 1; Some 1], (fun v => match v with 0%nat => [1/2; 1/2] | 1%nat => [0] | _ => [0; 0] end).
  split; [exact ExamplesDown.long_bounds|]. unfold least.
  cbn [ExamplesDown.o2 semi2_ef init_ef e_w e_add empty_world w_sizes List.length penalty map total cv_beta ExamplesDown.cv2].
  change ([[-1/10; 1/20]; [1/10; 1/20]]) with (cv_returns ExamplesDown.cv2). split; [|split].
  - apply admissible_two'; [reflexivity| |exists (1/2), (1/2); split; [reflexivity|lra]].
    intros v Hv. cbn in Hv. destruct v as [|[|[|v]]]; [reflexivity..|lia].
  - rewrite qret_two. lra.
  - intros s' Ha Hk. apply admissible_two in Ha; [|reflexivity|reflexivity]. destruct Ha as [x [y [E [Hx [Hy Hs]]]]].
    rewrite E, qret_two in *. rewrite !ExamplesDown.cv2_cvar.
    pose proof (Rmax_l (x/10 - y/20) (- x/10 - y/20)).
    assert (Rmax (1/2/10 - 1/2/20) (- (1/2)/10 - 1/2/20) <= 1/40) by (apply Rmax_lub; lra). lra.
Qed.
Example ex_c124_min_cdar : open_ef ExamplesDown.w_cd ExamplesDown.o2 [] /\ cdar_ready ExamplesDown.w_cd ExamplesDown.o2 [] ExamplesDown.cd2 /\
  exists w' o' dd, min_cdar best_solver ExamplesDown.cd2 false ExamplesDown.w_cd ExamplesDown.o2 = (w', o', Ok dd).
Proof. destruct ExamplesDown.cd_ready as [H1 H2]. split; [exact H1|]. split; [exact H2|]. exact ExamplesDown.ex_c38. Qed.
Example ex_c124_cdar_risk : exists w' o' dd, cdar_efficient_risk best_solver ExamplesDown.cd2 (1/10) false ExamplesDown.w_cd ExamplesDown.o2 = (w', o', Ok dd).
Proof. exact ExamplesDown.ex_c38_risk. Qed.
Example ex_c124_cdar_return : exists w' o' dd, cdar_efficient_return best_solver ExamplesDown.cd2 (3/20) false ExamplesDown.w_cd ExamplesDown.o2 = (w', o', Ok dd).
Proof.
  destruct ExamplesDown.cd_ready as [Hop Hr].
  apply (cdar_return_answers _ ExamplesDown.o2 [] ExamplesDown.cd2 Hop Hr best_solver false (3/20) [1/5; 1/10] best_solver_complete eq_refl (ExamplesDown.fresh_any _ _) ltac:(lra)).
  exists [Some 0; Some 0], [Some 1; Some 1], (fun v => match v with 0%nat => [1/2; 1/2] | 1%nat => [0] | 2%nat => [0; 0; 0] | _ => [0; 0] end).
  split; [exact ExamplesDown.long_bounds|]. unfold least.
  cbn [ExamplesDown.o2 semi2_ef init_ef e_w e_add empty_world w_sizes List.length penalty map total cd_beta ExamplesDown.cd2].
  change ([[-1/10; 1/20]; [1/10; 1/20]]) with (cd_returns ExamplesDown.cd2). split; [|split].
  - apply admissible_two'; [reflexivity| |exists (1/2), (1/2); split; [reflexivity|lra]].
    intros v Hv. cbn in Hv. destruct v as [|[|[|[|v]]]]; [reflexivity..|lia].
  - rewrite qret_two. lra.
  - intros s' Ha Hk. apply admissible_two in Ha; [|reflexivity|reflexivity]. destruct Ha as [x [y [E [Hx [Hy Hs]]]]].
    rewrite E, qret_two in *. rewrite !ExamplesDown.cd2_cdar. cbv zeta.
    rewrite (Rmax_left (1/2/10 - 1/2/20) 0) by lra.
    eapply Rle_trans; [|apply Rplus_le_compat_r, Rmax_l]. pose proof (Rmax_l (x/10 - y/20) 0).
    assert (Rmax (1/2/10 - 1/2/20) (Rmax (1/2/10 - 1/2/20 - 1/2/10 - 1/2/20) 0) <= 1/40) by (repeat apply Rmax_lub; lra). lra.
Qed.
Example ex_c124_slack : 0 <= semi_slack 1 (1/10) (1/1000) /\ less_dev (1/10) (1/100) = 0 /\ less_dev (1/10) 1 = 81/100.
Proof.
  split; [|split].
  - unfold semi_slack. apply Rmult_le_pos; [lra|]. pose proof (sqrt_pos (INR 1)). pose proof (Rabs_pos (1/10)). lra.
  - unfold less_dev. replace (1/100) with (1/10 * (1/10)) by lra. rewrite sqrt_square by lra. rewrite Rmax_right by lra. lra.
  - unfold less_dev. rewrite sqrt_1. rewrite Rmax_left by lra. lra.
Qed.
Example ex_c124_min_semivariance : open_ef two_world ExamplesDown.o2 [] /\ semi_ready two_world ExamplesDown.o2 [] ExamplesDown.d34 /\
  exists w' o' dd, min_semivariance best_solver ExamplesDown.d34 false two_world ExamplesDown.o2 = (w', o', Ok dd).
Proof. destruct (semi2_ready (1/10) 0 1 (1/20, 1/10)) as [H1 H2]. split; [exact H1|]. split; [exact H2|]. exact ExamplesDown.ex_c34_min. Qed.
Example ex_c124_semi_risk : 0 <= sd_freq ExamplesDown.d34 /\
  exists w' o' dd, semi_efficient_risk best_solver ExamplesDown.d34 (1/50) false two_world ExamplesDown.o2 = (w', o', Ok dd).
Proof. split; [cbn; lra|]. exact ExamplesDown.ex_c34_risk. Qed.
Example ex_c124_semi_return : exists w' o' dd, semi_efficient_return best_solver ExamplesDown.d34 (NFloat (3/20)) false two_world ExamplesDown.o2 = (w', o', Ok dd).
Proof.
  destruct (semi2_ready (1/10) 0 1 (1/20, 1/10)) as [Hop Hr].
  assert (Em : list_max (map Rabs [1/5; 1/10]) = Some (1/5)).
  { cbn [map]. rewrite !Rabs_right by lra. unfold list_max. cbn [fold_left]. rewrite Rmax_left by lra. reflexivity. }
  apply (semi_return_answers two_world ExamplesDown.o2 [] ExamplesDown.d34 Hop Hr best_solver false best_solver_complete (3/20) [1/5; 1/10] (1/5) eq_refl (ExamplesDown.fresh_any _ _) ltac:(lra) Em ltac:(lra)).
  exists [Some 0; Some 0], [Some 1; Some 1], (fun _ => [1/2; 1/2]). split; [exact ExamplesDown.long_bounds|].
  unfold least. cbn [ExamplesDown.o2 semi2_ef init_ef e_w e_add empty_world w_sizes List.length penalty map total ExamplesDown.d34 semi2_data sd_returns sd_bench sd_freq fst snd].
  rewrite Rmult_1_r. split; [|split].
  - apply admissible_two'; [reflexivity| |exists (1/2), (1/2); split; [reflexivity|lra]].
    intros v Hv. cbn in Hv. replace v with 0%nat by lia. reflexivity.
  - rewrite qret_two. lra.
  - intros s' Ha Hk. apply admissible_two in Ha; [|reflexivity|reflexivity]. destruct Ha as [x [y [E [Hx [Hy Hs]]]]].
    rewrite E in *. rewrite qret_two in Hk. rewrite !semi_one, !ExamplesDown.short_val by lra. assert (1/2 <= x) by lra. nra.
Qed.
Example ex_c124_semi_utility : exists w' o' dd, semi_max_quadratic_utility best_solver ExamplesDown.d34 1 false two_world ExamplesDown.o2 = (w', o', Ok dd).
Proof.
  destruct (semi2_ready (1/10) 0 1 (1/20, 1/10)) as [Hop Hr].
  apply (semi_utility_answers two_world ExamplesDown.o2 [] ExamplesDown.d34 Hop Hr best_solver false best_solver_complete 1 [1/5; 1/10] eq_refl (ExamplesDown.fresh_any _ _) ltac:(lra)).
  exists [Some 0; Some 0], [Some 1; Some 1], (fun _ => [1; 0]). split; [exact ExamplesDown.long_bounds|].
  unfold least. cbn [ExamplesDown.o2 semi2_ef init_ef e_w e_add empty_world w_sizes List.length penalty map total ExamplesDown.d34 semi2_data sd_returns sd_bench sd_freq fst snd].
  replace (1/10 * 1) with (1/10) by lra. split; [|split; [exact I|]].
  - apply admissible_two'; [reflexivity| |exists 1, 0; split; [reflexivity|lra]].
    intros v Hv. cbn in Hv. replace v with 0%nat by lia. reflexivity.
  - intros s' Ha _. apply admissible_two in Ha; [|reflexivity|reflexivity]. destruct Ha as [x [y [E [Hx [Hy Hs]]]]].
    rewrite E in *. rewrite !semi_one, !ExamplesDown.short_val, !qret_two by lra. assert (y = 1 - x) by lra. subst y. nra.
Qed.
