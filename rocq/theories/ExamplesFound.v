(** * Non-vacuity: best portfolios exist *)
From Coq Require Import ZArith List String Bool Reals Lra Lia.
From Verif Require Import Num Py RBase MBase MConvex MEF SLin SBase SConvex PBase PConvex PEF PEF2 PEF3 PEF4 PEFW PDownW PropertiesFound.
Import ListNotations.
Local Open Scope R_scope.

(** two uncorrelated assets of variance one, returns 20 and 10 percent, long only *)
Definition oF : ef := two_ef [1/5; 1/10] 0 1.
Lemma oF_fresh : forall name, fresh_name two_world oF name. Proof. intros name q Hq. cbn in Hq. contradiction. Qed.
Lemma oF_adm : forall sum s, admissible two_world oF [] (e_lb oF) (e_ub oF) sum s <-> exists x y, s 0%nat = [x; y] /\ 0 <= x <= 1 /\ 0 <= y <= 1 /\ x + y = sum.
Proof. intros. apply two_admissible. Qed.
Lemma oF_force : bounds_in_force false oF (e_lb oF) (e_ub oF).
Proof. right. split; [left; reflexivity|split; reflexivity]. Qed.
Lemma oF_least : forall (ok : list R -> Prop) (cost : list R -> R) x y, 0 <= x <= 1 -> 0 <= y <= 1 -> x + y = 1 -> ok [x; y] ->
  (forall a b, 0 <= a <= 1 -> 0 <= b <= 1 -> a + b = 1 -> ok [a; b] -> cost [x; y] <= cost [a; b]) ->
  least two_world oF [] (e_lb oF) (e_ub oF) 1 ok cost (fun _ => [x; y]).
Proof.
  intros ok cost x y Hx Hy Hs Hk Hm. split; [apply oF_adm; exists x, y; auto|]. split; [exact Hk|].
  intros s Ha Hok. apply oF_adm in Ha. destruct Ha as [a [b [E [H1 [H2 H3]]]]]. change (e_w oF) with 0%nat in *. rewrite E in *.
  change (e_add oF) with (@nil expr). unfold penalty. cbn [map total]. specialize (Hm a b H1 H2 H3 Hok). lra.
Qed.
Lemma oF_q : forall x y, qform (e_cov oF) [x; y] = x * x + y * y. Proof. intros. cbn. ring. Qed.
Lemma oF_r : forall x y, inner [1/5; 1/10] [x; y] = x / 5 + y / 10. Proof. intros. cbn. lra. Qed.

Example ex_c25_found : exists w' o' d, min_volatility best_solver two_world oF = (w', o', Ok d).
Proof.
  apply (c25_found _ _ _ [] (fun _ => [1/2; 1/2]) best_solver_complete (two_open _ _ _ _)).
  apply oF_least; try lra; try exact I. intros a b Ha Hb Hs _. rewrite !oF_q. assert (Eb : b = 1 - a) by lra. subst b. pose proof (Rle_0_sqr (a - 1/2)) as Q. unfold Rsqr in Q. nra.
Qed.
Lemma id2_inverse : right_inverse (e_n oF) (e_cov oF) (e_cov oF).
Proof.
  split; [split; [reflexivity|repeat constructor]|].
  intros x Hx. destruct x as [|a [|b [|c x]]]; try discriminate Hx. cbn. f_equal; [ring|f_equal; ring].
Qed.
Example ex_c26_found : exists w' o' d, efficient_risk best_solver (fun m => m) (NInt 1) false two_world oF = (w', o', Ok d).
Proof.
  refine (c26_found best_solver (fun m => m) false two_world oF [] _ (two_open _ _ _ _) eq_refl _ _ _ id2_inverse (NInt 1) 1 best_solver_complete eq_refl ltac:(lra) (oF_fresh _) _ _);
    try (cbn; lia); try apply id2_psd.
  - exists [1/2; 1/2]. split; [reflexivity|]. split; [cbn; lra|]. rewrite oF_q. lra.
  - exists (e_lb oF), (e_ub oF), (fun _ => [1; 0]). split; [apply oF_force|].
    apply oF_least; try lra; [rewrite oF_q; lra|]. intros a b Ha Hb Hs _. rewrite !oF_r. lra.
Qed.
(** a volatility of 70% is less than that of half and half, and rejected; c27_rejected_unreachable says that nothing reaches it *)
Example ex_c27_rejected : efficient_risk best_solver (fun m => m) (NFloat (7/10)) false two_world oF = (two_world, oF, Err ValueError).
Proof.
  unfold efficient_risk. cbn [target_of]. rewrite (proj2 (Rltb_false (7/10) 0)) by lra. unfold bind at 1, get.
  assert (below_global_min (fun m => m) (e_cov oF) (7/10) = true) as ->; [|reflexivity].
  unfold below_global_min. rewrite vsum_total. rewrite (map_ext vsum total vsum_total). cbn [map total e_cov oF].
  replace (total (map total (e_cov oF))) with 2 by (cbn; lra).
  rewrite (proj2 (Reqb_false 2 0)) by lra. rewrite (proj2 (Rltb_false 2 0)) by lra. apply Rltb_true.
  apply Rsqr_incrst_0; [|lra|apply sqrt_pos]. rewrite Rsqr_sqrt by lra. unfold Rsqr. lra.
Qed.
Example ex_c28_found : exists w' o' d, efficient_return best_solver (NFloat (9/50)) false two_world oF = (w', o', Ok d).
Proof.
  refine (c28_found _ _ _ [] _ _ best_solver_complete (two_open _ _ _ _) eq_refl (9/50) (fun _ => [1; 0]) eq_refl (oF_fresh _) _ _ _ best_solver_exact _).
  - apply oF_adm. exists 1, 0. repeat split; lra.
  - intros s Ha. apply oF_adm in Ha. destruct Ha as [a [b [E [H1 [H2 H3]]]]]. change (inner [1/5; 1/10] (s 0%nat) <= inner [1/5; 1/10] [1; 0]). rewrite E, !oF_r. lra.
  - change (9/50 <= inner [1/5; 1/10] [1; 0]). rewrite oF_r. lra.
  - exists (e_lb oF), (e_ub oF), (fun _ => [4/5; 1/5]). split; [apply oF_force|].
    apply oF_least; try lra; [rewrite oF_r; lra|]. intros a b Ha Hb Hs Hr. rewrite oF_r in Hr. rewrite !oF_q. assert (Eb : b = 1 - a) by lra. subst b. pose proof (Rle_0_sqr (a - 4/5)) as Q. unfold Rsqr in Q. nra.
Qed.
Example ex_c29_found : exists w' o' d, max_quadratic_utility best_solver 1 false two_world oF = (w', o', Ok d).
Proof.
  refine (c29_found _ _ _ [] _ _ best_solver_complete (two_open _ _ _ _) eq_refl 1 ltac:(lra) (oF_fresh _) _).
  exists (e_lb oF), (e_ub oF), (fun _ => [11/20; 9/20]). split; [apply oF_force|].
  apply oF_least; try lra; try exact I. intros a b Ha Hb Hs _. rewrite !oF_q, !oF_r. assert (Eb : b = 1 - a) by lra. subst b. pose proof (Rle_0_sqr (a - 11/20)) as Q. unfold Rsqr in Q. nra.
Qed.
Example ex_c30_found : exists w' o' d, max_sharpe best_solver (NFloat 0) two_world oF = (w', o', Ok d).
Proof.
  refine (c30_found _ _ _ [] [1/5; 1/10] (NFloat 0) 0 (fun _ => [2/3; 1/3]) best_solver_exact best_solver_complete (two_open _ _ _ _) eq_refl _ _ _ _ _ eq_refl eq_refl _ _ _ _).
  - apply id2_psd.
  - constructor.
  - constructor.
  - repeat constructor; discriminate.
  - repeat constructor; discriminate.
  - left. lra.
  - apply oF_adm. exists (2/3), (1/3). repeat split; lra.
  - change (0 < inner [1/5; 1/10] [2/3; 1/3] - 0). rewrite oF_r. lra.
  - intros s Ha. apply oF_adm in Ha. destruct Ha as [a [b [E [H1 [H2 H3]]]]]. 
    change ((inner [1/5; 1/10] (s 0%nat) - 0) * sqrt (qform (e_cov oF) [2/3; 1/3]) <= (inner [1/5; 1/10] [2/3; 1/3] - 0) * sqrt (qform (e_cov oF) (s 0%nat))).
    rewrite E, !oF_r, !oF_q.
    apply Rsqr_incr_0_var; [|apply Rmult_le_pos; [lra|apply sqrt_pos]]. rewrite !Rsqr_mult, !Rsqr_sqrt by nra. unfold Rsqr. pose proof (Rle_0_sqr (a - 2 * b)) as Q. unfold Rsqr in Q. nra.
Qed.
