(** * Non-vacuity: two assets in both orders *)
From Coq Require Import ZArith String List Bool Reals Lra Lia Permutation.
From Verif Require Import Num Py RBase PyLemmas Sums Mat PBase SBL MBase MConvex MEF SLin SBase SConvex SPerm PConvex PEF PEF2 PEFW PDownW PPerm PPerm2 PPerm3 PPerm4 PropertiesPerm.
Import ListNotations.
Local Open Scope R_scope.

Definition rev2 : list nat := [1%nat; 0%nat].
Definition tw (w2 : world) (o2 : ef) : Prop :=
  twins rev2 lab_mu [LStr "A"; LStr "B"] [[1; 0]; [0; 3]] (BPair (Some 0) (Some 1)) (BPair (Some 0) (Some 1))
    (mkWorld [] (fun _ => None) [] 0) (mkWorld [] (fun _ => None) [] 0) lab_world w2 (lab_ef 1 3) o2.
Lemma rev2_ok : ordering 2 rev2. Proof. apply perm_swap. Qed.
Lemma diag_square : square 2 [[1; 0]; [0; 3]]. Proof. split; [reflexivity|repeat constructor]. Qed.
Lemma diag_pos : pos_def 2 [[1; 0]; [0; 3]].
Proof.
  split; [exact diag_square|]. intros w Hw Hne. destruct w as [|x [|y [|]]]; try discriminate Hw. rewrite lab_q.
  destruct (Req_dec x 0) as [->|Hx]; [destruct (Req_dec y 0) as [->|Hy]; [contradiction Hne; reflexivity|]|]; [pose proof (Rsqr_pos_lt y Hy)|pose proof (Rsqr_pos_lt x Hx)]; unfold Rsqr in *; nra.
Qed.
Lemma diag_psd : psd 2 [[1; 0]; [0; 3]].
Proof. split; [exact diag_square|]. intros w Hw. destruct w as [|x [|y [|]]]; try discriminate Hw. rewrite lab_q. nra. Qed.
Lemma bounds_same : bounds_reordered 2 rev2 (BPair (Some 0) (Some 1)) (BPair (Some 0) (Some 1)).
Proof. left. eauto. Qed.
Example ex_c41_twins : exists w2 o2, tw w2 o2.
Proof.
  destruct (c41_reordered_accepted rev2 lab_mu [LStr "A"; LStr "B"] [[1; 0]; [0; 3]] _ _ (mkWorld [] (fun _ => None) [] 0) (mkWorld [] (fun _ => None) [] 0) _ _
    rev2_ok diag_square bounds_same (lab_init _ _ _)) as [w2 [o2 E]].
  exists w2, o2. split; [apply rev2_ok|]. split; [apply diag_square|]. split; [apply bounds_same|]. split; [apply lab_init|exact E].
Qed.
Lemma tickers_nodup : NoDup (map fst lab_mu).
Proof. repeat constructor; cbn; intuition discriminate. Qed.
Lemma fresh2 : forall name, fresh_name lab_world (lab_ef 1 3) name. Proof. intros name q Hq. cbn in Hq. contradiction. Qed.
Lemma in2 : forall x y, 0 <= x <= 1 -> 0 <= y <= 1 -> within [Some 0; Some 0] [Some 1; Some 1] [x; y].
Proof. intros. split; repeat apply Forall2_cons; try apply Forall2_nil; cbn; lra. Qed.
Lemma chosen2 : forall (ok : list R -> Prop) (cost : list R -> R) x y, 0 <= x <= 1 -> 0 <= y <= 1 -> x + y = 1 -> ok [x; y] ->
  (forall a, 0 <= a <= 1 -> ok [a; 1 - a] -> cost [x; y] <= cost [a; 1 - a]) ->
  chosen 2 [Some 0; Some 0] [Some 1; Some 1] 1 ok cost [x; y].
Proof.
  intros ok cost x y Hx Hy Hs Hk Hm. split; [reflexivity|]. split; [apply in2; assumption|]. split; [cbn; lra|]. split; [exact Hk|].
  intros z Lz [Z1 Z2] Z3 Z4. destruct z as [|a [|c [|]]]; try discriminate Lz. cbn in Z3. assert (c = 1 - a) by lra. subst c.
  inversion Z1 as [|? ? ? ? A1 _]; subst. inversion Z2 as [|? ? ? ? A2 _]; subst. cbn in A1, A2. apply Hm; [lra|exact Z4].
Qed.
Lemma force2 : bounds_in_force false (lab_ef 1 3) [Some 0; Some 0] [Some 1; Some 1].
Proof. right. split; [left; reflexivity|split; reflexivity]. Qed.
Lemma r2 : forall x y, inner (map snd lab_mu) [x; y] = x / 5 + y / 10. Proof. intros. cbn. lra. Qed.
Lemma r2' : forall x y, inner [1/5; 1/10] [x; y] = x / 5 + y / 10. Proof. intros. cbn. lra. Qed.

(** the calls succeed in both orders, and the tickers get the same weights *)
Example ex_c41_min_volatility : exists w2 o2 x1 y1 d1 x2 y2 d2, tw w2 o2 /\ min_volatility best_solver lab_world (lab_ef 1 3) = (x1, y1, Ok d1) /\
  min_volatility best_solver w2 o2 = (x2, y2, Ok d2) /\ agree d1 d2.
Proof.
  destruct ex_c41_twins as [w2 [o2 T]]. destruct quarters as [Q1 Q2].
  destruct (lab_best best_solver 1 3 (3/4) (1/4) best_solver_exact best_solver_complete ltac:(lra) ltac:(lra) ltac:(lra) ltac:(lra) ltac:(lra) ltac:(lra) Q1 Q2) as [x1 [y1 E1]].
  pose proof (proj1 (c41_min_volatility_both _ _ _ _ _ _ _ _ _ _ _ _ T _ _ best_solver_exact best_solver_exact best_solver_complete best_solver_complete)) as B.
  destruct B as [x2 [y2 [d2 E2]]]; [eexists _, _, _; exact E1|].
  exists w2, o2, x1, y1. eexists. exists x2, y2, d2. split; [exact T|]. split; [exact E1|]. split; [exact E2|].
  exact (c41_same_min_volatility _ _ _ _ _ _ _ _ _ _ _ _ T tickers_nodup diag_pos _ _ _ _ _ _ _ _ best_solver_exact best_solver_exact E1 E2).
Qed.
Example ex_c41_utility : exists w2 o2 x1 y1 d1 x2 y2 d2, tw w2 o2 /\ max_quadratic_utility best_solver 1 false lab_world (lab_ef 1 3) = (x1, y1, Ok d1) /\
  max_quadratic_utility best_solver 1 false w2 o2 = (x2, y2, Ok d2) /\ agree d1 d2.
Proof.
  destruct ex_c41_twins as [w2 [o2 T]].
  assert (S1 : succeeds (max_quadratic_utility best_solver 1 false) lab_world (lab_ef 1 3)).
  { apply (utility_iff _ _ _ best_solver_exact best_solver_complete (lab_open 1 3) eq_refl [1/5; 1/10] eq_refl false 1 ltac:(lra) (fresh2 _)).
    exists [Some 0; Some 0], [Some 1; Some 1], [31/40; 9/40]. split; [exact force2|]. apply chosen2; try lra; try exact I. intros a Ha _.
    change (e_cov (lab_ef 1 3)) with [[1; 0]; [0; 3]]. rewrite !lab_q, !r2'. pose proof (Rle_0_sqr (a - 31/40)) as Q. unfold Rsqr in Q. nra. }
  pose proof (proj1 (c41_utility_both _ _ _ _ _ _ _ _ _ _ _ _ T _ _ best_solver_exact best_solver_exact best_solver_complete best_solver_complete 1 false) S1) as [x2 [y2 [d2 E2]]].
  destruct S1 as [x1 [y1 [d1 E1]]]. exists w2, o2, x1, y1, d1, x2, y2, d2. split; [exact T|]. split; [exact E1|]. split; [exact E2|].
  exact (c41_same_utility _ _ _ _ _ _ _ _ _ _ _ _ T tickers_nodup diag_pos _ _ _ _ _ _ _ _ _ _ best_solver_exact best_solver_exact E1 E2).
Qed.
Example ex_c41_return : exists w2 o2 x1 y1 d1 x2 y2 d2, tw w2 o2 /\ efficient_return best_solver (NFloat (9/50)) false lab_world (lab_ef 1 3) = (x1, y1, Ok d1) /\
  efficient_return best_solver (NFloat (9/50)) false w2 o2 = (x2, y2, Ok d2) /\ agree d1 d2.
Proof.
  destruct ex_c41_twins as [w2 [o2 T]].
  assert (S1 : succeeds (efficient_return best_solver (NFloat (9/50)) false) lab_world (lab_ef 1 3)).
  { apply (return_iff _ _ _ best_solver_exact best_solver_complete (lab_open 1 3) eq_refl [1/5; 1/10] eq_refl false (9/50) eq_refl (fresh2 _)). split.
    - exists [1; 0]. split; [rewrite r2'; lra|]. apply chosen2; try lra; try exact I. intros a Ha _. rewrite !r2'. lra.
    - exists [Some 0; Some 0], [Some 1; Some 1], [4/5; 1/5]. split; [exact force2|]. apply chosen2; try lra; [rewrite r2'; lra|]. intros a Ha Hr. rewrite r2' in Hr.
      change (e_cov (lab_ef 1 3)) with [[1; 0]; [0; 3]]. rewrite !lab_q. pose proof (Rle_0_sqr (a - 4/5)) as Q. unfold Rsqr in Q. nra. }
  pose proof (proj1 (c41_return_both _ _ _ _ _ _ _ _ _ _ _ _ T _ _ best_solver_exact best_solver_exact best_solver_complete best_solver_complete (NFloat (9/50)) false) S1) as [x2 [y2 [d2 E2]]].
  destruct S1 as [x1 [y1 [d1 E1]]]. exists w2, o2, x1, y1, d1, x2, y2, d2. split; [exact T|]. split; [exact E1|]. split; [exact E2|].
  exact (c41_same_return _ _ _ _ _ _ _ _ _ _ _ _ T tickers_nodup diag_pos _ _ _ _ _ _ _ _ _ _ best_solver_exact best_solver_exact E1 E2).
Qed.
(** an exact inverse in both orders *)
Definition pinv_a (_ : list (list R)) : list (list R) := [[1; 0]; [0; 1/3]].
Definition pinv_b (_ : list (list R)) : list (list R) := [[1/3; 0]; [0; 1]].
Example ex_c41_risk : exists w2 o2 x1 y1 d1 x2 y2 d2, tw w2 o2 /\ efficient_risk best_solver pinv_a (NInt 1) false lab_world (lab_ef 1 3) = (x1, y1, Ok d1) /\
  efficient_risk best_solver pinv_b (NInt 1) false w2 o2 = (x2, y2, Ok d2) /\
  answers (map fst lab_mu) [Some 0; Some 0] [Some 1; Some 1] 1 (fun x => qform [[1; 0]; [0; 3]] x <= 1 * 1) (fun x => - inner (map snd lab_mu) x) d2.
Proof.
  destruct ex_c41_twins as [w2 [o2 T]].
  assert (P : inverse_reordered rev2 2 [[1; 0]; [0; 3]] pinv_a pinv_b).
  { split; [split; [reflexivity|repeat constructor]|reflexivity]. }
  assert (S1 : succeeds (efficient_risk best_solver pinv_a (NInt 1) false) lab_world (lab_ef 1 3)).
  { apply (risk_iff _ _ _ best_solver_exact best_solver_complete (lab_open 1 3) eq_refl [1/5; 1/10] eq_refl false pinv_a (NInt 1) 1 eq_refl (fresh2 _)).
    split; [lra|]. split.
    - unfold below_global_min, pinv_a. rewrite vsum_total. rewrite (map_ext vsum total vsum_total). cbn [map total].
      rewrite (proj2 (Reqb_false _ 0)) by lra. rewrite (proj2 (Rltb_false _ 0)) by lra. apply Rltb_false. apply (Rle_trans _ (sqrt 1)); [apply sqrt_le_1_alt; lra|rewrite sqrt_1; lra].
    - exists [Some 0; Some 0], [Some 1; Some 1], [1; 0]. split; [exact force2|]. change (e_cov (lab_ef 1 3)) with [[1; 0]; [0; 3]].
      apply chosen2; try lra; [rewrite lab_q; lra|]. intros a Ha _. rewrite !r2'. lra. }
  pose proof (proj1 (c41_risk_both _ _ _ _ _ _ _ _ _ _ _ _ T _ _ best_solver_exact best_solver_exact best_solver_complete best_solver_complete pinv_a pinv_b (NInt 1) false P) S1) as [x2 [y2 [d2 E2]]].
  destruct S1 as [x1 [y1 [d1 E1]]]. exists w2, o2, x1, y1, d1, x2, y2, d2. split; [exact T|]. split; [exact E1|]. split; [exact E2|].
  destruct (c41_risk _ _ _ _ _ _ _ _ _ _ _ _ T _ _ _ _ _ _ _ _ _ _ _ _ tickers_nodup best_solver_exact best_solver_exact E1 E2) as [t [lb [ub [Et [B [_ A]]]]]].
  inversion Et; subst t. destruct (in_force_unique _ _ _ _ _ _ B force2) as [-> ->]. exact A.
Qed.
Example ex_c41_max_sharpe : exists w2 o2 x1 y1 d1 x2 y2 d2, tw w2 o2 /\ max_sharpe best_solver (NFloat 0) lab_world (lab_ef 1 3) = (x1, y1, Ok d1) /\
  max_sharpe best_solver (NFloat 0) w2 o2 = (x2, y2, Ok d2) /\ agree d1 d2.
Proof.
  destruct ex_c41_twins as [w2 [o2 T]].
  assert (F1 : Forall (fun c => c <> None) (e_lb (lab_ef 1 3))) by (repeat constructor; discriminate).
  assert (F2 : Forall (fun c => c <> None) (e_ub (lab_ef 1 3))) by (repeat constructor; discriminate).
  assert (S1 : succeeds (max_sharpe best_solver (NFloat 0)) lab_world (lab_ef 1 3)).
  { apply (sharpe_iff _ _ _ best_solver_exact best_solver_complete (lab_open 1 3) eq_refl [1/5; 1/10] eq_refl (NFloat 0) 0 diag_psd F1 F2 eq_refl). split; [left; lra|].
    exists [6/7; 1/7]. split; [reflexivity|]. split; [apply in2; lra|]. split; [cbn; lra|]. unfold excess. change (e_cov (lab_ef 1 3)) with [[1; 0]; [0; 3]]. split; [rewrite r2'; lra|].
    intros z Lz [Z1 Z2] Z3. destruct z as [|a [|c [|]]]; try discriminate Lz. cbn in Z3. assert (c = 1 - a) by lra. subst c.
    inversion Z1 as [|? ? ? ? A1 _]; subst. inversion Z2 as [|? ? ? ? A2 _]; subst. cbn in A1, A2. rewrite !r2', !lab_q.
    apply Rsqr_incr_0_var; [|apply Rmult_le_pos; [lra|apply sqrt_pos]]. rewrite !Rsqr_mult, !Rsqr_sqrt by nra. unfold Rsqr. pose proof (Rle_0_sqr (a - 6/7)) as Q. unfold Rsqr in Q. nra. }
  pose proof (proj1 (c41_max_sharpe_both _ _ _ _ _ _ _ _ _ _ _ _ T _ _ best_solver_exact best_solver_exact best_solver_complete best_solver_complete (NFloat 0) diag_psd F1 F2) S1) as [x2 [y2 [d2 E2]]].
  destruct S1 as [x1 [y1 [d1 E1]]]. exists w2, o2, x1, y1, d1, x2, y2, d2. split; [exact T|]. split; [exact E1|]. split; [exact E2|].
  exact (c41_same_max_sharpe _ _ _ _ _ _ _ _ _ _ _ _ T tickers_nodup _ _ _ _ _ _ _ _ _ diag_pos best_solver_exact best_solver_exact E1 E2).
Qed.
Example ex_c41_mismatch : exact_solver best_solver /\ complete_solver best_solver.
Proof. split; [exact best_solver_exact|exact best_solver_complete]. Qed.
