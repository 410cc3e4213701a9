(** * Reverse optimisation (C116): implied returns give back the portfolio they were derived from *)
From Coq Require Import ZArith List String Bool Reals Lra Lia.
From Verif Require Import Num Py RBase PyLemmas SLin SBL MBase MConvex MEF MBL SBase SHRP SObj SConvex SCurve Sums Mat PBase PObj PRisk PEF PEF2 PEF3 PEF4 PPerm2 PPerm4 PCurve PCurve2 PBL2.
Import ListNotations.
Local Open Scope R_scope.

Lemma pd_zero : forall n M f, pos_def n M -> bil n (entry M) f f <= 0 -> forall i, (i < n)%nat -> f i = 0.
Proof.
  intros n M f [Hs Hp] H i Hi. destruct (list_eq_dec Req_EM_T (of_fun n f) (repeat 0 n)) as [E|N].
  - rewrite <- (of_fun_nth n f i Hi), E. apply nth_repeat.
  - specialize (Hp (of_fun n f) (of_fun_length n f) N). rewrite (qform_bil n) in Hp by (auto; apply of_fun_length).
    rewrite (bil_ext n _ _ _ f f) in Hp; [lra| |]; intros j Hj; unfold vec; apply of_fun_nth; exact Hj.
Qed.
Lemma vec_eq : forall n x y, List.length x = n -> List.length y = n -> (forall i, (i < n)%nat -> vec x i = vec y i) -> x = y.
Proof. intros n x y Hx Hy H. apply (nth_ext x y 0 0); [congruence|]. intros i Hi. apply H. lia. Qed.

(** equality in the Cauchy-Schwarz inequality, for weights with sum one *)
Lemma weights_nonzero : forall n M y, pos_def n M -> List.length y = n -> total y = 1 -> 0 < qform M y.
Proof.
  intros n M y Hpd Ly Ty. apply Hpd; [exact Ly|]. intros E. rewrite E in Ty. clear - Ty. induction n as [|j IH]; cbn in Ty; [lra|apply IH; lra].
Qed.
Lemma cauchy_equal : forall n M x x0, pos_def n M -> symmetric n M -> List.length x = n -> List.length x0 = n -> total x = 1 -> total x0 = 1 ->
  sqrt (qform M x0) * sqrt (qform M x) <= bil n (entry M) (vec x) (vec x0) -> x = x0.
Proof.
  intros n M x x0 Hpd Hsym Hx L0 Tx T0 B. set (b x y := bil n (entry M) (vec x) (vec y)).
  pose proof (weights_nonzero n M x Hpd Hx Tx) as Q. pose proof (weights_nonzero n M x0 Hpd L0 T0) as Q0.
  assert (Eb0 : b x0 x0 = qform M x0) by (symmetry; apply qform_bil; auto; apply Hpd).
  assert (Eb : b x x = qform M x) by (symmetry; apply qform_bil; auto; apply Hpd).
  set (v := sqrt (qform M x)) in *. set (v0 := sqrt (qform M x0)) in *. change (v0 * v <= b x x0) in B.
  assert (Pv : 0 < v) by (apply sqrt_lt_R0; exact Q). assert (Pv0 : 0 < v0) by (apply sqrt_lt_R0; exact Q0).
  assert (Ev : v * v = qform M x) by (apply sqrt_sqrt; lra). assert (Ev0 : v0 * v0 = qform M x0) by (apply sqrt_sqrt; lra).
    assert (Z : forall i, (i < n)%nat -> v0 * vec x i = v * vec x0 i).
    { intros i Hi. cut (v0 * vec x i + - v * vec x0 i = 0); [lra|].
      apply (pd_zero n M (fun i => v0 * vec x i + - v * vec x0 i) Hpd); [|exact Hi].
      rewrite bil_plus_l, !bil_plus_r, !bil_scal_l, !bil_scal_r. rewrite (bil_sym n (entry M) (vec x0) (vec x)) by exact Hsym.
      fold (b x x) (b x x0) (b x0 x0). rewrite Eb, Eb0, <- Ev, <- Ev0. assert (0 <= v0 * v * (b x x0 - v0 * v)) by (apply Rmult_le_pos; nra). nra. }
    assert (Evv : v0 = v).
    { rewrite (total_vec n) in Tx, T0 by assumption. assert (E : sumn n (fun i => v0 * vec x i) = sumn n (fun i => v * vec x0 i)) by (apply sumn_ext; exact Z).
      rewrite !sumn_scal in E. change (fun i => vec x i) with (vec x) in E. change (fun i => vec x0 i) with (vec x0) in E. rewrite Tx, T0 in E. lra. }
    apply (vec_eq n); auto. intros i Hi. specialize (Z i Hi). rewrite Evv in Z. apply (Rmult_eq_reg_l v); lra.
Qed.

(** expected returns [c * M x0 + k]: then [x0] is what they are best for *)
Section Implied.
  Variables (n : nat) (M : list (list R)) (x0 : list R) (c k : R).
  Hypothesis Hpd : pos_def n M.
  Hypothesis Hsym : symmetric n M.
  Hypothesis L0 : List.length x0 = n.
  Hypothesis Hc : 0 < c.
  Let m := map (fun v => c * v + k) (mat_vec M x0).
  Let b x y := bil n (entry M) (vec x) (vec y).
  Lemma implied_inner : forall x, List.length x = n -> inner m x = c * b x x0 + k * total x.
  Proof.
    intros x Hx. destruct (proj1 Hpd) as [HL _]. assert (Lm : List.length m = n) by (unfold m, mat_vec; rewrite !map_length; exact HL).
    rewrite (inner_vec n) by assumption. rewrite (total_vec n) by exact Hx. unfold b, bil. rewrite <- !sumn_scal, <- sumn_plus. apply sumn_ext. intros i Hi.
    assert (E : vec m i = c * sumn n (fun j => entry M i j * vec x0 j) + k).
    { unfold vec at 1, m. rewrite (nth_indep _ 0 (c * 0 + k)) by (rewrite map_length; unfold mat_vec; rewrite map_length; lia).
      rewrite (map_nth (fun v => c * v + k)). f_equal. f_equal. unfold mat_vec. rewrite (matvec_nth n) by (auto; apply Hpd). reflexivity. }
    rewrite E. ring.
  Qed.
  Lemma implied_utility_at : forall x, List.length x = n -> total x = total x0 ->
    c / 2 * qform M x - inner m x <= c / 2 * qform M x0 - inner m x0 -> x = x0.
  Proof.
    intros x Hx Ht H. rewrite !implied_inner in H by assumption. rewrite Ht in H. rewrite !(qform_bil n) in H by (auto; apply Hpd). fold (b x x) (b x0 x0) in H.
    apply (vec_eq n); auto. intros i Hi. cut (vec x i + -1 * vec x0 i = 0); [lra|].
    apply (pd_zero n M (fun i => vec x i + -1 * vec x0 i) Hpd); [|exact Hi].
    rewrite bil_line by exact Hsym. fold (b x x) (b x x0) (b x0 x0). nra.
  Qed.
  Lemma implied_sharpe_at : forall x, List.length x = n -> total x = 1 -> total x0 = 1 ->
    excess m k x0 * sqrt (qform M x) <= excess m k x * sqrt (qform M x0) -> x = x0.
  Proof.
    intros x Hx Tx T0 H. unfold excess in H. rewrite !implied_inner in H by assumption. rewrite Tx, T0 in H.
    assert (NZ : forall y, List.length y = n -> total y = 1 -> 0 < qform M y).
    { intros y Ly Ty. apply Hpd; [exact Ly|]. intros E. rewrite E in Ty. clear - Ty. induction n as [|j IH]; cbn in Ty; [lra|apply IH; lra]. }
    pose proof (NZ x Hx Tx) as Q. pose proof (NZ x0 L0 T0) as Q0. assert (Eb0 : b x0 x0 = qform M x0) by (symmetry; apply qform_bil; auto; apply Hpd).
    assert (Eb : b x x = qform M x) by (symmetry; apply qform_bil; auto; apply Hpd). rewrite Eb0 in H.
    set (v := sqrt (qform M x)) in *. set (v0 := sqrt (qform M x0)) in *.
    assert (Pv : 0 < v) by (apply sqrt_lt_R0; exact Q). assert (Pv0 : 0 < v0) by (apply sqrt_lt_R0; exact Q0).
    assert (Ev : v * v = qform M x) by (apply sqrt_sqrt; lra). assert (Ev0 : v0 * v0 = qform M x0) by (apply sqrt_sqrt; lra). rewrite <- Ev0 in H.
    assert (B : v0 * v <= b x x0).
    { assert (c * v0 * (v0 * v) <= c * v0 * b x x0) by nra. assert (0 < c * v0) by nra. apply (Rmult_le_reg_l (c * v0)); assumption. }
    exact (cauchy_equal n M x x0 Hpd Hsym Hx L0 Tx T0 B).
  Qed.
End Implied.

(** the optimizers with such expected returns *)
Theorem utility_recovers : forall w o u mn c k x0, open_ef w o u -> e_add o = [] -> 0 < c ->
  e_mu o = Some (map (fun v => c * v + k) (mat_vec (e_cov o) x0)) ->
  pos_def (e_n o) (e_cov o) -> symmetric (e_n o) (e_cov o) -> fresh_name w o "risk_aversion" ->
  (exists lb ub s, bounds_in_force mn o lb ub /\ admissible w o u lb ub (if mn then 0 else 1) s /\ s (e_w o) = x0) ->
  forall sv, exact_solver sv -> succeeds (max_quadratic_utility sv c mn w o) -> reports (max_quadratic_utility sv c mn w o) x0.
Proof.
  intros w o u mn c k x0 Ho Ha Hc Hm Hp Hs Fa [lb [ub [s [Hb [Ad E0]]]]] sv Es S. unfold succeeds, reports in *.
  destruct (max_quadratic_utility sv c mn w o) as [[w' o'] [d|e]] eqn:R; [|contradiction].
  destruct (utility_best sv w o u _ c mn w' o' d Es Ho Hm Fa R) as [_ [lb' [ub' [Hb' B]]]]. destruct (in_force_unique _ _ _ _ _ _ Hb Hb') as [<- <-].
  destruct (best_is w o u lb ub _ Ha _ _ _ _ B) as [x [r [Er [F [Px [_ M]]]]]].
  assert (P0 : portfolio w o u lb ub (if mn then 0 else 1) x0) by (exists s; auto).
  assert (Lx := portfolio_length _ _ _ _ _ _ Ho _ Px). assert (L0 := portfolio_length _ _ _ _ _ _ Ho _ P0).
  specialize (M x0 P0 Logic.I). assert (Ex : x = x0); [|subst x; exists r; auto].
  apply (implied_utility_at (e_n o) (e_cov o) x0 c k Hp Hs L0 Hc x Lx); [|lra].
  destruct Px as [s1 [[_ [_ [T1 _]]] <-]]. destruct Ad as [_ [_ [T0 _]]]. rewrite <- E0. congruence.
Qed.
Theorem sharpe_recovers : forall w o u rf c k x0, open_ef w o u -> e_add o = [] -> 0 < c ->
  e_mu o = Some (map (fun v => c * v + k) (mat_vec (e_cov o) x0)) -> target_of rf = Some k ->
  pos_def (e_n o) (e_cov o) -> symmetric (e_n o) (e_cov o) ->
  Forall (fun ic => constant_on_one_side (e_w o) (snd ic)) u -> Forall (fun ic => known_vars (List.length (w_sizes w)) (snd ic)) u ->
  (exists s, admissible w o u (e_lb o) (e_ub o) 1 s /\ s (e_w o) = x0) ->
  forall sv, exact_solver sv -> succeeds (max_sharpe sv rf w o) -> reports (max_sharpe sv rf w o) x0.
Proof.
  intros w o u rf c k x0 Ho Ha Hc Hm Hr Hp Hs C1 C2 [s0 [Ad0 E0]] sv Es S. unfold succeeds, reports in *.
  destruct (max_sharpe sv rf w o) as [[w' o'] [d|e]] eqn:R; [|contradiction].
  destruct (max_sharpe_best sv w o u rf w' o' d Es Ho Ha (pos_def_psd _ _ Hp) C1 C2 R) as [m' [r [Em' [Er [s [rr [Ew [F [_ [Ad [Pos M]]]]]]]]]]].
  rewrite Hm in Em'. injection Em' as <-. rewrite Hr in Er. injection Er as <-. specialize (M s0 Ad0). rewrite E0 in M.
  assert (P : portfolio w o u (e_lb o) (e_ub o) 1 (s (e_w o))) by (exists s; auto). assert (P0 : portfolio w o u (e_lb o) (e_ub o) 1 x0) by (exists s0; auto).
  assert (Ex : s (e_w o) = x0); [|rewrite Ex in F; exists rr; auto].
  apply (implied_sharpe_at (e_n o) (e_cov o) x0 c k Hp Hs (portfolio_length _ _ _ _ _ _ Ho _ P0) Hc _ (portfolio_length _ _ _ _ _ _ Ho _ P)).
  - apply Ad. - rewrite <- E0. apply Ad0. - exact M.
Qed.
