(** * One frontier (C113) *)
From Coq Require Import ZArith List String Bool Reals Lra Lia.
From Verif Require Import Num Py RBase PyLemmas MBase MConvex MEF MDown SLin SBase SHRP SObj SConvex SDown SCurve Sums PBase PObj PRisk PEF PEF2 PEF3 PEF4 PEFW PDown2 PDown4 PDown5 PPerm2 PPerm4 PCurve PDown3 PDown6 PRisk.
Import ListNotations.
Local Open Scope R_scope.

Section Laws.
  Variables (A : list R -> Prop) (n : nat) (m : list R) (risk : list R -> R) (legal : R -> Prop).
  Variables (by_risk by_ret : R -> world * ef * res (dict R)).
  Hypothesis Alen : forall x, A x -> List.length x = n.
  Hypothesis Amix : forall x y k, 0 <= k <= 1 -> A x -> A y -> A (blend k x y).
  Hypothesis Hconv : convex_on n risk.
  Hypothesis Hmixl : forall t t' k, legal t -> legal t' -> 0 <= k <= 1 -> legal ((1 - k) * t + k * t').
  Hypothesis Hup : forall t t', legal t -> t <= t' -> legal t'.
  Hypothesis Hrisk : forall t, legal t -> succeeds (by_risk t) -> exists x, reports (by_risk t) x /\ best_ret A (inner m) risk t x.
  Hypothesis Hriskl : forall x, A x -> succeeds (by_risk (risk x)) -> legal (risk x).
  Hypothesis Hret : forall r, succeeds (by_ret r) -> exists x, reports (by_ret r) x /\ best_risk A (inner m) risk r x.
  Theorem laws : one_frontier by_risk by_ret legal (inner m) risk.
  Proof.
    constructor.
    - intros t t' Ht Hle S S'. destruct (Hrisk t Ht S) as [x [Rx Bx]]. destruct (Hrisk t' (Hup _ _ Ht Hle) S') as [x' [Rx' Bx']].
      exists x, x'. split; [exact Rx|split; [exact Rx'|]]. exact (more_risk_trade _ _ _ t t' _ _ Hle Bx Bx').
    - intros r r' Hle S S'. destruct (Hret r S) as [x [Rx Bx]]. destruct (Hret r' S') as [x' [Rx' Bx']].
      exists x, x'. split; [exact Rx|split; [exact Rx'|]]. exact (more_return_trade _ _ _ r r' _ _ Hle Bx Bx').
    - intros t Ht S. destruct (Hrisk t Ht S) as [x [Rx Bx]]. exists x. split; [exact Rx|]. split; [exact (proj1 (proj2 Bx))|].
      intros S'. destruct (Hret _ S') as [y [Ry By]]. exists y. split; [exact Ry|]. exact (risk_then_return_trade _ _ _ t _ _ Bx By).
    - intros r S. destruct (Hret r S) as [x [Rx Bx]]. exists x. split; [exact Rx|]. split; [exact (proj1 (proj2 Bx))|].
      intros S'. destruct (Hrisk _ (Hriskl x (proj1 Bx) S') S') as [y [Ry By]]. exists y. split; [exact Ry|]. exact (return_then_risk_trade _ _ _ r _ _ Bx By).
    - intros t t' k Ht Ht' Hk S S' S''. destruct (Hrisk t Ht S) as [x [Rx Bx]]. destruct (Hrisk t' Ht' S') as [x' [Rx' Bx']].
      destruct (Hrisk _ (Hmixl _ _ _ Ht Ht' Hk) S'') as [z [Rz Bz]]. exists x, x', z. split; [exact Rx|split; [exact Rx'|split; [exact Rz|]]].
      assert (Lx := Alen _ (proj1 Bx)). assert (Lx' := Alen _ (proj1 Bx')).
      apply (concave_trade A (inner m) risk blend k t t' x x' z Hk); auto.
      + apply Amix; [exact Hk|exact (proj1 Bx)|exact (proj1 Bx')].
      + apply inner_blend. congruence.
    - intros t t' k Hk S S' S''. destruct (Hret t S) as [x [Rx Bx]]. destruct (Hret t' S') as [x' [Rx' Bx']].
      destruct (Hret _ S'') as [z [Rz Bz]]. exists x, x', z. split; [exact Rx|split; [exact Rx'|split; [exact Rz|]]].
      assert (Lx := Alen _ (proj1 Bx)). assert (Lx' := Alen _ (proj1 Bx')).
      apply (convex_trade A (inner m) risk blend k t t' x x' z Hk); auto.
      + apply Amix; [exact Hk|exact (proj1 Bx)|exact (proj1 Bx')].
      + apply inner_blend. congruence.
  Qed.
  (** an answer that nothing beats in both respects *)
  Lemma unbeaten : forall run x, reports run x -> A x ->
    (forall y, A y -> inner m x <= inner m y -> risk x <= risk y) -> (forall y, A y -> risk y <= risk x -> inner m y <= inner m x) ->
    on_frontier run by_risk by_ret (inner m) risk.
  Proof.
    intros run x Rx Ax H1 H2. exists x. split; [exact Rx|]. split; intros S.
    - destruct (Hret _ S) as [y [Ry [Ay [By My]]]]. exists y. split; [exact Ry|]. apply Rle_antisym; [apply My; [exact Ax|lra]|apply H1; [exact Ay|lra]].
    - destruct (Hrisk _ (Hriskl x Ax S) S) as [y [Ry [Ay [By My]]]]. exists y. split; [exact Ry|]. apply Rle_antisym; [apply H2; [exact Ay|lra]|apply My; [exact Ax|lra]].
  Qed.
  Lemma starts : forall run x, reports run x -> A x -> (forall y, A y -> risk x <= risk y) -> frontier_start run by_risk by_ret legal (inner m) risk.
  Proof.
    intros run x Rx Ax H. exists x. split; [exact Rx|]. split; [intros t Ht S|intros r S].
    - destruct (Hrisk t Ht S) as [y [Ry [Ay [By My]]]]. pose proof (H y Ay). split; [lra|]. exists y. split; [exact Ry|]. split; [|assumption]. apply Rle_ge, My; [exact Ax|lra].
    - destruct (Hret r S) as [y [Ry [Ay [By My]]]]. exists y. pose proof (H y Ay). split; [exact Ry|]. split; [assumption|]. intros Hr. apply Rle_antisym; [apply My; assumption|assumption].
  Qed.
End Laws.

Section Portfolios.
  Variables (w : world) (o : ef) (u : list (nat * con)) (lb ub : list (option R)) (sum : R).
  Definition portfolio (x : list R) : Prop := exists s, admissible w o u lb ub sum s /\ s (e_w o) = x.
  Hypothesis Hopen : open_ef w o u.
  Hypothesis Hu : Forall (fun ic => convex_con (w_sizes w) (par_values w) (snd ic)) u.
  Hypothesis Hadd : e_add o = [].
  Lemma portfolio_length : forall x, portfolio x -> List.length x = e_n o.
  Proof.
    intros x [s [[Hs _] <-]]. destruct Hopen as [_ [_ [_ [_ [Hn _]]]]]. exact (sized_nth _ _ _ _ Hs Hn).
  Qed.
  Lemma portfolio_mix : forall x y k, 0 <= k <= 1 -> portfolio x -> portfolio y -> portfolio (blend k x y).
  Proof.
    intros x y k Hk Px Py. assert (Lx := portfolio_length x Px). assert (Ly := portfolio_length y Py).
    destruct Px as [s [[Hs [Ws [Ts Us]]] Ex]]. destruct Py as [s' [[Hs' [Ws' [Ts' Us']]] Ey]]. exists (mixed k s s'). split; [|unfold mixed; congruence].
    split.
    { intros v Hv. unfold mixed. specialize (Hs v Hv). specialize (Hs' v Hv). rewrite blend_length; congruence. }
    split; [apply within_blend; assumption|]. split.
    { unfold mixed. rewrite total_blend by congruence. rewrite Ts, Ts'. ring. }
    rewrite Forall_forall in *. intros ic Hic. apply Hu; auto.
  Qed.
  Lemma no_penalty : forall s ps, penalty s ps (e_add o) = 0.
  Proof. intros. rewrite Hadd. reflexivity. Qed.
  (** what a best portfolio is, without added objectives *)
  Lemma best_is : forall (ok : list R -> Prop) cost ws d, best_portfolio w o u lb ub sum ok cost ws d ->
    exists x r, ws = Some r /\ Forall2 (rounded 16) x r /\ portfolio x /\ ok x /\ forall y, portfolio y -> ok y -> cost x <= cost y.
  Proof.
    intros ok cost ws d [s [r [E [F [_ [Ad [Ok B]]]]]]]. exists (s (e_w o)), r. split; [exact E|split; [exact F|split; [exists s; split; [exact Ad|reflexivity]|split; [exact Ok|]]]].
    intros y [s' [Ad' <-]] Ok'. specialize (B s' Ad' Ok'). rewrite !no_penalty in B. lra.
  Qed.
End Portfolios.

(** ** EfficientFrontier *)
Section Frontier.
  Variables (w : world) (o : ef) (u : list (nat * con)) (mn : bool) (m : list R).
  Hypothesis Hopen : open_ef w o u.
  Hypothesis Hu : Forall (fun ic => convex_con (w_sizes w) (par_values w) (snd ic)) u.
  Hypothesis Hadd : e_add o = [].
  Hypothesis Hmu : e_mu o = Some m.
  Hypothesis Hpsd : psd (e_n o) (e_cov o).
  Hypothesis Fv : fresh_name w o "target_variance".
  Hypothesis Fr : fresh_name w o "target_return".
  Hypothesis Fa : fresh_name w o "risk_aversion".
  Variables (sv sv' sv'' : solver_t) (pinv : list (list R) -> list (list R)).
  Hypothesis E1 : exact_solver sv.
  Hypothesis E2 : exact_solver sv'.
  Hypothesis E3 : exact_solver sv''.
  Variables (lb ub : list (option R)).
  Hypothesis Hb : bounds_in_force mn o lb ub.
  Let vol (x : list R) : R := sqrt (qform (e_cov o) x).
  Let A := portfolio w o u lb ub (if mn then 0 else 1).
  Let Alen : forall x, A x -> List.length x = e_n o := portfolio_length w o u lb ub _ Hopen.
  Lemma vol_le : forall x t, List.length x = e_n o -> 0 <= t -> (qform (e_cov o) x <= t * t <-> vol x <= t).
  Proof.
    intros x t Lx Ht. unfold vol. assert (0 <= qform (e_cov o) x) by (apply Hpsd; exact Lx). split; intros H'.
    - rewrite <- (sqrt_square t Ht). apply sqrt_le_1_alt. exact H'.
    - assert (S := sqrt_sqrt _ H). pose proof (sqrt_pos (qform (e_cov o) x)). nra.
  Qed.
  Lemma vol_mono : forall x y, List.length x = e_n o -> List.length y = e_n o -> (qform (e_cov o) x <= qform (e_cov o) y <-> vol x <= vol y).
  Proof.
    intros x y Lx Ly. rewrite <- vol_le by (auto; apply sqrt_pos). unfold vol. rewrite sqrt_sqrt by (apply Hpsd; exact Ly). reflexivity.
  Qed.
  Lemma ef_risk_contract : forall t, 0 <= t -> succeeds (efficient_risk sv pinv (NFloat t) mn w o) ->
    exists x, reports (efficient_risk sv pinv (NFloat t) mn w o) x /\ best_ret A (inner m) vol t x.
  Proof.
    intros t Ht S. unfold reports, succeeds in *. destruct (efficient_risk sv pinv (NFloat t) mn w o) as [[w' o'] [d|e]] eqn:R; [|contradiction].
    destruct (efficient_risk_best sv pinv w o u m (NFloat t) mn w' o' d E1 Hopen Hmu Fv R) as [t' [lb' [ub' [Et [_ [Hb' B]]]]]].
    cbn [target_of] in Et. injection Et as <-. destruct (in_force_unique _ _ _ _ _ _ Hb Hb') as [<- <-].
    destruct (best_is w o u lb ub _ Hadd _ _ _ _ B) as [x [r [Er [F [Px [Ok M]]]]]]. exists x. split; [exists r; auto|].
    split; [exact Px|]. split; [apply vol_le; auto|]. intros y Py Ry. assert (- inner m x <= - inner m y); [|lra]. apply M; [exact Py|]. apply vol_le; auto.
  Qed.
  Lemma ef_return_contract : forall r, succeeds (efficient_return sv' (NFloat r) mn w o) ->
    exists x, reports (efficient_return sv' (NFloat r) mn w o) x /\ best_risk A (inner m) vol r x.
  Proof.
    intros r S. unfold reports, succeeds in *. destruct (efficient_return sv' (NFloat r) mn w o) as [[w' o'] [d|e]] eqn:R; [|contradiction].
    destruct (efficient_return_best sv' w o u m (NFloat r) mn w' o' d E2 Hopen Hmu Fr R) as [t' [lb' [ub' [Et [Hb' B]]]]].
    injection Et as <-. destruct (in_force_unique _ _ _ _ _ _ Hb Hb') as [<- <-].
    destruct (best_is w o u lb ub _ Hadd _ _ _ _ B) as [x [rr [Er [F [Px [Ok M]]]]]]. exists x. split; [exists rr; auto|].
    split; [exact Px|]. split; [exact Ok|]. intros y Py Ry. apply vol_mono; auto.
  Qed.
  Lemma ef_laws_at : one_frontier (fun t => efficient_risk sv pinv (NFloat t) mn w o) (fun r => efficient_return sv' (NFloat r) mn w o)
    (fun t => 0 <= t) (inner m) vol.
  Proof.
    apply (laws A (e_n o) m vol (fun t => 0 <= t)).
    - exact Alen.
    - intros x y k. apply portfolio_mix; assumption.
    - apply volatility_convex. exact Hpsd.
    - intros t t' k Ht Ht' Hk. nra.
    - intros; lra.
    - exact ef_risk_contract.
    - intros; apply sqrt_pos.
    - exact ef_return_contract.
  Qed.
  Let unb := unbeaten A m vol (fun t => 0 <= t) (fun t => efficient_risk sv pinv (NFloat t) mn w o) (fun r => efficient_return sv' (NFloat r) mn w o)
    ef_risk_contract (fun x _ _ => sqrt_pos _) ef_return_contract.
  Lemma utility_on_frontier_at : forall ra, succeeds (max_quadratic_utility sv'' ra mn w o) ->
    on_frontier (max_quadratic_utility sv'' ra mn w o) (fun t => efficient_risk sv pinv (NFloat t) mn w o) (fun r => efficient_return sv' (NFloat r) mn w o) (inner m) vol.
  Proof.
    intros ra S. unfold succeeds in S. destruct (max_quadratic_utility sv'' ra mn w o) as [[w' o'] [d|e]] eqn:R; [|contradiction].
    destruct (utility_best sv'' w o u m ra mn w' o' d E3 Hopen Hmu Fa R) as [Hra [lb' [ub' [Hb' B]]]]. destruct (in_force_unique _ _ _ _ _ _ Hb Hb') as [<- <-].
    destruct (best_is w o u lb ub _ Hadd _ _ _ _ B) as [x [rr [Er [F [Px [_ M]]]]]].
    apply (unb _ x); [exists rr; auto|exact Px| |].
    - intros y Py H. apply vol_mono; auto. specialize (M y Py I). nra.
    - intros y Py H. apply vol_mono in H; auto. specialize (M y Py I). nra.
  Qed.
  Let sta := starts A m vol (fun t => 0 <= t) (fun t => efficient_risk sv pinv (NFloat t) mn w o) (fun r => efficient_return sv' (NFloat r) mn w o)
    ef_risk_contract ef_return_contract.
  Lemma min_volatility_starts_at : mn = false -> succeeds (min_volatility sv'' w o) ->
    frontier_start (min_volatility sv'' w o) (fun t => efficient_risk sv pinv (NFloat t) mn w o) (fun r => efficient_return sv' (NFloat r) mn w o) (fun t => 0 <= t) (inner m) vol.
  Proof.
    intros Em S. unfold succeeds in S. destruct (min_volatility sv'' w o) as [[w' o'] [d|e]] eqn:R; [|contradiction].
    pose proof (min_volatility_best sv'' w o u w' o' d E3 Hopen R) as B.
    assert (Hf : bounds_in_force mn o (e_lb o) (e_ub o)) by (right; split; [left; exact Em|split; reflexivity]).
    destruct (in_force_unique _ _ _ _ _ _ Hb Hf) as [EL EU]. rewrite <- EL, <- EU in B.
    destruct (best_is w o u _ _ _ Hadd _ _ _ _ B) as [x [rr [Er [F [Px [_ M]]]]]]. assert (Ax : A x) by (unfold A; rewrite Em; exact Px).
    apply (sta _ x); [exists rr; auto|exact Ax|]. intros y Py. apply vol_mono; auto. apply M; [|exact I]. unfold A in Py. rewrite Em in Py. exact Py.
  Qed.
  Lemma max_sharpe_on_frontier_at : forall rf, mn = false ->
    Forall (fun ic => constant_on_one_side (e_w o) (snd ic)) u -> Forall (fun ic => known_vars (List.length (w_sizes w)) (snd ic)) u ->
    succeeds (max_sharpe sv'' rf w o) ->
    exists x, reports (max_sharpe sv'' rf w o) x /\
      (succeeds (efficient_return sv' (NFloat (inner m x)) mn w o) -> exists y, reports (efficient_return sv' (NFloat (inner m x)) mn w o) y /\ vol y = vol x) /\
      (0 < vol x -> succeeds (efficient_risk sv pinv (NFloat (vol x)) mn w o) -> exists y, reports (efficient_risk sv pinv (NFloat (vol x)) mn w o) y /\ inner m y = inner m x).
  Proof.
    intros rf Em C1 C2 S. unfold succeeds in S. destruct (max_sharpe sv'' rf w o) as [[w' o'] [d|e]] eqn:R; [|contradiction].
    destruct (max_sharpe_best sv'' w o u rf w' o' d E3 Hopen Hadd Hpsd C1 C2 R) as [m' [r [Em' [_ [s [rr [Er [F [_ [Ad [Pos M]]]]]]]]]]].
    rewrite Hmu in Em'. injection Em' as <-.
    assert (Hf : bounds_in_force mn o (e_lb o) (e_ub o)) by (right; split; [left; exact Em|split; reflexivity]).
    destruct (in_force_unique _ _ _ _ _ _ Hb Hf) as [EL EU]. rewrite <- EL, <- EU in Ad, M.
    set (x := s (e_w o)) in *. assert (Ax : A x) by (exists s; split; [rewrite Em; exact Ad|reflexivity]).
    assert (M' : forall y, A y -> excess m r y * vol x <= excess m r x * vol y).
    { intros y [s' [Ad' <-]]. rewrite Em in Ad'. apply M. exact Ad'. }
    clear M. unfold excess in *. exists x. split; [exists rr; auto|]. split; [intros S'|intros V S'].
    - destruct (ef_return_contract _ S') as [y [Ry [Ay [By My]]]]. exists y. split; [exact Ry|]. specialize (My x Ax (Rle_refl _)). specialize (M' y Ay).
      assert (P : 0 <= vol x) by apply sqrt_pos. apply Rle_antisym; [exact My|]. apply (Rmult_le_reg_l (inner m x - r)); [exact Pos|]. eapply Rle_trans; [|exact M']. apply Rmult_le_compat_r; [exact P|lra].
    - destruct (ef_risk_contract _ (sqrt_pos _) S') as [y [Ry [Ay [By My]]]]. exists y. split; [exact Ry|]. specialize (My x Ax (Rle_refl _)). specialize (M' y Ay).
      apply Rle_antisym; [|exact My]. assert (H : (inner m y - r) * vol x <= (inner m x - r) * vol x); [|apply Rmult_le_reg_r in H; [lra|exact V]].
      eapply Rle_trans; [exact M'|]. apply Rmult_le_compat_l; [lra|exact By].
  Qed.
End Frontier.

(** ** EfficientSemivariance, fully invested *)
Section Semi.
  Variables (w : world) (o : ef) (u : list (nat * con)) (d : semi) (m : list R).
  Hypothesis Hopen : open_ef w o u.
  Hypothesis Hready : semi_ready w o u d.
  Hypothesis Hu : Forall (fun ic => convex_con (w_sizes w) (par_values w) (snd ic)) u.
  Hypothesis Hadd : e_add o = [].
  Hypothesis Hmu : e_mu o = Some m.
  Hypothesis Hfreq : 0 < sd_freq d.
  Hypothesis Fv : fresh_name w o "target_semivariance".
  Hypothesis Fr : fresh_name w o "target_return".
  Hypothesis Fa : fresh_name w o "risk_aversion".
  Variables (sv sv' sv'' : solver_t).
  Hypothesis E1 : exact_solver sv.
  Hypothesis E2 : exact_solver sv'.
  Hypothesis E3 : exact_solver sv''.
  Let dev (x : list R) : R := sqrt (sd_freq d * semivariance (sd_returns d) (sd_bench d) x).
  Let A := portfolio w o u (e_lb o) (e_ub o) 1.
  Let Alen : forall x, A x -> List.length x = e_n o := portfolio_length w o u _ _ _ Hopen.
  Lemma semivariance_nonneg : forall rets b x, 0 <= semivariance rets b x.
  Proof.
    intros. unfold semivariance, Rdiv. apply Rmult_le_pos; [apply total_nonneg, Forall_map, Forall_forall; intros y _; nra|].
    destruct (List.length rets) as [|k]; [cbn [INR]; rewrite Rinv_0; lra|]. left. apply Rinv_0_lt_compat, lt_0_INR. lia.
  Qed.
  Lemma dev_mono : forall x y, semivariance (sd_returns d) (sd_bench d) x <= semivariance (sd_returns d) (sd_bench d) y <-> dev x <= dev y.
  Proof.
    intros x y. unfold dev. pose proof (semivariance_nonneg (sd_returns d) (sd_bench d) x). pose proof (semivariance_nonneg (sd_returns d) (sd_bench d) y). split; intros H'.
    - apply sqrt_le_1_alt. nra.
    - apply sqrt_le_0 in H'; nra.
  Qed.
  Let by_risk (t : R) := semi_efficient_risk sv d t false w o.
  Let by_ret (r : R) := semi_efficient_return sv' d (NFloat r) false w o.
  Lemma semi_risk_contract : forall t, 0 <= t -> succeeds (by_risk t) -> exists x, reports (by_risk t) x /\ best_ret A (inner m) dev t x.
  Proof.
    intros t Ht S. unfold reports, succeeds, by_risk in *. destruct (semi_efficient_risk sv d t false w o) as [[w' o'] [dd|e]] eqn:R; [|contradiction].
    destruct (semi_risk_long sv w o u d t m w' o' dd Hopen Hready E1 Hmu Fv (Rlt_le _ _ Hfreq) R) as [B _]. rewrite Rabs_pos_eq in B by exact Ht.
    destruct (best_is w o u _ _ _ Hadd _ _ _ _ B) as [x [r [Er [F [Px [Ok M]]]]]]. exists x. split; [exists r; auto|].
    split; [exact Px|]. split; [exact Ok|]. intros y Py Ry. assert (- inner m x <= - inner m y); [|lra]. apply M; [exact Py|exact Ry].
  Qed.
  Lemma semi_return_contract : forall r, succeeds (by_ret r) -> exists x, reports (by_ret r) x /\ best_risk A (inner m) dev r x.
  Proof.
    intros r S. unfold reports, succeeds, by_ret in *. destruct (semi_efficient_return sv' d (NFloat r) false w o) as [[w' o'] [dd|e]] eqn:R; [|contradiction].
    pose proof (semi_return_long sv' w o u d r m w' o' dd Hopen Hready E2 Hmu Fr R) as B.
    destruct (best_is w o u _ _ _ Hadd _ _ _ _ B) as [x [rr [Er [F [Px [Ok M]]]]]]. exists x. split; [exists rr; auto|].
    split; [exact Px|]. split; [exact Ok|]. intros y Py Ry. apply dev_mono. apply M; assumption.
  Qed.
  Theorem semi_laws : one_frontier by_risk by_ret (fun t => 0 <= t) (inner m) dev.
  Proof.
    apply (laws A (e_n o) m dev (fun t => 0 <= t)).
    - exact Alen.
    - intros x y k. apply portfolio_mix; assumption.
    - apply semideviation_convex. lra.
    - intros t t' k Ht Ht' Hk. nra.
    - intros; lra.
    - exact semi_risk_contract.
    - intros; apply sqrt_pos.
    - exact semi_return_contract.
  Qed.
  Theorem semi_min_starts : succeeds (min_semivariance sv'' d false w o) -> frontier_start (min_semivariance sv'' d false w o) by_risk by_ret (fun t => 0 <= t) (inner m) dev.
  Proof.
    intros S. unfold succeeds in S. destruct (min_semivariance sv'' d false w o) as [[w' o'] [dd|e]] eqn:R; [|contradiction].
    destruct (min_semi_long sv'' w o u d w' o' dd Hopen Hready E3 R) as [B _].
    destruct (best_is w o u _ _ _ Hadd _ _ _ _ B) as [x [rr [Er [F [Px [_ M]]]]]].
    apply (starts A m dev (fun t => 0 <= t) by_risk by_ret semi_risk_contract semi_return_contract _ x); [exists rr; auto|exact Px|]. intros y Py. apply dev_mono. apply M; [exact Py|exact I].
  Qed.
  Theorem semi_utility_on_frontier : forall k, 0 < k -> succeeds (semi_max_quadratic_utility sv'' d k false w o) ->
    on_frontier (semi_max_quadratic_utility sv'' d k false w o) by_risk by_ret (inner m) dev.
  Proof.
    intros k Hk S. unfold succeeds in S. destruct (semi_max_quadratic_utility sv'' d k false w o) as [[w' o'] [dd|e]] eqn:R; [|contradiction].
    pose proof (semi_utility_long sv'' w o u d k m w' o' dd Hopen Hready E3 Hmu Fa R) as B.
    destruct (best_is w o u _ _ _ Hadd _ _ _ _ B) as [x [rr [Er [F [Px [_ M]]]]]].
    assert (Hi : 0 < / sd_freq d) by (apply Rinv_0_lt_compat; exact Hfreq).
    apply (unbeaten A m dev (fun t => 0 <= t) by_risk by_ret semi_risk_contract (fun x _ _ => sqrt_pos _) semi_return_contract _ x); [exists rr; auto|exact Px| |].
    - intros y Py H. apply dev_mono. specialize (M y Py I). unfold Rdiv in M. nra.
    - intros y Py H. apply dev_mono in H. specialize (M y Py I). unfold Rdiv in M. nra.
  Qed.
End Semi.

(** ** EfficientCVaR *)
Section Tail.
  Variables (w : world) (o : ef) (u : list (nat * con)) (d : cvar_data) (m : list R) (mn : bool).
  Hypothesis Hopen : open_ef w o u.
  Hypothesis Hready : cvar_ready w o u d.
  Hypothesis Hu : Forall (fun ic => convex_con (w_sizes w) (par_values w) (snd ic)) u.
  Hypothesis Hadd : e_add o = [].
  Hypothesis Hmu : e_mu o = Some m.
  Hypothesis Fv : fresh_name w o "target_cvar".
  Hypothesis Fr : fresh_name w o "target_return".
  Variables (sv sv' sv'' : solver_t).
  Hypothesis E1 : exact_solver sv.
  Hypothesis E2 : exact_solver sv'.
  Hypothesis E3 : exact_solver sv''.
  Let risk := cvar (cv_beta d) (cv_returns d).
  Let by_risk (t : R) := cvar_efficient_risk sv d t mn w o.
  Let by_ret (r : R) := cvar_efficient_return sv' d r mn w o.
  Section Bounds.
    Variables (lb ub : list (option R)).
    Hypothesis Hb : bounds_in_force mn o lb ub.
    Let A := portfolio w o u lb ub (if mn then 0 else 1).
    Lemma cvar_risk_contract : forall t, True -> succeeds (by_risk t) -> exists x, reports (by_risk t) x /\ best_ret A (inner m) risk t x.
    Proof.
      intros t _ S. unfold reports, succeeds, by_risk in *. destruct (cvar_efficient_risk sv d t mn w o) as [[w' o'] [dd|e]] eqn:R; [|contradiction].
      destruct (cvar_risk_best w o u d Hopen Hready sv mn t m w' o' dd E1 Hmu Fv R) as [_ [lb' [ub' [s [Hb' [B _]]]]]]. destruct (in_force_unique _ _ _ _ _ _ Hb Hb') as [<- <-].
      destruct (best_is w o u _ _ _ Hadd _ _ _ _ (ex_intro _ s B)) as [x [r [Er [F [Px [Ok M]]]]]]. exists x. split; [exists r; auto|].
      split; [exact Px|]. split; [exact Ok|]. intros y Py Ry. assert (- inner m x <= - inner m y); [|lra]. apply M; [exact Py|exact Ry].
    Qed.
    Lemma cvar_return_contract : forall r, succeeds (by_ret r) -> exists x, reports (by_ret r) x /\ best_risk A (inner m) risk r x.
    Proof.
      intros r S. unfold reports, succeeds, by_ret in *. destruct (cvar_efficient_return sv' d r mn w o) as [[w' o'] [dd|e]] eqn:R; [|contradiction].
      destruct (cvar_return_best w o u d Hopen Hready sv' mn r m w' o' dd E2 Hmu Fr R) as [lb' [ub' [s [Hb' [B _]]]]]. destruct (in_force_unique _ _ _ _ _ _ Hb Hb') as [<- <-].
      destruct (best_is w o u _ _ _ Hadd _ _ _ _ (ex_intro _ s B)) as [x [rr [Er [F [Px [Ok M]]]]]]. exists x. split; [exists rr; auto|].
      split; [exact Px|]. split; [exact Ok|]. intros y Py Ry. apply M; assumption.
    Qed.
  End Bounds.
  Theorem cvar_laws : one_frontier by_risk by_ret (fun _ => True) (inner m) risk.
  Proof.
    destruct (in_force_exists mn o) as [lb [ub Hb]].
    apply (laws (portfolio w o u lb ub (if mn then 0 else 1)) (e_n o) m risk (fun _ => True)); auto.
    - apply portfolio_length. exact Hopen.
    - intros x y k. apply portfolio_mix; assumption.
    - destruct Hready as [[HT _] [Hbeta _]]. apply cvar_convex; assumption.
    - exact (cvar_risk_contract lb ub Hb).
    - exact (cvar_return_contract lb ub Hb).
  Qed.
  Theorem cvar_min_starts : succeeds (min_cvar sv'' d mn w o) -> frontier_start (min_cvar sv'' d mn w o) by_risk by_ret (fun _ => True) (inner m) risk.
  Proof.
    intros S. unfold succeeds in S. destruct (min_cvar sv'' d mn w o) as [[w' o'] [dd|e]] eqn:R; [|contradiction].
    destruct (min_cvar_best w o u d Hopen Hready sv'' mn w' o' dd E3 R) as [lb [ub [s [Hb [B _]]]]].
    destruct (best_is w o u _ _ _ Hadd _ _ _ _ (ex_intro _ s B)) as [x [rr [Er [F [Px [_ M]]]]]].
    apply (starts _ m risk (fun _ => True) by_risk by_ret (cvar_risk_contract lb ub Hb) (cvar_return_contract lb ub Hb) _ x); [exists rr; auto|exact Px|]. intros y Py. apply M; [exact Py|exact I].
  Qed.
End Tail.

(** ** EfficientCDaR *)
Section Draw.
  Variables (w : world) (o : ef) (u : list (nat * con)) (d : cdar_data) (m : list R) (mn : bool).
  Hypothesis Hopen : open_ef w o u.
  Hypothesis Hready : cdar_ready w o u d.
  Hypothesis Hu : Forall (fun ic => convex_con (w_sizes w) (par_values w) (snd ic)) u.
  Hypothesis Hadd : e_add o = [].
  Hypothesis Hmu : e_mu o = Some m.
  Hypothesis Fv : fresh_name w o "target_cdar".
  Hypothesis Fr : fresh_name w o "target_return".
  Variables (sv sv' sv'' : solver_t).
  Hypothesis E1 : exact_solver sv.
  Hypothesis E2 : exact_solver sv'.
  Hypothesis E3 : exact_solver sv''.
  Let risk := cdar (cd_beta d) (cd_returns d).
  Let by_risk (t : R) := cdar_efficient_risk sv d t mn w o.
  Let by_ret (r : R) := cdar_efficient_return sv' d r mn w o.
  Section Bounds.
    Variables (lb ub : list (option R)).
    Hypothesis Hb : bounds_in_force mn o lb ub.
    Let A := portfolio w o u lb ub (if mn then 0 else 1).
    Lemma cdar_risk_contract : forall t, True -> succeeds (by_risk t) -> exists x, reports (by_risk t) x /\ best_ret A (inner m) risk t x.
    Proof.
      intros t _ S. unfold reports, succeeds, by_risk in *. destruct (cdar_efficient_risk sv d t mn w o) as [[w' o'] [dd|e]] eqn:R; [|contradiction].
      destruct (cdar_risk_best w o u d Hopen Hready sv mn t m w' o' dd E1 Hmu Fv R) as [_ [lb' [ub' [s [Hb' [B _]]]]]]. destruct (in_force_unique _ _ _ _ _ _ Hb Hb') as [<- <-].
      destruct (best_is w o u _ _ _ Hadd _ _ _ _ (ex_intro _ s B)) as [x [r [Er [F [Px [Ok M]]]]]]. exists x. split; [exists r; auto|].
      split; [exact Px|]. split; [exact Ok|]. intros y Py Ry. assert (- inner m x <= - inner m y); [|lra]. apply M; [exact Py|exact Ry].
    Qed.
    Lemma cdar_return_contract : forall r, succeeds (by_ret r) -> exists x, reports (by_ret r) x /\ best_risk A (inner m) risk r x.
    Proof.
      intros r S. unfold reports, succeeds, by_ret in *. destruct (cdar_efficient_return sv' d r mn w o) as [[w' o'] [dd|e]] eqn:R; [|contradiction].
      destruct (cdar_return_best w o u d Hopen Hready sv' mn r m w' o' dd E2 Hmu Fr R) as [_ [lb' [ub' [s [Hb' [B _]]]]]]. destruct (in_force_unique _ _ _ _ _ _ Hb Hb') as [<- <-].
      destruct (best_is w o u _ _ _ Hadd _ _ _ _ (ex_intro _ s B)) as [x [rr [Er [F [Px [Ok M]]]]]]. exists x. split; [exists rr; auto|].
      split; [exact Px|]. split; [exact Ok|]. intros y Py Ry. apply M; assumption.
    Qed.
  End Bounds.
  Theorem cdar_laws : one_frontier by_risk by_ret (fun _ => True) (inner m) risk.
  Proof.
    destruct (in_force_exists mn o) as [lb [ub Hb]].
    apply (laws (portfolio w o u lb ub (if mn then 0 else 1)) (e_n o) m risk (fun _ => True)); auto.
    - apply portfolio_length. exact Hopen.
    - intros x y k. apply portfolio_mix; assumption.
    - destruct Hready as [[HT _] [Hbeta _]]. apply cdar_convex; assumption.
    - exact (cdar_risk_contract lb ub Hb).
    - exact (cdar_return_contract lb ub Hb).
  Qed.
  Theorem cdar_min_starts : succeeds (min_cdar sv'' d mn w o) -> frontier_start (min_cdar sv'' d mn w o) by_risk by_ret (fun _ => True) (inner m) risk.
  Proof.
    intros S. unfold succeeds in S. destruct (min_cdar sv'' d mn w o) as [[w' o'] [dd|e]] eqn:R; [|contradiction].
    destruct (min_cdar_best w o u d Hopen Hready sv'' mn w' o' dd E3 R) as [lb [ub [s [Hb [B _]]]]].
    destruct (best_is w o u _ _ _ Hadd _ _ _ _ (ex_intro _ s B)) as [x [rr [Er [F [Px [_ M]]]]]].
    apply (starts _ m risk (fun _ => True) by_risk by_ret (cdar_risk_contract lb ub Hb) (cdar_return_contract lb ub Hb) _ x); [exists rr; auto|exact Px|]. intros y Py. apply M; [exact Py|exact I].
  Qed.
End Draw.

(** ** EfficientFrontier, bounds resolved *)
Theorem ef_laws : forall w o u mn m, open_ef w o u -> Forall (fun ic => convex_con (w_sizes w) (par_values w) (snd ic)) u -> e_add o = [] -> e_mu o = Some m ->
  psd (e_n o) (e_cov o) -> fresh_name w o "target_variance" -> fresh_name w o "target_return" ->
  forall sv sv' pinv, exact_solver sv -> exact_solver sv' ->
  one_frontier (fun t => efficient_risk sv pinv (NFloat t) mn w o) (fun r => efficient_return sv' (NFloat r) mn w o)
    (fun t => 0 <= t) (inner m) (fun x => sqrt (qform (e_cov o) x)).
Proof.
  intros w o u mn m Ho Hu Ha Hm Hp Fv Fr sv sv' pinv E1 E2. destruct (in_force_exists mn o) as [lb [ub Hb]]. exact (ef_laws_at w o u mn m Ho Hu Ha Hm Hp Fv Fr sv sv' pinv E1 E2 lb ub Hb).
Qed.
Theorem ef_utility_on_frontier : forall w o u mn m, open_ef w o u -> e_add o = [] -> e_mu o = Some m ->
  psd (e_n o) (e_cov o) -> fresh_name w o "target_variance" -> fresh_name w o "target_return" -> fresh_name w o "risk_aversion" ->
  forall sv sv' sv'' pinv ra, exact_solver sv -> exact_solver sv' -> exact_solver sv'' -> succeeds (max_quadratic_utility sv'' ra mn w o) ->
  on_frontier (max_quadratic_utility sv'' ra mn w o) (fun t => efficient_risk sv pinv (NFloat t) mn w o) (fun r => efficient_return sv' (NFloat r) mn w o)
    (inner m) (fun x => sqrt (qform (e_cov o) x)).
Proof.
  intros w o u mn m Ho Ha Hm Hp Fv Fr Fa sv sv' sv'' pinv ra E1 E2 E3. destruct (in_force_exists mn o) as [lb [ub Hb]].
  exact (utility_on_frontier_at w o u mn m Ho Ha Hm Hp Fv Fr Fa sv sv' sv'' pinv E1 E2 E3 lb ub Hb ra).
Qed.
Theorem ef_min_starts : forall w o u m, open_ef w o u -> e_add o = [] -> e_mu o = Some m ->
  psd (e_n o) (e_cov o) -> fresh_name w o "target_variance" -> fresh_name w o "target_return" ->
  forall sv sv' sv'' pinv, exact_solver sv -> exact_solver sv' -> exact_solver sv'' -> succeeds (min_volatility sv'' w o) ->
  frontier_start (min_volatility sv'' w o) (fun t => efficient_risk sv pinv (NFloat t) false w o) (fun r => efficient_return sv' (NFloat r) false w o)
    (fun t => 0 <= t) (inner m) (fun x => sqrt (qform (e_cov o) x)).
Proof.
  intros w o u m Ho Ha Hm Hp Fv Fr sv sv' sv'' pinv E1 E2 E3. destruct (in_force_exists false o) as [lb [ub Hb]].
  exact (min_volatility_starts_at w o u false m Ho Ha Hm Hp Fv Fr sv sv' sv'' pinv E1 E2 E3 lb ub Hb eq_refl).
Qed.
Theorem ef_sharpe_on_frontier : forall w o u m, open_ef w o u -> e_add o = [] -> e_mu o = Some m ->
  psd (e_n o) (e_cov o) -> fresh_name w o "target_variance" -> fresh_name w o "target_return" ->
  Forall (fun ic => constant_on_one_side (e_w o) (snd ic)) u -> Forall (fun ic => known_vars (List.length (w_sizes w)) (snd ic)) u ->
  forall sv sv' sv'' pinv rf, exact_solver sv -> exact_solver sv' -> exact_solver sv'' -> succeeds (max_sharpe sv'' rf w o) ->
  let vol x := sqrt (qform (e_cov o) x) in
  exists x, reports (max_sharpe sv'' rf w o) x /\
    (succeeds (efficient_return sv' (NFloat (inner m x)) false w o) -> exists y, reports (efficient_return sv' (NFloat (inner m x)) false w o) y /\ vol y = vol x) /\
    (0 < vol x -> succeeds (efficient_risk sv pinv (NFloat (vol x)) false w o) -> exists y, reports (efficient_risk sv pinv (NFloat (vol x)) false w o) y /\ inner m y = inner m x).
Proof.
  intros w o u m Ho Ha Hm Hp Fv Fr C1 C2 sv sv' sv'' pinv rf E1 E2 E3 S. destruct (in_force_exists false o) as [lb [ub Hb]].
  exact (max_sharpe_on_frontier_at w o u false m Ho Ha Hm Hp Fv Fr sv sv' sv'' pinv E1 E2 E3 lb ub Hb rf eq_refl C1 C2 S).
Qed.
