(** * Objective functions (C76, C77) *)
From Coq Require Import List Reals Lra Lia Arith Bool.
From Verif Require Import Num Py RBase MBase MConvex MEF SLin SHRP SObj Sums Mat PBase.
Import ListNotations.
Local Open Scope R_scope.

Lemma blend_length : forall t x y, length x = length y -> length (blend t x y) = length x.
Proof. induction x as [|a x IH]; intros [|b y] H; try discriminate; [reflexivity|]. cbn. f_equal. apply IH. cbn in H. lia. Qed.
Lemma blend_nth : forall t x y i, length x = length y -> nth i (blend t x y) 0 = (1 - t) * nth i x 0 + t * nth i y 0.
Proof.
  induction x as [|a x IH]; intros [|b y] i H; try discriminate; [destruct i; cbn; ring|]. destruct i; cbn; [reflexivity|]. apply IH. cbn in H. lia.
Qed.
Lemma differences_length : forall x y, length x = length y -> length (differences x y) = length x.
Proof. induction x as [|a x IH]; intros [|b y] H; try discriminate; [reflexivity|]. cbn. f_equal. apply IH. cbn in H. lia. Qed.
Lemma differences_nth : forall x y i, length x = length y -> nth i (differences x y) 0 = nth i x 0 - nth i y 0.
Proof.
  induction x as [|a x IH]; intros [|b y] i H; try discriminate; [destruct i; cbn; ring|]. destruct i; cbn; [reflexivity|]. apply IH. cbn in H. lia.
Qed.
Lemma differences_blend : forall t x y b, length x = length b -> length y = length b -> differences (blend t x y) b = blend t (differences x b) (differences y b).
Proof.
  intros t x y b Hx Hy. assert (E : length (blend t x y) = length b) by (rewrite blend_length; congruence).
  apply (nth_ext _ _ 0 0).
  - rewrite differences_length by exact E. rewrite (blend_length t (differences x b)) by (rewrite !differences_length by assumption; congruence). rewrite differences_length by exact Hx. congruence.
  - intros i _. rewrite differences_nth by exact E. rewrite !blend_nth by (rewrite ?differences_length by assumption; congruence). rewrite !differences_nth by assumption. ring.
Qed.
Lemma bop_minus : forall x b, length x = length b -> bop Rplus x (map Ropp b) = differences x b.
Proof.
  intros x b H. unfold bop. destruct x as [|a [|a' x]]; destruct b as [|c [|c' b]]; try discriminate H; try reflexivity.
  cbn [map]. cbn. f_equal. f_equal. cbn in H. injection H as H. clear -H. revert b H. induction x as [|a x IH]; intros [|b l] H; try discriminate; [reflexivity|]. cbn. f_equal. apply IH. cbn in H. lia.
Qed.
Lemma bop_scalar_r : forall f x c, bop f x [c] = map (fun a => f a c) x.
Proof. intros f [|a [|]] c; reflexivity. Qed.

(** ** Values *)
Section Values.
  Variables (s : env) (ps : list R) (we : expr) (w : list R).
  Hypothesis Hw : eval s ps we = w.
  Lemma variance_value : forall cov, evals s ps (portfolio_variance_e we cov) = qform cov w.
  Proof. intros. unfold evals, portfolio_variance_e. cbn. rewrite Hw. apply quad_qform. Qed.
  Lemma return_value : forall mu neg, evals s ps (portfolio_return_e we mu neg) = (if neg then -1 else 1) * inner mu w.
  Proof. intros. unfold evals, portfolio_return_e. cbn. rewrite Hw, dot_inner. reflexivity. Qed.
  Lemma L2_value : forall gamma, evals s ps (L2_reg_e we gamma) = gamma * inner w w.
  Proof.
    intros. unfold evals, L2_reg_e. cbn [eval EScalar bop scalar hd map]. rewrite Hw, vsum_total. f_equal. clear. induction w as [|a l IH]; [reflexivity|]. cbn. rewrite IH. reflexivity.
  Qed.
  Lemma utility_value : forall mu cov p neg, evals s ps (quadratic_utility_e we mu cov p neg) = (if neg then -1 else 1) * (inner mu w - 1 / 2 * nth p ps 0 * qform cov w).
  Proof. intros. unfold evals, quadratic_utility_e, ESub. cbn. rewrite Hw, dot_inner, quad_qform. unfold sign_of. destruct neg; ring. Qed.
  Lemma cost_value : forall prev k, length prev = length w -> evals s ps (transaction_cost_e we prev k) = k * total (map Rabs (differences w prev)).
  Proof.
    intros prev k HL. unfold evals, transaction_cost_e, ESub. cbn [eval EScalar bop scalar hd map]. rewrite Hw, vsum_total. rewrite bop_minus by congruence. reflexivity.
  Qed.
  Lemma ex_ante_value : forall cov b, length b = length w -> evals s ps (ex_ante_tracking_error_e we cov b) = qform cov (differences w b).
  Proof. intros cov b HL. unfold evals, ex_ante_tracking_error_e, ESub. cbn [eval scalar hd]. rewrite Hw, bop_minus by congruence. apply quad_qform. Qed.
  Lemma ex_post_value : forall hist b, length hist = length b -> (0 < length b)%nat ->
    evals s ps (ex_post_tracking_error_e we hist b) = INR (length b) * variance_of (excess_series hist b w).
  Proof.
    intros hist b HL Hb. unfold evals, ex_post_tracking_error_e, ESub. cbv zeta. cbn [eval EScalar scalar hd]. rewrite Hw, matvec_inner.
    rewrite (bop_minus (map (fun row => inner row w) hist) b) by (rewrite map_length; exact HL). fold (excess_series hist b w). set (x := excess_series hist b w).
    assert (Lx : length x = length b) by (unfold x, excess_series; rewrite differences_length; rewrite map_length; exact HL).
    cbn [bop map]. rewrite bop_scalar_r. rewrite !vsum_total. rewrite map_map.
    assert (EA : total x * / INR (length b) = average x) by (unfold average; rewrite Lx; reflexivity). rewrite EA.
    unfold variance_of. generalize (average x). intros m. unfold average. rewrite map_length, Lx. field_simplify; [|apply not_0_INR; lia]. f_equal. apply map_ext. intros a. ring.
  Qed.
End Values.

(** ** Convexity *)
Lemma qform_blend : forall n M x y t, square n M -> length x = n -> length y = n ->
  qform M (blend t x y) = (1 - t) * qform M x + t * qform M y - t * (1 - t) * qform M (differences x y).
Proof.
  intros n M x y t HM Hx Hy. assert (E : length x = length y) by congruence.
  rewrite !(qform_bil n) by (auto; rewrite ?blend_length, ?differences_length; congruence).
  assert (E1 : bil n (entry M) (vec (blend t x y)) (vec (blend t x y)) = bil n (entry M) (fun i => (1 - t) * vec x i + t * vec y i) (fun i => (1 - t) * vec x i + t * vec y i)).
  { apply bil_ext; intros i _; apply blend_nth; exact E. }
  assert (E2 : bil n (entry M) (vec (differences x y)) (vec (differences x y)) = bil n (entry M) (fun i => vec x i + -1 * vec y i) (fun i => vec x i + -1 * vec y i)).
  { apply bil_ext; intros i _; unfold vec; rewrite differences_nth by exact E; ring. }
  rewrite E1, E2. rewrite !bil_plus_l, !bil_plus_r, !bil_scal_l, !bil_scal_r. ring.
Qed.
Lemma qform_convex : forall n M, psd n M -> convex_on n (qform M).
Proof.
  intros n M [HM Hp] x y t Hx Hy Ht. rewrite (qform_blend n) by assumption. assert (0 <= qform M (differences x y)) by (apply Hp; rewrite differences_length; congruence).
  assert (0 <= t * (1 - t)) by (apply Rmult_le_pos; lra). assert (0 <= t * (1 - t) * qform M (differences x y)) by (apply Rmult_le_pos; assumption). lra.
Qed.
Lemma inner_blend : forall m t x y, length x = length y -> inner m (blend t x y) = (1 - t) * inner m x + t * inner m y.
Proof.
  induction m as [|a m IH]; intros t [|b x] [|c y] H; try discriminate; cbn; try ring. rewrite IH by (cbn in H; lia). ring.
Qed.
Lemma inner_self_nonneg : forall x, 0 <= inner x x.
Proof. induction x as [|a x IH]; cbn; [lra|]. assert (0 <= a * a) by apply Rle_0_sqr. lra. Qed.
Lemma inner_self_convex : forall x y t, length x = length y -> 0 <= t <= 1 -> inner (blend t x y) (blend t x y) <= (1 - t) * inner x x + t * inner y y.
Proof.
  induction x as [|a x IH]; intros [|b y] t H Ht; try discriminate; cbn; [lra|]. specialize (IH y t ltac:(cbn in H; lia) Ht).
  assert (0 <= t * (1 - t) * ((a - b) * (a - b))) by (apply Rmult_le_pos; [apply Rmult_le_pos; lra|apply Rle_0_sqr]). nra.
Qed.
Lemma abs_convex : forall x y t, length x = length y -> 0 <= t <= 1 -> total (map Rabs (blend t x y)) <= (1 - t) * total (map Rabs x) + t * total (map Rabs y).
Proof.
  induction x as [|a x IH]; intros [|b y] t H Ht; try discriminate; cbn; [lra|]. specialize (IH y t ltac:(cbn in H; lia) Ht).
  pose proof (Rabs_triang ((1 - t) * a) (t * b)) as T. rewrite !Rabs_mult in T. rewrite (Rabs_pos_eq (1 - t)), (Rabs_pos_eq t) in T by lra. lra.
Qed.
Lemma abs_nonneg : forall x, 0 <= total (map Rabs x).
Proof. induction x as [|a x IH]; cbn; [lra|]. pose proof (Rabs_pos a). lra. Qed.
(** the sum of squared deviations as a quadratic function of the series *)
Definition deviation (l : list R) : list R := map (fun x => x - average l) l.
Lemma variance_deviation : forall l, (0 < length l)%nat -> INR (length l) * variance_of l = inner (deviation l) (deviation l).
Proof.
  intros l Hl. unfold variance_of, deviation. generalize (average l). intros m. unfold average. rewrite map_length. field_simplify; [|apply not_0_INR; lia].
  clear Hl. induction l as [|a l IH]; [reflexivity|]. cbn [map total inner]. rewrite IH. ring.
Qed.
Lemma total_blend : forall t x y, length x = length y -> total (blend t x y) = (1 - t) * total x + t * total y.
Proof. induction x as [|a x IH]; intros [|b y] H; try discriminate; cbn; [ring|]. rewrite IH by (cbn in H; lia). ring. Qed.
Lemma deviation_blend : forall t x y, length x = length y -> deviation (blend t x y) = blend t (deviation x) (deviation y).
Proof.
  intros t x y H. assert (EA : average (blend t x y) = (1 - t) * average x + t * average y).
  { unfold average. rewrite total_blend, blend_length by exact H. rewrite <- H. unfold Rdiv. ring. }
  unfold deviation. rewrite EA. generalize (average x), (average y). intros m p. clear EA. revert y H. induction x as [|a x IH]; intros [|b y] H; try discriminate; [reflexivity|].
  cbn [blend map]. rewrite IH by (cbn in H; lia). f_equal. ring.
Qed.
Lemma mat_blend : forall (hist : list (list R)) t x y, length x = length y -> map (fun row => inner row (blend t x y)) hist = blend t (map (fun row => inner row x) hist) (map (fun row => inner row y) hist).
Proof. induction hist as [|r hist IH]; intros t x y H; [reflexivity|]. cbn. rewrite IH by exact H. rewrite inner_blend by exact H. reflexivity. Qed.

(** an objective as a function of the weights, whatever the expression holding them *)
Theorem variance_convex : forall n cov ps, psd n cov -> let f := as_function ps (fun w => portfolio_variance_e w cov) in convex_on n f /\ nonneg_on n f.
Proof.
  intros n cov ps Hp f. unfold f, as_function. split.
  - intros x y t Hx Hy Ht. rewrite !(variance_value _ _ _ _ eq_refl). cbn [eval]. apply (qform_convex n cov Hp); assumption.
  - intros x Hx. rewrite (variance_value _ _ _ _ eq_refl). apply Hp. exact Hx.
Qed.
Theorem L2_convex : forall n gamma ps, 0 <= gamma -> let f := as_function ps (fun w => L2_reg_e w gamma) in convex_on n f /\ nonneg_on n f.
Proof.
  intros n g ps Hg f. unfold f, as_function. split.
  - intros x y t Hx Hy Ht. rewrite !(L2_value _ _ _ _ eq_refl). cbn [eval]. pose proof (inner_self_convex x y t ltac:(congruence) Ht). apply Rmult_le_compat_l with (r := g) in H; [|exact Hg]. lra.
  - intros x Hx. rewrite (L2_value _ _ _ _ eq_refl). apply Rmult_le_pos; [exact Hg|apply inner_self_nonneg].
Qed.
Theorem utility_concave : forall n mu cov ps p, psd n cov -> 0 <= nth p ps 0 ->
  concave_on n (as_function ps (fun w => quadratic_utility_e w mu cov p false)) /\
  convex_on n (as_function ps (fun w => quadratic_utility_e w mu cov p true)).
Proof.
  intros n mu cov ps p Hp Hd.
  assert (G : convex_on n (fun x => - inner mu x + 1 / 2 * nth p ps 0 * qform cov x)).
  { intros x y t Hx Hy Ht. rewrite inner_blend by congruence. pose proof (qform_convex n cov Hp x y t Hx Hy Ht) as H. apply Rmult_le_compat_l with (r := 1 / 2 * nth p ps 0) in H; [|lra]. lra. }
  unfold as_function. split; intros x y t Hx Hy Ht; rewrite !(utility_value _ _ _ _ eq_refl); cbn [eval]; pose proof (G x y t Hx Hy Ht); lra.
Qed.
Theorem cost_convex : forall n prev k ps, 0 <= k -> length prev = n -> let f := as_function ps (fun w => transaction_cost_e w prev k) in convex_on n f /\ nonneg_on n f.
Proof.
  intros n prev k ps Hk HL f. unfold f, as_function. split.
  - intros x y t Hx Hy Ht. rewrite !(cost_value _ _ _ _ eq_refl) by (cbn [eval]; rewrite ?blend_length; congruence). cbn [eval].
    rewrite differences_blend by congruence. assert (E : length (differences x prev) = length (differences y prev)) by (rewrite !differences_length; congruence).
    pose proof (abs_convex _ _ t E Ht) as H. apply Rmult_le_compat_l with (r := k) in H; [|exact Hk]. lra.
  - intros x Hx. rewrite (cost_value _ _ _ _ eq_refl) by (cbn [eval]; congruence). apply Rmult_le_pos; [exact Hk|apply abs_nonneg].
Qed.
Theorem ex_ante_convex : forall n cov b ps, psd n cov -> length b = n -> let f := as_function ps (fun w => ex_ante_tracking_error_e w cov b) in convex_on n f /\ nonneg_on n f.
Proof.
  intros n cov b ps Hp HL f. unfold f, as_function. split.
  - intros x y t Hx Hy Ht. rewrite !(ex_ante_value _ _ _ _ eq_refl) by (cbn [eval]; rewrite ?blend_length; congruence). cbn [eval].
    rewrite differences_blend by congruence. apply (qform_convex n cov Hp); try exact Ht; rewrite differences_length; congruence.
  - intros x Hx. rewrite (ex_ante_value _ _ _ _ eq_refl) by (cbn [eval]; congruence). apply Hp. rewrite differences_length; cbn [eval]; congruence.
Qed.
Theorem ex_post_convex : forall n hist b ps, length hist = length b -> (0 < length b)%nat -> let f := as_function ps (fun w => ex_post_tracking_error_e w hist b) in convex_on n f /\ nonneg_on n f.
Proof.
  intros n hist b ps HL Hb f. unfold f, as_function.
  assert (G : forall x, evals (fun _ => []) ps (ex_post_tracking_error_e (EConst x) hist b) = inner (deviation (excess_series hist b x)) (deviation (excess_series hist b x))).
  { intros x. rewrite (ex_post_value _ _ _ _ eq_refl) by assumption. cbn [eval]. assert (E : length (excess_series hist b x) = length b) by (unfold excess_series; rewrite differences_length; rewrite map_length; exact HL).
    rewrite <- E. apply variance_deviation. lia. }
  split; [|intros x Hx; rewrite G; apply inner_self_nonneg]. intros x y t Hx Hy Ht. rewrite !G.
  assert (E : excess_series hist b (blend t x y) = blend t (excess_series hist b x) (excess_series hist b y)).
  { unfold excess_series. rewrite mat_blend by congruence. apply differences_blend; rewrite map_length; exact HL. }
  assert (EL : length (excess_series hist b x) = length (excess_series hist b y)) by (unfold excess_series; rewrite !differences_length; rewrite !map_length; congruence).
  rewrite E, deviation_blend by exact EL. apply inner_self_convex; [unfold deviation; rewrite !map_length; exact EL|exact Ht].
Qed.
(** the sign makes minimisation mean maximisation of return and utility *)
Theorem signs : forall mu cov ps p x,
  as_function ps (fun w => portfolio_return_e w mu true) x = - as_function ps (fun w => portfolio_return_e w mu false) x /\
  as_function ps (fun w => portfolio_return_e w mu false) x = inner mu x /\
  as_function ps (fun w => quadratic_utility_e w mu cov p true) x = - as_function ps (fun w => quadratic_utility_e w mu cov p false) x /\
  as_function ps (fun w => quadratic_utility_e w mu cov p false) x = inner mu x - 1 / 2 * nth p ps 0 * qform cov x.
Proof. intros. unfold as_function. rewrite !(return_value _ _ _ _ eq_refl), !(utility_value _ _ _ _ eq_refl). cbn [eval]. repeat split; ring. Qed.

(** ** C77 *)
Theorem ex_post_value_function : forall hist b ps w, length hist = length b -> (0 < length b)%nat ->
  as_function ps (fun x => ex_post_tracking_error_e x hist b) w = INR (length b) * variance_of (excess_series hist b w).
Proof. intros. unfold as_function. rewrite (ex_post_value _ _ _ _ eq_refl) by assumption. reflexivity. Qed.
Lemma differences_shift : forall c x b, differences x (map (fun r => r + c) b) = map (fun d => d - c) (differences x b).
Proof. induction x as [|a x IH]; intros [|r b]; try reflexivity. cbn. rewrite IH. f_equal. ring. Qed.
Theorem ex_post_shift : forall hist b ps w c, length hist = length b -> (0 < length b)%nat ->
  as_function ps (fun x => ex_post_tracking_error_e x hist (map (fun r => r + c) b)) w = as_function ps (fun x => ex_post_tracking_error_e x hist b) w.
Proof.
  intros hist b ps w c HL Hb. rewrite !ex_post_value_function by (rewrite ?map_length; assumption). rewrite map_length.
  unfold excess_series. rewrite differences_shift. set (x := differences (map (fun row => inner row w) hist) b).
  assert (Lx : length x = length b) by (unfold x; rewrite differences_length; rewrite map_length; exact HL). f_equal.
  assert (EA : average (map (fun d => d - c) x) = average x - c).
  { unfold average. rewrite map_length. assert (ET : total (map (fun d => d - c) x) = total x - INR (length x) * c).
    { clear. induction x as [|a x IH]; [cbn; ring|]. cbn [map total]. rewrite IH. change (length (a :: x)) with (S (length x)). rewrite S_INR. ring. }
    rewrite ET. field. apply not_0_INR. lia. }
  unfold variance_of. rewrite EA. rewrite map_map. f_equal. apply map_ext. intros a. ring.
Qed.
(** ** Values for any expression holding the weights, so also for a variable *)
Theorem values : forall s ps we w, eval s ps we = w ->
  (forall cov, evals s ps (portfolio_variance_e we cov) = qform cov w) /\
  (forall gamma, evals s ps (L2_reg_e we gamma) = gamma * inner w w) /\
  (forall prev k, length prev = length w -> evals s ps (transaction_cost_e we prev k) = k * total (map Rabs (differences w prev))) /\
  (forall cov b, length b = length w -> evals s ps (ex_ante_tracking_error_e we cov b) = qform cov (differences w b)).
Proof.
  intros s ps we w H. repeat split; intros; [eapply variance_value|eapply L2_value|eapply cost_value|eapply ex_ante_value]; try exact H; assumption.
Qed.
(** ** Scaling laws of the Sharpe ratio *)
Theorem sharpe_leverage : forall w mu m neg c, 0 < c -> sharpe_ratio (vscale c w) mu m 0 neg = sharpe_ratio w mu m 0 neg.
Proof.
  intros w mu m neg c Hc. unfold sharpe_ratio, portfolio_variance. rewrite vscale_length. destruct (length w =? length mu)%nat; [|reflexivity].
  destruct (_ && _); [|reflexivity]. cbn [rbind]. rewrite !quad_qform, !dot_inner, qform_scale, inner_scale_l.
  assert (Hcc : 0 < c * c) by (apply Rmult_lt_0_compat; exact Hc).
  destruct (Rleb (qform m w) 0) eqn:E.
  - apply Rleb_true in E. rewrite (proj2 (Rleb_true (c * c * qform m w) 0)); [reflexivity|]. assert (0 <= c * c * - qform m w) by (apply Rmult_le_pos; lra). lra.
  - apply Rleb_false in E. assert (0 < c * c * qform m w) by (apply Rmult_lt_0_compat; assumption). rewrite (proj2 (Rleb_false _ 0)) by assumption. f_equal. f_equal.
    rewrite sqrt_mult by lra. rewrite sqrt_square by lra. assert (0 < sqrt (qform m w)) by (apply sqrt_lt_R0; exact E). field. split; lra.
Qed.
Lemma qform_matrix_scale : forall c M x, qform (map (vscale c) M) x = c * qform M x.
Proof.
  intros c M x. unfold qform. rewrite map_map.
  replace (map (fun r => inner (vscale c r) x) M) with (vscale c (map (fun row => inner row x) M)); [apply inner_scale_r|].
  unfold vscale. rewrite map_map. apply map_ext. intros r. symmetry. apply inner_scale_l.
Qed.
(** returns, covariances and the risk free rate over a horizon [f] times as long: the ratio grows with sqrt f *)
Theorem sharpe_horizon : forall w mu m rf neg f s, 0 < f -> sharpe_ratio w mu m rf neg = Ok s ->
  sharpe_ratio w (vscale f mu) (map (vscale f) m) (f * rf) neg = Ok (sqrt f * s).
Proof.
  intros w mu m rf neg f s Hf H. unfold sharpe_ratio, portfolio_variance in *. rewrite vscale_length. destruct (length w =? length mu)%nat; [|discriminate H].
  match type of H with (do _ <- if ?b then _ else _; _) = _ => destruct b eqn:B; [|discriminate H] end.
  match goal with |- (do _ <- if ?b then _ else _; _) = _ => replace b with true end.
  2: { symmetry. apply andb_true_iff in B. destruct B as [B1 B2]. apply andb_true_iff. rewrite map_length. split; [exact B1|].
       rewrite forallb_forall in *. intros r Hr. apply in_map_iff in Hr. destruct Hr as [r0 [<- Hr]]. rewrite vscale_length. apply B2. exact Hr. }
  cbn [rbind] in *. rewrite !quad_qform, !dot_inner in *. rewrite qform_matrix_scale, inner_scale_r.
  destruct (Rleb (qform m w) 0) eqn:E; [discriminate H|]. apply Rleb_false in E. rewrite (proj2 (Rleb_false _ 0)) by (apply Rmult_lt_0_compat; assumption).
  f_equal. injection H as <-. rewrite sqrt_mult by lra.
  assert (0 < sqrt (qform m w)) by (apply sqrt_lt_R0; exact E). assert (0 < sqrt f) by (apply sqrt_lt_R0; exact Hf).
  replace (f * inner w mu - f * rf) with (sqrt f * sqrt f * (inner w mu - rf)) by (rewrite sqrt_sqrt by lra; ring). field. lra.
Qed.
(** nothing in the numerator but the return above the rate: more return or less variance is a better ratio *)
Theorem sharpe_order : forall w1 w2 mu m rf s1 s2, sharpe_ratio w1 mu m rf false = Ok s1 -> sharpe_ratio w2 mu m rf false = Ok s2 ->
  inner w2 mu <= inner w1 mu -> qform m w1 <= qform m w2 -> rf <= inner w1 mu -> s2 <= s1.
Proof.
  intros w1 w2 mu m rf s1 s2 H1 H2 Hm Hq Hr. unfold sharpe_ratio, portfolio_variance in *.
  destruct (length w1 =? length mu)%nat; [|discriminate H1]. destruct (length w2 =? length mu)%nat; [|discriminate H2].
  match type of H1 with (do _ <- if ?b then _ else _; _) = _ => destruct b; [|discriminate H1] end.
  match type of H2 with (do _ <- if ?b then _ else _; _) = _ => destruct b; [|discriminate H2] end.
  cbn [rbind] in *. rewrite !quad_qform, !dot_inner in *.
  destruct (Rleb (qform m w1) 0) eqn:E1; [discriminate H1|]. destruct (Rleb (qform m w2) 0) eqn:E2; [discriminate H2|].
  apply Rleb_false in E1. apply Rleb_false in E2. injection H1 as <-. injection H2 as <-.
  assert (S1 : 0 < sqrt (qform m w1)) by (apply sqrt_lt_R0; exact E1). assert (S2 : sqrt (qform m w1) <= sqrt (qform m w2)) by (apply sqrt_le_1; lra).
  rewrite !Rmult_1_l. apply Rle_trans with ((inner w1 mu - rf) / sqrt (qform m w2)).
  - unfold Rdiv. apply Rmult_le_compat_r; [left; apply Rinv_0_lt_compat; lra|lra].
  - unfold Rdiv. apply Rmult_le_compat_l; [lra|]. apply Rinv_le_contravar; assumption.
Qed.
