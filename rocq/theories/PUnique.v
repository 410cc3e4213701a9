(** * Answers that do not depend on the solver (C133) *)
From Coq Require Import ZArith List String Bool Reals Lra Lia.
From Verif Require Import Num Py RBase PyLemmas MBase MConvex MEF MDown SLin SBase SHRP SObj SConvex SDown SCurve SUnique Sums PBase PConvex PObj PRisk PEF PEF2 PEF3 PEF4 PEFW PDown2 PDown4 PDown5 PPerm2 PPerm4 PCurve PDown3 PDown6 PCurve2.
Import ListNotations.
Local Open Scope R_scope.

Lemma rounded_list_unique : forall x r r', Forall2 (rounded 16) x r -> Forall2 (rounded 16) x r' -> r = r'.
Proof.
  intros x r r' H. revert r'. induction H as [|a b x r Hab H IH]; intros r' H'; inversion H'; subst; [reflexivity|].
  f_equal; [eapply (rounded_unique 16); [lia|eassumption|eassumption]|apply IH; assumption].
Qed.

Section Unique.
  Variables (w : world) (o : ef) (u : list (nat * con)) (lb ub : list (option R)) (sum : R).
  Hypothesis Hp : convex_problem w o u.
  Lemma Hopen : open_ef w o u. Proof. exact (proj1 Hp). Qed.

  Lemma adm_length : forall s, admissible w o u lb ub sum s -> List.length (s (e_w o)) = e_n o.
  Proof. intros s [Hs _]. pose proof Hopen as [_ [_ [_ [_ [Hn _]]]]]. exact (sized_nth _ _ _ _ Hs Hn). Qed.
  Lemma adm_mix : forall s s' k, 0 <= k <= 1 -> admissible w o u lb ub sum s -> admissible w o u lb ub sum s' -> admissible w o u lb ub sum (mixed k s s').
  Proof.
    intros s s' k Hk A A'. pose proof (adm_length s A) as L. pose proof (adm_length s' A') as L'.
    destruct A as [Hs [Ws [Ts Us]]]. destruct A' as [Hs' [Ws' [Ts' Us']]]. split.
    { intros v Hv. unfold mixed. specialize (Hs v Hv). specialize (Hs' v Hv). rewrite blend_length; congruence. }
    split; [apply within_blend; assumption|]. split.
    { unfold mixed. rewrite total_blend by congruence. rewrite Ts, Ts'. ring. }
    pose proof Hp as [_ [Hu _]]. apply Forall_forall. intros ic Hic.
    exact (proj1 (Forall_forall _ _) Hu ic Hic s s' k Hk Hs Hs' (proj1 (Forall_forall _ _) Us ic Hic) (proj1 (Forall_forall _ _) Us' ic Hic)).
  Qed.
  Lemma penalty_mix : forall s s' k, 0 <= k <= 1 -> well_sized (w_sizes w) s -> well_sized (w_sizes w) s' ->
    penalty (mixed k s s') (par_values w) (e_add o) <= (1 - k) * penalty s (par_values w) (e_add o) + k * penalty s' (par_values w) (e_add o).
  Proof.
    intros s s' k Hk Hs Hs'. pose proof Hp as [_ [_ Ha]]. clear Hp. unfold penalty. induction Ha as [|e l He Hl IH]; cbn [map total]; [lra|].
    specialize (He s s' k Hk Hs Hs'). lra.
  Qed.
  Lemma penalty_strict : forall s s', regularised w o -> well_sized (w_sizes w) s -> well_sized (w_sizes w) s' -> s (e_w o) <> s' (e_w o) ->
    penalty (mixed (1/2) s s') (par_values w) (e_add o) < (penalty s (par_values w) (e_add o) + penalty s' (par_values w) (e_add o)) / 2.
  Proof.
    intros s s' Hr Hs Hs' Hne. pose proof Hp as [_ [_ Ha]]. clear Hp. unfold penalty, regularised in *.
    induction Hr as [e l He|e l Hl IH]; inversion Ha as [|? ? Ce Cl]; subst; cbn [map total].
    - destruct He as [_ He]. specialize (He s s' Hs Hs' Hne).
      assert (Hl : total (map (evals (mixed (1/2) s s') (par_values w)) l) <= (total (map (evals s (par_values w)) l) + total (map (evals s' (par_values w)) l)) / 2).
      { clear - Cl Hs Hs'. induction Cl as [|c l Hc Hl IH]; cbn [map total]; [lra|]. specialize (Hc s s' (1/2) ltac:(lra) Hs Hs'). lra. }
      lra.
    - specialize (IH Cl). specialize (Ce s s' (1/2) ltac:(lra) Hs Hs'). lra.
  Qed.

  (** a cost that decides between any two candidates *)
  Definition decides (cost : list R -> R) : Prop :=
    convex_on (e_n o) cost /\
    ((forall x y, List.length x = e_n o -> List.length y = e_n o -> x <> y -> cost (blend (1/2) x y) < (cost x + cost y) / 2) \/ regularised w o).
  Definition convex_set (ok : list R -> Prop) : Prop :=
    forall x y, List.length x = e_n o -> List.length y = e_n o -> ok x -> ok y -> ok (blend (1/2) x y).

  Lemma best_unique : forall ok cost ws ws' d d', convex_set ok -> decides cost ->
    best_portfolio w o u lb ub sum ok cost ws d -> best_portfolio w o u lb ub sum ok cost ws' d' -> d = d' /\ ws = ws'.
  Proof.
    intros ok cost ws ws' d d' Hok [Hc Hd] [s [r [E [F [D [Ad [Ok B]]]]]]] [s' [r' [E' [F' [D' [Ad' [Ok' B']]]]]]].
    pose proof (adm_length s Ad) as L. pose proof (adm_length s' Ad') as L'.
    assert (Hsame : s (e_w o) = s' (e_w o)).
    { destruct (list_eq_dec Req_EM_T (s (e_w o)) (s' (e_w o))) as [|Hne]; [assumption|exfalso].
      pose proof (adm_mix s s' (1/2) ltac:(lra) Ad Ad') as Am.
      assert (Om : ok (mixed (1/2) s s' (e_w o))) by (apply Hok; assumption).
      pose proof (B _ Am Om) as B1. pose proof (B' _ Am Om) as B2. 
      pose proof (Hc _ _ (1/2) L L' ltac:(lra)) as C1. pose proof (penalty_mix s s' (1/2) ltac:(lra) (proj1 Ad) (proj1 Ad')) as C2.
      unfold mixed at 1 in B1. unfold mixed at 1 in B2.
      destruct Hd as [Hd|Hd].
      - specialize (Hd _ _ L L' Hne). lra.
      - pose proof (penalty_strict s s' Hd (proj1 Ad) (proj1 Ad') Hne). lra. }
    rewrite <- Hsame in F'. pose proof (rounded_list_unique _ _ _ F F'). subst. split; reflexivity.
  Qed.
End Unique.

(** ** convexity of the costs and sets of the methods *)
Section Convexity.
  Variable n : nat.
  Lemma set_true : forall o, convex_set o (fun _ => True). Proof. intros o x y _ _ _ _. exact I. Qed.
  Lemma set_above : forall o m t, convex_set o (fun x => t <= inner m x).
  Proof. intros o m t x y Lx Ly Hx Hy. rewrite inner_blend by congruence. lra. Qed.
  Lemma set_below : forall o f t, convex_on (e_n o) f -> convex_set o (fun x => f x <= t).
  Proof. intros o f t Hf x y Lx Ly Hx Hy. pose proof (Hf x y (1/2) Lx Ly ltac:(lra)). lra. Qed.
  Lemma linear_convex : forall m, convex_on n (fun x => - inner m x).
  Proof. intros m x y t Lx Ly Ht. rewrite inner_blend by congruence. lra. Qed.
  Lemma semivariance_nonneg' : forall rets b x, 0 <= semivariance rets b x.
  Proof.
    intros rets b x. unfold semivariance. assert (H : 0 <= total (map (fun y => shortfall b y * shortfall b y) (period_returns rets x))).
    { induction (period_returns rets x) as [|y l IH]; cbn [map total]; [lra|]. pose proof (Rle_0_sqr (shortfall b y)) as S. unfold Rsqr in S. lra. }
    destruct (List.length rets) as [|T]; [cbn [INR]; unfold Rdiv; rewrite Rinv_0; lra|].
    apply Rmult_le_pos; [exact H|]. apply Rlt_le, Rinv_0_lt_compat. apply lt_0_INR. lia.
  Qed.
  Lemma semivariance_convex : forall rets b, convex_on n (semivariance rets b).
  Proof.
    intros rets b x y t Lx Ly Ht. pose proof (semideviation_convex n rets b 1 ltac:(lra) x y t Lx Ly Ht) as H. cbv beta in H. rewrite !Rmult_1_l in H.
    pose proof (semivariance_nonneg' rets b x) as Nx. pose proof (semivariance_nonneg' rets b y) as Ny. pose proof (semivariance_nonneg' rets b (blend t x y)) as Nz.
    rewrite <- (sqrt_sqrt _ Nx) at 1. rewrite <- (sqrt_sqrt _ Ny) at 1. rewrite <- (sqrt_sqrt _ Nz).
    pose proof (sqrt_pos (semivariance rets b x)). pose proof (sqrt_pos (semivariance rets b y)). pose proof (sqrt_pos (semivariance rets b (blend t x y))).
    set (p := sqrt (semivariance rets b x)) in *. set (q := sqrt (semivariance rets b y)) in *. set (z := sqrt (semivariance rets b (blend t x y))) in *.
    assert (z * z <= ((1 - t) * p + t * q) * ((1 - t) * p + t * q)) by (apply Rmult_le_compat; lra).
    assert (0 <= t * (1 - t) * ((p - q) * (p - q))) by (apply Rmult_le_pos; [apply Rmult_le_pos; lra|apply Rle_0_sqr]). lra.
  Qed.
End Convexity.
Lemma differences_zero : forall x y, List.length x = List.length y -> (forall a, In a (differences x y) -> a = 0) -> x = y.
Proof.
  induction x as [|a x IH]; intros [|b y] L H; try discriminate; [reflexivity|]. cbn [differences] in H. f_equal.
  - specialize (H _ (or_introl eq_refl)). lra.
  - apply IH; [cbn in L; lia|]. intros c Hc. apply H. right; exact Hc.
Qed.
Lemma differences_nonzero : forall x y, List.length x = List.length y -> x <> y -> exists a, In a (differences x y) /\ a <> 0.
Proof.
  intros x y L Hne. destruct (Exists_dec (fun a => a <> 0) (differences x y)) as [H|H].
  - intros a. destruct (Req_EM_T a 0); [right; tauto|left; assumption].
  - apply Exists_exists in H. exact H.
  - exfalso. apply Hne, differences_zero; [exact L|]. intros a Ha. destruct (Req_EM_T a 0); [assumption|]. exfalso. apply H, Exists_exists. exists a. auto.
Qed.
Lemma definite_strict : forall n M, definite n M -> forall x y, List.length x = n -> List.length y = n -> x <> y -> qform M (blend (1/2) x y) < (qform M x + qform M y) / 2.
Proof.
  intros n M [[HM Hps] Hd] x y Lx Ly Hne. rewrite (qform_blend n) by assumption.
  assert (0 < qform M (differences x y)).
  { apply Hd; [rewrite differences_length; congruence|apply differences_nonzero; [congruence|exact Hne]]. }
  lra.
Qed.

(** ** the methods *)
Lemma agree : forall (run run' : world * ef * res (dict R)) (P : option (list R) -> dict R -> Prop),
  (forall w' o' d, run = (w', o', Ok d) -> P (e_weights o') d) -> (forall w' o' d, run' = (w', o', Ok d) -> P (e_weights o') d) ->
  (forall ws d ws' d', P ws d -> P ws' d' -> d = d' /\ ws = ws') -> same_answer run run'.
Proof.
  intros [[wa oa] [da|ea]] [[wb ob] [db|eb]] P HA HB HU; cbn [same_answer]; try exact I.
  exact (HU _ _ _ _ (HA _ _ _ eq_refl) (HB _ _ _ eq_refl)).
Qed.
(** an answer for the bounds in force *)
Definition answer (w : world) (o : ef) (u : list (nat * con)) (mn : bool) (ok : list R -> Prop) (cost : list R -> R) (ws : option (list R)) (d : dict R) : Prop :=
  exists lb ub, bounds_in_force mn o lb ub /\ best_portfolio w o u lb ub (if mn then 0 else 1) ok cost ws d.
Lemma answer_unique : forall w o u mn ok cost, convex_problem w o u -> convex_set o ok -> decides w o cost ->
  forall ws d ws' d', answer w o u mn ok cost ws d -> answer w o u mn ok cost ws' d' -> d = d' /\ ws = ws'.
Proof.
  intros w o u mn ok cost Hp Hok Hd ws d ws' d' [lb [ub [B A]]] [lb' [ub' [B' A']]].
  destruct (in_force_unique _ _ _ _ _ _ B B') as [<- <-]. exact (best_unique w o u lb ub _ Hp ok cost ws ws' d d' Hok Hd A A').
Qed.

Section Methods.
  Variables (w : world) (o : ef) (u : list (nat * con)) (sv sv' : solver_t) (mn : bool).
  Hypothesis Hp : convex_problem w o u.
  Hypothesis Hsv : exact_solver sv.
  Hypothesis Hsv' : exact_solver sv'.

  Lemma decides_qform : definite (e_n o) (e_cov o) \/ psd (e_n o) (e_cov o) /\ regularised w o -> decides w o (qform (e_cov o)).
  Proof.
    intros [D|[P R]]; split; [apply qform_convex, D|left; apply definite_strict; exact D|apply qform_convex, P|right; exact R].
  Qed.
  Lemma decides_utility : forall m ra, 0 < ra -> definite (e_n o) (e_cov o) \/ psd (e_n o) (e_cov o) /\ regularised w o ->
    decides w o (fun x => - (inner m x - ra / 2 * qform (e_cov o) x)).
  Proof.
    intros m ra Hra H. destruct (decides_qform H) as [C S]. split.
    - intros x y t Lx Ly Ht. specialize (C x y t Lx Ly Ht). rewrite inner_blend by congruence.
      apply Rmult_le_compat_l with (r := ra / 2) in C; [lra|lra].
    - destruct S as [S|S]; [left|right; exact S]. intros x y Lx Ly Hne. specialize (S x y Lx Ly Hne). rewrite inner_blend by congruence.
      apply Rmult_lt_compat_l with (r := ra / 2) in S; [lra|lra].
  Qed.
  Lemma regular_decides : forall cost, convex_on (e_n o) cost -> regularised w o -> decides w o cost.
  Proof. intros cost Hc Hr. split; [exact Hc|right; exact Hr]. Qed.

  Lemma unique_min_volatility : definite (e_n o) (e_cov o) \/ psd (e_n o) (e_cov o) /\ regularised w o ->
    same_answer (min_volatility sv w o) (min_volatility sv' w o).
  Proof.
    intros H. apply agree with (P := best_portfolio w o u (e_lb o) (e_ub o) 1 (fun _ => True) (qform (e_cov o))).
    - intros w' o' d E. exact (min_volatility_best sv w o u w' o' d Hsv (proj1 Hp) E).
    - intros w' o' d E. exact (min_volatility_best sv' w o u w' o' d Hsv' (proj1 Hp) E).
    - intros ws d ws' d' A A'. exact (best_unique w o u _ _ _ Hp _ _ _ _ _ _ (set_true o) (decides_qform H) A A').
  Qed.

  Variable m : list R.
  Hypothesis Hm : e_mu o = Some m.
  Lemma unique_utility : forall ra, fresh_name w o "risk_aversion" -> definite (e_n o) (e_cov o) \/ psd (e_n o) (e_cov o) /\ regularised w o ->
    same_answer (max_quadratic_utility sv ra mn w o) (max_quadratic_utility sv' ra mn w o).
  Proof.
    intros ra Hf H. apply agree with (P := fun ws d => 0 < ra /\ answer w o u mn (fun _ => True) (fun x => - (inner m x - ra / 2 * qform (e_cov o) x)) ws d).
    - intros w' o' d E. exact (utility_best sv w o u m ra mn w' o' d Hsv (proj1 Hp) Hm Hf E).
    - intros w' o' d E. exact (utility_best sv' w o u m ra mn w' o' d Hsv' (proj1 Hp) Hm Hf E).
    - intros ws d ws' d' [Hra A] [_ A']. exact (answer_unique _ _ _ _ _ _ Hp (set_true o) (decides_utility m ra Hra H) _ _ _ _ A A').
  Qed.
  Lemma unique_return : forall tg, fresh_name w o "target_return" -> definite (e_n o) (e_cov o) \/ psd (e_n o) (e_cov o) /\ regularised w o ->
    same_answer (efficient_return sv tg mn w o) (efficient_return sv' tg mn w o).
  Proof.
    intros tg Hf H. apply agree with (P := fun ws d => exists t, tg = NFloat t /\ answer w o u mn (fun x => t <= inner m x) (qform (e_cov o)) ws d).
    - intros w' o' d E. destruct (efficient_return_best sv w o u m tg mn w' o' d Hsv (proj1 Hp) Hm Hf E) as [t [lb [ub [T X]]]]. exists t. split; [exact T|exists lb, ub; exact X].
    - intros w' o' d E. destruct (efficient_return_best sv' w o u m tg mn w' o' d Hsv' (proj1 Hp) Hm Hf E) as [t [lb [ub [T X]]]]. exists t. split; [exact T|exists lb, ub; exact X].
    - intros ws d ws' d' [t [T A]] [t' [T' A']]. rewrite T in T'. injection T' as <-. exact (answer_unique _ _ _ _ _ _ Hp (set_above o m t) (decides_qform H) _ _ _ _ A A').
  Qed.
  Lemma unique_risk : forall pinv pinv' tg, fresh_name w o "target_variance" -> psd (e_n o) (e_cov o) -> regularised w o ->
    same_answer (efficient_risk sv pinv tg mn w o) (efficient_risk sv' pinv' tg mn w o).
  Proof.
    intros pinv pinv' tg Hf HP HR. apply agree with (P := fun ws d => exists t, target_of tg = Some t /\ answer w o u mn (fun x => qform (e_cov o) x <= t * t) (fun x => - inner m x) ws d).
    - intros w' o' d E. destruct (efficient_risk_best sv pinv w o u m tg mn w' o' d Hsv (proj1 Hp) Hm Hf E) as [t [lb [ub [T [_ X]]]]]. exists t. split; [exact T|exists lb, ub; exact X].
    - intros w' o' d E. destruct (efficient_risk_best sv' pinv' w o u m tg mn w' o' d Hsv' (proj1 Hp) Hm Hf E) as [t [lb [ub [T [_ X]]]]]. exists t. split; [exact T|exists lb, ub; exact X].
    - intros ws d ws' d' [t [T A]] [t' [T' A']]. rewrite T in T'. injection T' as <-.
      exact (answer_unique _ _ _ _ _ _ Hp (set_below o _ _ (qform_convex _ _ HP)) (regular_decides _ (linear_convex _ m) HR) _ _ _ _ A A').
  Qed.
End Methods.

Section Downside.
  Variables (w : world) (o : ef) (u : list (nat * con)) (sv sv' : solver_t) (mn : bool).
  Hypothesis Hp : convex_problem w o u.
  Hypothesis Hsv : exact_solver sv.
  Hypothesis Hsv' : exact_solver sv'.
  Hypothesis HR : regularised w o.

  Lemma unique_min_semivariance : forall d, semi_ready w o u d -> same_answer (min_semivariance sv d mn w o) (min_semivariance sv' d mn w o).
  Proof.
    intros d Hd. apply agree with (P := answer w o u mn (fun _ => True) (semivariance (sd_returns d) (sd_bench d * (if mn then 0 else 1)))).
    - intros w' o' dd E. destruct (min_semivariance_best w o u d (proj1 Hp) Hd sv mn Hsv w' o' dd E) as [lb [ub [B [A _]]]]. exists lb, ub. auto.
    - intros w' o' dd E. destruct (min_semivariance_best w o u d (proj1 Hp) Hd sv' mn Hsv' w' o' dd E) as [lb [ub [B [A _]]]]. exists lb, ub. auto.
    - apply answer_unique; [exact Hp|apply set_true|apply regular_decides; [apply semivariance_convex|exact HR]].
  Qed.
  Lemma unique_min_cvar : forall d, cvar_ready w o u d -> same_answer (min_cvar sv d mn w o) (min_cvar sv' d mn w o).
  Proof.
    intros d Hd. apply agree with (P := answer w o u mn (fun _ => True) (cvar (cv_beta d) (cv_returns d))).
    - intros w' o' dd E. destruct (min_cvar_best w o u d (proj1 Hp) Hd sv mn w' o' dd Hsv E) as [lb [ub [s [B [A _]]]]]. exists lb, ub. split; [exact B|exists s; exact A].
    - intros w' o' dd E. destruct (min_cvar_best w o u d (proj1 Hp) Hd sv' mn w' o' dd Hsv' E) as [lb [ub [s [B [A _]]]]]. exists lb, ub. split; [exact B|exists s; exact A].
    - apply answer_unique; [exact Hp|apply set_true|apply regular_decides; [|exact HR]]. destruct Hd as [[Ht1 Ht2] [Hb _]]. apply cvar_convex; [exact Hb|auto].
  Qed.
  Lemma unique_min_cdar : forall d, cdar_ready w o u d -> same_answer (min_cdar sv d mn w o) (min_cdar sv' d mn w o).
  Proof.
    intros d Hd. apply agree with (P := answer w o u mn (fun _ => True) (cdar (cd_beta d) (cd_returns d))).
    - intros w' o' dd E. destruct (min_cdar_best w o u d (proj1 Hp) Hd sv mn w' o' dd Hsv E) as [lb [ub [s [B [A _]]]]]. exists lb, ub. split; [exact B|exists s; exact A].
    - intros w' o' dd E. destruct (min_cdar_best w o u d (proj1 Hp) Hd sv' mn w' o' dd Hsv' E) as [lb [ub [s [B [A _]]]]]. exists lb, ub. split; [exact B|exists s; exact A].
    - apply answer_unique; [exact Hp|apply set_true|apply regular_decides; [|exact HR]]. destruct Hd as [[Ht1 Ht2] [Hb _]]. apply cdar_convex; [exact Hb|auto].
  Qed.

  Variable m : list R.
  Hypothesis Hm : e_mu o = Some m.
  Lemma unique_semi_risk : forall d t, semi_ready w o u d -> fresh_name w o "target_semivariance" -> 0 <= sd_freq d ->
    same_answer (semi_efficient_risk sv d t mn w o) (semi_efficient_risk sv' d t mn w o).
  Proof.
    intros d t Hd Hf Hq. set (b := sd_bench d * (if mn then 0 else 1)).
    apply agree with (P := answer w o u mn (fun x => sd_freq d * semivariance (sd_returns d) b x <= t * t) (fun x => - inner m x)).
    - intros w' o' dd E. destruct (semi_risk_best w o u d (proj1 Hp) Hd sv mn Hsv t m w' o' dd Hm Hf Hq E) as [lb [ub [B [A _]]]]. exists lb, ub. auto.
    - intros w' o' dd E. destruct (semi_risk_best w o u d (proj1 Hp) Hd sv' mn Hsv' t m w' o' dd Hm Hf Hq E) as [lb [ub [B [A _]]]]. exists lb, ub. auto.
    - apply answer_unique; [exact Hp| |apply regular_decides; [apply linear_convex|exact HR]].
      apply (set_below o (fun x => sd_freq d * semivariance (sd_returns d) b x)). intros x y k Lx Ly Hk.
      pose proof (semivariance_convex (e_n o) (sd_returns d) b x y k Lx Ly Hk) as C. apply Rmult_le_compat_l with (r := sd_freq d) in C; [lra|exact Hq].
  Qed.
  Lemma unique_semi_return : forall d t, semi_ready w o u d -> fresh_name w o "target_return" ->
    same_answer (semi_efficient_return sv d (NFloat t) mn w o) (semi_efficient_return sv' d (NFloat t) mn w o).
  Proof.
    intros d t Hd Hf. set (b := sd_bench d * (if mn then 0 else 1)).
    apply agree with (P := answer w o u mn (fun x => t <= inner m x) (semivariance (sd_returns d) b)).
    - intros w' o' dd E. destruct (semi_return_best w o u d (proj1 Hp) Hd sv mn Hsv t m w' o' dd Hm Hf E) as [_ [lb [ub [B [A _]]]]]. exists lb, ub. auto.
    - intros w' o' dd E. destruct (semi_return_best w o u d (proj1 Hp) Hd sv' mn Hsv' t m w' o' dd Hm Hf E) as [_ [lb [ub [B [A _]]]]]. exists lb, ub. auto.
    - apply answer_unique; [exact Hp|apply set_above|apply regular_decides; [apply semivariance_convex|exact HR]].
  Qed.
  Lemma unique_semi_utility : forall d k, semi_ready w o u d -> fresh_name w o "risk_aversion" ->
    same_answer (semi_max_quadratic_utility sv d k mn w o) (semi_max_quadratic_utility sv' d k mn w o).
  Proof.
    intros d k Hd Hf. set (b := sd_bench d * (if mn then 0 else 1)).
    apply agree with (P := fun ws dd => 0 < k /\ answer w o u mn (fun _ => True) (fun x => - inner m x / sd_freq d + 1 / 2 * k * semivariance (sd_returns d) b x) ws dd).
    - intros w' o' dd E. destruct (semi_utility_best w o u d (proj1 Hp) Hd sv mn Hsv k m w' o' dd Hm Hf E) as [K [lb [ub [B [A _]]]]]. split; [exact K|exists lb, ub; auto].
    - intros w' o' dd E. destruct (semi_utility_best w o u d (proj1 Hp) Hd sv' mn Hsv' k m w' o' dd Hm Hf E) as [K [lb [ub [B [A _]]]]]. split; [exact K|exists lb, ub; auto].
    - intros ws dd ws' dd' [K A] [_ A']. revert A A'. apply answer_unique; [exact Hp|apply set_true|apply regular_decides; [|exact HR]].
      intros x y t Lx Ly Ht. pose proof (semivariance_convex (e_n o) (sd_returns d) b x y t Lx Ly Ht) as C. apply Rmult_le_compat_l with (r := 1 / 2 * k) in C; [|lra].
      rewrite inner_blend by congruence. unfold Rdiv at 1 3 5. lra.
  Qed.
  Lemma unique_cvar_risk : forall d t, cvar_ready w o u d -> fresh_name w o "target_cvar" ->
    same_answer (cvar_efficient_risk sv d t mn w o) (cvar_efficient_risk sv' d t mn w o).
  Proof.
    intros d t Hd Hf. apply agree with (P := answer w o u mn (fun x => cvar (cv_beta d) (cv_returns d) x <= t) (fun x => - inner m x)).
    - intros w' o' dd E. destruct (cvar_risk_best w o u d (proj1 Hp) Hd sv mn t m w' o' dd Hsv Hm Hf E) as [_ [lb [ub [s [B [A _]]]]]]. exists lb, ub. split; [exact B|exists s; exact A].
    - intros w' o' dd E. destruct (cvar_risk_best w o u d (proj1 Hp) Hd sv' mn t m w' o' dd Hsv' Hm Hf E) as [_ [lb [ub [s [B [A _]]]]]]. exists lb, ub. split; [exact B|exists s; exact A].
    - apply answer_unique; [exact Hp| |apply regular_decides; [apply linear_convex|exact HR]].
      apply set_below. destruct Hd as [[Ht1 Ht2] [Hb _]]. apply cvar_convex; [exact Hb|auto].
  Qed.
  Lemma unique_cvar_return : forall d t, cvar_ready w o u d -> fresh_name w o "target_return" ->
    same_answer (cvar_efficient_return sv d t mn w o) (cvar_efficient_return sv' d t mn w o).
  Proof.
    intros d t Hd Hf. apply agree with (P := answer w o u mn (fun x => t <= inner m x) (cvar (cv_beta d) (cv_returns d))).
    - intros w' o' dd E. destruct (cvar_return_best w o u d (proj1 Hp) Hd sv mn t m w' o' dd Hsv Hm Hf E) as [lb [ub [s [B [A _]]]]]. exists lb, ub. split; [exact B|exists s; exact A].
    - intros w' o' dd E. destruct (cvar_return_best w o u d (proj1 Hp) Hd sv' mn t m w' o' dd Hsv' Hm Hf E) as [lb [ub [s [B [A _]]]]]. exists lb, ub. split; [exact B|exists s; exact A].
    - apply answer_unique; [exact Hp|apply set_above|apply regular_decides; [|exact HR]]. destruct Hd as [[Ht1 Ht2] [Hb _]]. apply cvar_convex; [exact Hb|auto].
  Qed.
  Lemma unique_cdar_risk : forall d t, cdar_ready w o u d -> fresh_name w o "target_cdar" ->
    same_answer (cdar_efficient_risk sv d t mn w o) (cdar_efficient_risk sv' d t mn w o).
  Proof.
    intros d t Hd Hf. apply agree with (P := answer w o u mn (fun x => cdar (cd_beta d) (cd_returns d) x <= t) (fun x => - inner m x)).
    - intros w' o' dd E. destruct (cdar_risk_best w o u d (proj1 Hp) Hd sv mn t m w' o' dd Hsv Hm Hf E) as [_ [lb [ub [s [B [A _]]]]]]. exists lb, ub. split; [exact B|exists s; exact A].
    - intros w' o' dd E. destruct (cdar_risk_best w o u d (proj1 Hp) Hd sv' mn t m w' o' dd Hsv' Hm Hf E) as [_ [lb [ub [s [B [A _]]]]]]. exists lb, ub. split; [exact B|exists s; exact A].
    - apply answer_unique; [exact Hp| |apply regular_decides; [apply linear_convex|exact HR]].
      apply set_below. destruct Hd as [[Ht1 Ht2] [Hb _]]. apply cdar_convex; [exact Hb|auto].
  Qed.
  Lemma unique_cdar_return : forall d t, cdar_ready w o u d -> fresh_name w o "target_return" ->
    same_answer (cdar_efficient_return sv d t mn w o) (cdar_efficient_return sv' d t mn w o).
  Proof.
    intros d t Hd Hf. apply agree with (P := answer w o u mn (fun x => t <= inner m x) (cdar (cd_beta d) (cd_returns d))).
    - intros w' o' dd E. destruct (cdar_return_best w o u d (proj1 Hp) Hd sv mn t m w' o' dd Hsv Hm Hf E) as [_ [lb [ub [s [B [A _]]]]]]. exists lb, ub. split; [exact B|exists s; exact A].
    - intros w' o' dd E. destruct (cdar_return_best w o u d (proj1 Hp) Hd sv' mn t m w' o' dd Hsv' Hm Hf E) as [_ [lb [ub [s [B [A _]]]]]]. exists lb, ub. split; [exact B|exists s; exact A].
    - apply answer_unique; [exact Hp|apply set_above|apply regular_decides; [|exact HR]]. destruct Hd as [[Ht1 Ht2] [Hb _]]. apply cdar_convex; [exact Hb|auto].
  Qed.
End Downside.

(** ** the library's own objectives *)
Lemma inner_self_pos : forall x, (exists a, In a x /\ a <> 0) -> 0 < inner x x.
Proof.
  induction x as [|b x IH]; intros [a [Ha Hn]]; [destruct Ha|]. cbn [inner]. pose proof (inner_self_nonneg x).
  destruct (Req_EM_T b 0) as [->|Hb].
  - destruct Ha as [<-|Ha]; [contradiction|]. specialize (IH (ex_intro _ a (conj Ha Hn))). lra.
  - pose proof (Rsqr_pos_lt b Hb) as P. unfold Rsqr in P. lra.
Qed.
Lemma inner_self_blend : forall x y t, List.length x = List.length y ->
  inner (blend t x y) (blend t x y) = (1 - t) * inner x x + t * inner y y - t * (1 - t) * inner (differences x y) (differences x y).
Proof.
  induction x as [|a x IH]; intros [|b y] t L; try discriminate; cbn [blend differences inner]; [ring|]. rewrite IH by (cbn in L; lia). ring.
Qed.
Lemma L2_strict : forall sizes ps v n gamma, nth_error sizes v = Some n -> 0 < gamma -> strict_term sizes ps v (L2_reg_e (EVar v) gamma).
Proof.
  intros sizes ps v n g Hv Hg. split.
  - intros s s' t Ht Hs Hs'. rewrite !(L2_value _ _ _ _ eq_refl). cbn [eval]. unfold mixed.
    pose proof (inner_self_convex (s v) (s' v) t ltac:(rewrite (sized_nth _ _ _ _ Hs Hv), (sized_nth _ _ _ _ Hs' Hv); reflexivity) Ht) as H.
    apply Rmult_le_compat_l with (r := g) in H; lra.
  - intros s s' Hs Hs' Hne. rewrite !(L2_value _ _ _ _ eq_refl). cbn [eval]. unfold mixed.
    assert (L : List.length (s v) = List.length (s' v)) by (rewrite (sized_nth _ _ _ _ Hs Hv), (sized_nth _ _ _ _ Hs' Hv); reflexivity).
    rewrite inner_self_blend by exact L. pose proof (inner_self_pos _ (differences_nonzero _ _ L Hne)) as P.
    apply Rmult_lt_compat_l with (r := g) in P; lra.
Qed.
Lemma cost_convex_term : forall sizes ps v n prev k, nth_error sizes v = Some n -> List.length prev = n -> 0 <= k -> convex_term sizes ps (transaction_cost_e (EVar v) prev k).
Proof.
  intros sizes ps v n prev k Hv Hl Hk s s' t Ht Hs Hs'.
  pose proof (sized_nth _ _ _ _ Hs Hv) as L. pose proof (sized_nth _ _ _ _ Hs' Hv) as L'.
  pose proof (proj1 (cost_convex n prev k ps Hk Hl) (s v) (s' v) t L L' Ht) as C. unfold as_function in C.
  rewrite !(cost_value _ _ _ _ eq_refl) in C by (cbn [eval]; rewrite ?blend_length; congruence).
  rewrite !(cost_value _ _ _ _ eq_refl) by (cbn [eval]; unfold mixed; rewrite ?blend_length; congruence). exact C.
Qed.
Lemma library_terms : forall sizes ps v n, nth_error sizes v = Some n ->
  (forall gamma, 0 < gamma -> strict_term sizes ps v (L2_reg_e (EVar v) gamma)) /\
  (forall prev k, List.length prev = n -> 0 <= k -> convex_term sizes ps (transaction_cost_e (EVar v) prev k)).
Proof.
  intros sizes ps v n Hv. split; [intros g Hg; exact (L2_strict sizes ps v n g Hv Hg)|intros prev k Hl Hk; exact (cost_convex_term sizes ps v n prev k Hv Hl Hk)].
Qed.

(** ** the largest Sharpe ratio *)
Lemma blend_scaled : forall a b x y, 0 < a -> 0 < b -> blend (1/2) (vscale a x) (vscale b y) = vscale ((a + b) / 2) (blend (b / (a + b)) x y).
Proof.
  intros a b x y Ha Hb. unfold vscale. revert y. induction x as [|c x IH]; intros [|d y]; cbn [map blend]; try reflexivity. rewrite IH. f_equal. field. lra.
Qed.
Lemma ratio_unique : forall n M m r x y, definite n M -> List.length x = n -> List.length y = n -> total x = 1 -> total y = 1 ->
  0 < excess m r x -> 0 < excess m r y ->
  (forall k, 0 <= k <= 1 -> let z := blend k x y in
     excess m r z * sqrt (qform M x) <= excess m r x * sqrt (qform M z)) ->
  excess m r x * sqrt (qform M y) <= excess m r y * sqrt (qform M x) -> x = y.
Proof.
  intros n M m r x y HD Lx Ly Tx Ty Ex Ey Hz Hxy.
  set (a := / excess m r x). set (b := / excess m r y).
  assert (Pa : 0 < a) by (apply Rinv_0_lt_compat; exact Ex). assert (Pb : 0 < b) by (apply Rinv_0_lt_compat; exact Ey).
  assert (Psd : forall z, List.length z = n -> 0 <= qform M z) by (destruct HD as [[_ P] _]; exact P).
  destruct (list_eq_dec Req_EM_T (vscale a x) (vscale b y)) as [Heq|Hne].
  - assert (Hab : a = b).
    { apply (f_equal total) in Heq. rewrite !total_scale, Tx, Ty in Heq. lra. }
    rewrite <- Hab in Heq. unfold vscale in Heq. revert Heq. clearbody a. clear - Pa. revert y. induction x as [|c x IH]; intros [|d y] H; try discriminate; [reflexivity|].
    cbn [map] in H. injection H as H1 H2. f_equal; [|apply IH; exact H2]. apply Rmult_eq_reg_l with (r := a); [exact H1|lra].
  - exfalso.
    assert (La : List.length (vscale a x) = n) by (unfold vscale; rewrite map_length; exact Lx).
    assert (Lb : List.length (vscale b y) = n) by (unfold vscale; rewrite map_length; exact Ly).
    pose proof (definite_strict n M HD _ _ La Lb Hne) as S. rewrite blend_scaled in S by assumption. rewrite !qform_scale in S.
    set (k := b / (a + b)) in *.
    assert (Hk : 0 <= k <= 1).
    { unfold k. split; [apply Rlt_le, Rdiv_lt_0_compat; lra|]. apply Rmult_le_reg_r with (r := a + b); [lra|]. field_simplify; lra. }
    specialize (Hz k Hk). cbv zeta in Hz. set (z := blend k x y) in *.
    assert (Lz : List.length z = n) by (unfold z; rewrite blend_length; congruence).
    assert (Ez : (a + b) / 2 * excess m r z = 1).
    { unfold excess, z. rewrite inner_blend by congruence.
      replace ((1 - k) * inner m x + k * inner m y - r) with ((1 - k) * excess m r x + k * excess m r y) by (unfold excess; ring).
      replace (excess m r x) with (/ a) by (unfold a; apply Rinv_inv). replace (excess m r y) with (/ b) by (unfold b; apply Rinv_inv). unfold k. field. lra. }
    pose proof (sqrt_pos (qform M x)) as Vx. pose proof (sqrt_pos (qform M y)) as Vy. pose proof (sqrt_pos (qform M z)) as Vz.
    rewrite <- (sqrt_sqrt (qform M x)) in S by (apply Psd; exact Lx). rewrite <- (sqrt_sqrt (qform M y)) in S by (apply Psd; exact Ly). rewrite <- (sqrt_sqrt (qform M z)) in S by (apply Psd; exact Lz).
    set (vx := sqrt (qform M x)) in *. set (vy := sqrt (qform M y)) in *. set (vz := sqrt (qform M z)) in *.
    (* the three volatilities per unit of excess return *)
    assert (B1 : b * vy <= a * vx).
    { apply Rmult_le_reg_l with (r := excess m r x * excess m r y); [apply Rmult_lt_0_compat; assumption|].
      replace (excess m r x * excess m r y * (b * vy)) with (excess m r x * vy) by (unfold b; field; lra).
      replace (excess m r x * excess m r y * (a * vx)) with (excess m r y * vx) by (unfold a; field; lra). exact Hxy. }
    assert (B2 : a * vx <= (a + b) / 2 * vz).
    { apply Rmult_le_compat_l with (r := a * ((a + b) / 2)) in Hz; [|apply Rmult_le_pos; lra].
      replace (a * ((a + b) / 2) * (excess m r z * vx)) with (a * vx * ((a + b) / 2 * excess m r z)) in Hz by ring. rewrite Ez in Hz.
      replace (a * ((a + b) / 2) * (excess m r x * vz)) with ((a + b) / 2 * vz) in Hz by (unfold a; field; lra). lra. }
    assert (P1 : 0 <= b * vy) by (apply Rmult_le_pos; lra). assert (P2 : 0 <= a * vx) by (apply Rmult_le_pos; lra).
    assert (Q1 : (b * vy) * (b * vy) <= (a * vx) * (a * vx)) by (apply Rmult_le_compat; assumption).
    assert (Q2 : (a * vx) * (a * vx) <= ((a + b) / 2 * vz) * ((a + b) / 2 * vz)) by (apply Rmult_le_compat; assumption).
    lra.
Qed.
Lemma unique_sharpe : forall w o u sv sv' rf, exact_solver sv -> exact_solver sv' -> open_ef w o u -> e_add o = [] -> definite (e_n o) (e_cov o) ->
  Forall (fun ic => convex_con (w_sizes w) (par_values w) (snd ic)) u ->
  Forall (fun ic => constant_on_one_side (e_w o) (snd ic)) u -> Forall (fun ic => known_vars (List.length (w_sizes w)) (snd ic)) u ->
  same_answer (max_sharpe sv rf w o) (max_sharpe sv' rf w o).
Proof.
  intros w o u sv sv' rf Hsv Hsv' Hop Ha HD Hcx Hone Hkn.
  assert (Hp : convex_problem w o u) by (split; [exact Hop|split; [exact Hcx|rewrite Ha; constructor]]).
  destruct (max_sharpe sv rf w o) as [[w1 o1] [d1|e1]] eqn:E1; destruct (max_sharpe sv' rf w o) as [[w2 o2] [d2|e2]] eqn:E2; cbn [same_answer]; try exact I.
  destruct (max_sharpe_best sv w o u rf w1 o1 d1 Hsv Hop Ha (proj1 HD) Hone Hkn E1) as [m [r [Em [Er [s [rr [W [F [D [A [P B]]]]]]]]]]].
  destruct (max_sharpe_best sv' w o u rf w2 o2 d2 Hsv' Hop Ha (proj1 HD) Hone Hkn E2) as [m' [r' [Em' [Er' [s' [rr' [W' [F' [D' [A' [P' B']]]]]]]]]]].
  rewrite Em in Em'. injection Em' as <-. rewrite Er in Er'. injection Er' as <-.
  assert (Hs : s (e_w o) = s' (e_w o)).
  { apply (ratio_unique (e_n o) (e_cov o) m r); try assumption.
    - exact (adm_length w o u _ _ _ Hp s A).
    - exact (adm_length w o u _ _ _ Hp s' A').
    - exact (proj1 (proj2 (proj2 A))).
    - exact (proj1 (proj2 (proj2 A'))).
    - intros k Hk z. exact (B _ (adm_mix w o u _ _ _ Hp s s' k Hk A A')).
    - exact (B' s A). }
  rewrite <- Hs in F'. pose proof (rounded_list_unique _ _ _ F F') as E. subst. rewrite W, W'. split; reflexivity.
Qed.

(** ** the downside methods together *)
Lemma unique_min_downside : forall w o u sv sv' mn, convex_problem w o u -> exact_solver sv -> exact_solver sv' -> regularised w o ->
  (forall d, semi_ready w o u d -> same_answer (min_semivariance sv d mn w o) (min_semivariance sv' d mn w o)) /\
  (forall d, cvar_ready w o u d -> same_answer (min_cvar sv d mn w o) (min_cvar sv' d mn w o)) /\
  (forall d, cdar_ready w o u d -> same_answer (min_cdar sv d mn w o) (min_cdar sv' d mn w o)).
Proof.
  intros w o u sv sv' mn Hp Hs Hs' HR. split; [|split]; intros d Hd.
  - apply (unique_min_semivariance w o u); assumption.
  - apply (unique_min_cvar w o u); assumption.
  - apply (unique_min_cdar w o u); assumption.
Qed.
Lemma unique_semivariance : forall w o u sv sv' mn, convex_problem w o u -> exact_solver sv -> exact_solver sv' -> regularised w o ->
  forall m d, e_mu o = Some m -> semi_ready w o u d ->
  (forall t, fresh_name w o "target_semivariance" -> 0 <= sd_freq d -> same_answer (semi_efficient_risk sv d t mn w o) (semi_efficient_risk sv' d t mn w o)) /\
  (forall t, fresh_name w o "target_return" -> same_answer (semi_efficient_return sv d (NFloat t) mn w o) (semi_efficient_return sv' d (NFloat t) mn w o)) /\
  (forall k, fresh_name w o "risk_aversion" -> same_answer (semi_max_quadratic_utility sv d k mn w o) (semi_max_quadratic_utility sv' d k mn w o)).
Proof.
  intros w o u sv sv' mn Hp Hs Hs' HR m d Hm Hd. split; [|split]; intros t Hf; [intros Hq| |].
  - apply (unique_semi_risk w o u sv sv' mn Hp Hs Hs' HR m Hm); assumption.
  - apply (unique_semi_return w o u sv sv' mn Hp Hs Hs' HR m Hm); assumption.
  - apply (unique_semi_utility w o u sv sv' mn Hp Hs Hs' HR m Hm); assumption.
Qed.
Lemma unique_tails : forall w o u sv sv' mn, convex_problem w o u -> exact_solver sv -> exact_solver sv' -> regularised w o ->
  forall m t, e_mu o = Some m ->
  (forall d, cvar_ready w o u d -> fresh_name w o "target_cvar" -> same_answer (cvar_efficient_risk sv d t mn w o) (cvar_efficient_risk sv' d t mn w o)) /\
  (forall d, cvar_ready w o u d -> fresh_name w o "target_return" -> same_answer (cvar_efficient_return sv d t mn w o) (cvar_efficient_return sv' d t mn w o)) /\
  (forall d, cdar_ready w o u d -> fresh_name w o "target_cdar" -> same_answer (cdar_efficient_risk sv d t mn w o) (cdar_efficient_risk sv' d t mn w o)) /\
  (forall d, cdar_ready w o u d -> fresh_name w o "target_return" -> same_answer (cdar_efficient_return sv d t mn w o) (cdar_efficient_return sv' d t mn w o)).
Proof.
  intros w o u sv sv' mn Hp Hs Hs' HR m t Hm. split; [|split; [|split]]; intros d Hd Hf.
  - apply (unique_cvar_risk w o u sv sv' mn Hp Hs Hs' HR m Hm); assumption.
  - apply (unique_cvar_return w o u sv sv' mn Hp Hs Hs' HR m Hm); assumption.
  - apply (unique_cdar_risk w o u sv sv' mn Hp Hs Hs' HR m Hm); assumption.
  - apply (unique_cdar_return w o u sv sv' mn Hp Hs Hs' HR m Hm); assumption.
Qed.
