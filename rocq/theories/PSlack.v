(** * Bounds that do not bind (C145) *)
From Coq Require Import ZArith String List Bool Reals Lra Lia.
From Verif Require Import Num Py RBase PyLemmas SBL MBase MConvex MEF MDown SLin SBase SConvex SPerm SObj SUnits SDown SDays SExist SGrow SWide SSlack Sums Mat PBase PConvex PEF PEF2 PDown5 PPerm PPerm2 PPerm4 PObj PCurve PUnique PDays PTail PWide PWide2 PBlend.
Import ListNotations.
Local Open Scope R_scope.

Lemma free_blend : forall (P : option R -> option R -> R -> Prop) (Q : option R -> R -> Prop),
  (forall a b x y, P a b x -> Q a x -> Q b y -> exists t0, 0 < t0 <= 1 /\ forall t, 0 < t <= t0 -> Q a ((1 - t) * x + t * y)) ->
  forall l l' x y, all_free P l l' x -> Forall2 Q l x -> Forall2 Q l' y -> exists t0, 0 < t0 <= 1 /\ forall t, 0 < t <= t0 -> Forall2 Q l (blend t x y).
Proof.
  intros P Q H. induction l as [|a l IH]; intros [|b l'] [|c x] y F A B; try contradiction F; inversion A; subst; inversion B; subst.
  - exists 1. split; [lra|]. intros t _. constructor.
  - destruct F as [F0 F]. destruct (H _ _ _ _ F0 ltac:(eassumption) ltac:(eassumption)) as (t1 & T1 & K1). destruct (IH _ _ _ F ltac:(eassumption) ltac:(eassumption)) as (t2 & T2 & K2).
    exists (Rmin t1 t2). pose proof (Rmin_l t1 t2). pose proof (Rmin_r t1 t2). split; [split; [apply Rmin_glb_lt; lra|lra]|]. intros t Ht. cbn [blend]. constructor; [apply K1; lra|apply K2; lra].
Qed.
Lemma small_step : forall g k, 0 < g -> exists t0, 0 < t0 <= 1 /\ forall t, 0 < t <= t0 -> t * k <= g.
Proof.
  intros g k G. destruct (Rle_lt_dec k g) as [K|K].
  - exists 1. split; [lra|]. intros t Ht. destruct (Rle_lt_dec k 0) as [N|N]; [assert (0 <= t * - k) by (apply Rmult_le_pos; lra); lra|]. assert (t * k <= 1 * k) by (apply Rmult_le_compat_r; lra). lra.
  - exists (g / k). split; [split; [apply Rdiv_lt_0_compat; lra|apply Rmult_le_reg_r with k; [lra|]; unfold Rdiv; rewrite Rmult_assoc, Rinv_l by lra; lra]|].
    intros t Ht. apply Rle_trans with (g / k * k); [apply Rmult_le_compat_r; lra|]. unfold Rdiv. rewrite Rmult_assoc, Rinv_l by lra. lra.
Qed.
Lemma above_step : forall a b x y, free_lo a b x -> above a x -> above b y -> exists t0, 0 < t0 <= 1 /\ forall t, 0 < t <= t0 -> above a ((1 - t) * x + t * y).
Proof.
  intros [l|] b x y F A B; [|exists 1; split; [lra|intros; exact I]]. destruct F as [<-|F]; cbn in *.
  - exists 1. split; [lra|]. intros t Ht. assert (0 <= (1 - t) * (x - l)) by (apply Rmult_le_pos; lra). assert (0 <= t * (y - l)) by (apply Rmult_le_pos; lra). lra.
  - destruct (small_step (x - l) (x - y) ltac:(lra)) as (t0 & T & K). exists t0. split; [exact T|]. intros t Ht. specialize (K t Ht). lra.
Qed.
Lemma below_step : forall a b x y, free_hi a b x -> below a x -> below b y -> exists t0, 0 < t0 <= 1 /\ forall t, 0 < t <= t0 -> below a ((1 - t) * x + t * y).
Proof.
  intros [l|] b x y F A B; [|exists 1; split; [lra|intros; exact I]]. destruct F as [<-|F]; cbn in *.
  - exists 1. split; [lra|]. intros t Ht. assert (0 <= (1 - t) * (l - x)) by (apply Rmult_le_pos; lra). assert (0 <= t * (l - y)) by (apply Rmult_le_pos; lra). lra.
  - destruct (small_step (l - x) (y - x) ltac:(lra)) as (t0 & T & K). exists t0. split; [exact T|]. intros t Ht. specialize (K t Ht). lra.
Qed.
Lemma slack_step : forall lb ub lb' ub' x y, slack lb ub lb' ub' x -> within lb ub x -> within lb' ub' y -> exists t, 0 < t <= 1 /\ within lb ub (blend t x y).
Proof.
  intros lb ub lb' ub' x y [S1 S2] [A1 A2] [B1 B2]. destruct (free_blend _ _ above_step _ _ _ _ S1 A1 B1) as (t1 & T1 & K1). destruct (free_blend _ _ below_step _ _ _ _ S2 A2 B2) as (t2 & T2 & K2).
  exists (Rmin t1 t2). pose proof (Rmin_l t1 t2). pose proof (Rmin_r t1 t2). assert (0 < Rmin t1 t2) by (apply Rmin_glb_lt; lra). split; [lra|]. split; [apply K1|apply K2]; lra.
Qed.
Lemma slack_chosen : forall n lb ub lb' ub' sum (ok : list R -> Prop) cost x, convex_on n cost ->
  (forall a b t, length a = n -> length b = n -> 0 <= t <= 1 -> ok a -> ok b -> ok (blend t a b)) -> looser lb ub lb' ub' ->
  chosen n lb ub sum ok cost x -> slack lb ub lb' ub' x -> chosen n lb' ub' sum ok cost x.
Proof.
  intros n lb ub lb' ub' sum ok cost x C S Lo (Lx & Wx & Tx & Ox & Bx) Sl.
  split; [exact Lx|]. split; [exact (looser_within _ _ _ _ _ Lo Wx)|]. split; [exact Tx|]. split; [exact Ox|].
  intros y Ly Wy Ty Oy. destruct (slack_step _ _ _ _ _ _ Sl Wx Wy) as (t & Ht & Wz). pose proof (C x y t Lx Ly ltac:(lra)) as Cz.
  assert (B : cost x <= cost (blend t x y)) by (apply Bx; [rewrite blend_length by congruence; exact Lx|exact Wz|rewrite total_blend by congruence; rewrite Tx, Ty; ring|apply S; auto; lra]).
  apply Rmult_le_reg_l with t; lra.
Qed.
Lemma slack_ratio : forall n lb ub lb' ub' m M rf x, psd n M -> looser lb ub lb' ub' -> best_ratio n lb ub m M rf x -> slack lb ub lb' ub' x -> best_ratio n lb' ub' m M rf x.
Proof.
  intros n lb ub lb' ub' m M rf x P Lo (Lx & Wx & Tx & Ex & Bx) Sl. split; [exact Lx|]. split; [exact (looser_within _ _ _ _ _ Lo Wx)|]. split; [exact Tx|]. split; [exact Ex|].
  intros y Ly Wy Ty. destruct (slack_step _ _ _ _ _ _ Sl Wx Wy) as (t & Ht & Wz). pose proof (volatility_convex n M P x y t Lx Ly ltac:(lra)) as V. cbv beta in V.
  assert (Ez : excess m rf (blend t x y) = (1 - t) * excess m rf x + t * excess m rf y) by (unfold excess; rewrite inner_blend by congruence; ring).
  assert (B : excess m rf (blend t x y) * sqrt (qform M x) <= excess m rf x * sqrt (qform M (blend t x y))) by (apply Bx; [rewrite blend_length by congruence; exact Lx|exact Wz|rewrite total_blend by congruence; rewrite Tx, Ty; ring]).
  apply (Rmult_le_compat_l (excess m rf x)) in V; [|lra]. rewrite Ez in B. apply Rmult_le_reg_l with t; lra.
Qed.
Lemma loosened_unbound : forall ts lb ub lb' ub' sum (ok : list R -> Prop) cost d d', convex_on (length ts) cost ->
  (forall a b t, length a = length ts -> length b = length ts -> 0 <= t <= 1 -> ok a -> ok b -> ok (blend t a b)) -> looser lb ub lb' ub' ->
  loosened ts lb ub lb' ub' sum ok cost d d' -> unbound ts lb ub lb' ub' sum ok cost d d'.
Proof.
  intros ts lb ub lb' ub' sum ok cost d d' C S Lo (x & x' & A & B & A' & B' & _). exists x, x'. split; [exact A|]. split; [exact B|]. split; [exact A'|]. split; [exact B'|]. intros Sl.
  pose proof (slack_chosen _ _ _ _ _ _ _ _ _ C S Lo A Sl) as K. split; [exact K|]. destruct K as (L1 & W1 & T1 & O1 & K). destruct A' as (L2 & W2 & T2 & O2 & K2). apply Rle_antisym; [apply K|apply K2]; assumption.
Qed.
Section Slack_ef.
  Variables (s : list (label * R)) (cols : list label) (rows : list (list R)) (b1 b2 : bounds_arg) (v1 v2 w1 w2 : world) (o1 o2 : ef).
  Hypothesis (HM : psd (length s) rows) (T : ef_wider s cols rows b1 b2 v1 v2 w1 w2 o1 o2).
  Lemma sl_ef : forall mn lb ub lb' ub', same_kind mn o1 o2 -> bounds_in_force mn o1 lb ub -> bounds_in_force mn o2 lb' ub' -> looser lb ub lb' ub'.
  Proof.
    intros mn lb ub lb' ub' Sk B B'. pose proof T as (Hs & I1 & I2 & Lo). destruct (bound_facts _ _ _ _ _ _ _ Hs I1) as (_ & N1 & _). destruct (bound_facts _ _ _ _ _ _ _ Hs I2) as (_ & N2 & _).
    apply (wide_force mn o1 o2); try assumption. congruence.
  Qed.
  Lemma sq_convex : convex_on (length (map fst s)) (qform rows).
  Proof. rewrite map_length. apply qform_convex, HM. Qed.
  Variables (sv1 sv2 : solver_t) (x1 x2 : world) (y1 y2 : ef) (d1 d2 : dict R).
  Hypothesis (Hnd : NoDup (map fst s)) (X1 : exact_solver sv1) (X2 : exact_solver sv2).
  Theorem slack_min_volatility : min_volatility sv1 w1 o1 = (x1, y1, Ok d1) -> min_volatility sv2 w2 o2 = (x2, y2, Ok d2) ->
    unbound (map fst s) (e_lb o1) (e_ub o1) (e_lb o2) (e_ub o2) 1 (fun _ => True) (qform rows) d1 d2.
  Proof. intros E1 E2. apply loosened_unbound; [apply sq_convex|apply all_kept|apply T|]. exact (wide_min_volatility _ _ _ _ _ _ _ _ _ _ _ T _ _ _ _ _ _ _ _ Hnd X1 X2 E1 E2). Qed.
  Theorem slack_utility : forall ra mn, same_kind mn o1 o2 -> max_quadratic_utility sv1 ra mn w1 o1 = (x1, y1, Ok d1) -> max_quadratic_utility sv2 ra mn w2 o2 = (x2, y2, Ok d2) ->
    exists lb ub lb' ub', bounds_in_force mn o1 lb ub /\ bounds_in_force mn o2 lb' ub' /\ unbound (map fst s) lb ub lb' ub' (if mn then 0 else 1) (fun _ => True) (fun x => - (inner (map snd s) x - ra / 2 * qform rows x)) d1 d2.
  Proof. intros ra mn Sk E1 E2. assert (R : 0 < ra) by (pose proof E1 as G; unfold max_quadratic_utility in G; destruct (Rleb ra 0) eqn:Er; [discriminate G|]; apply Rleb_false in Er; exact Er). destruct (wide_utility _ _ _ _ _ _ _ _ _ _ _ T _ _ _ _ _ _ _ _ Hnd X1 X2 ra mn Sk E1 E2) as (lb & ub & lb' & ub' & B & B' & L). exists lb, ub, lb', ub'. split; [exact B|]. split; [exact B'|]. apply loosened_unbound; [apply (convex_ext _ _ (fun x => (-1) * inner (map snd s) x + ra / 2 * qform rows x)); [intros x; ring|apply utility_convex; [lra|apply sq_convex]]|apply all_kept|exact (sl_ef mn _ _ _ _ Sk B B')|exact L]. Qed.
  Theorem slack_return : forall tg mn, same_kind mn o1 o2 -> efficient_return sv1 (NFloat tg) mn w1 o1 = (x1, y1, Ok d1) -> efficient_return sv2 (NFloat tg) mn w2 o2 = (x2, y2, Ok d2) ->
    exists lb ub lb' ub', bounds_in_force mn o1 lb ub /\ bounds_in_force mn o2 lb' ub' /\ unbound (map fst s) lb ub lb' ub' (if mn then 0 else 1) (fun x => tg <= inner (map snd s) x) (qform rows) d1 d2.
  Proof. intros tg mn Sk E1 E2. destruct (wide_return _ _ _ _ _ _ _ _ _ _ _ T _ _ _ _ _ _ _ _ Hnd X1 X2 tg mn Sk E1 E2) as (lb & ub & lb' & ub' & B & B' & L). exists lb, ub, lb', ub'. split; [exact B|]. split; [exact B'|]. apply loosened_unbound; [apply sq_convex|apply above_kept|exact (sl_ef mn _ _ _ _ Sk B B')|exact L]. Qed.
  Theorem slack_risk : forall pinv1 pinv2 tg mn, same_kind mn o1 o2 -> efficient_risk sv1 pinv1 (NFloat tg) mn w1 o1 = (x1, y1, Ok d1) -> efficient_risk sv2 pinv2 (NFloat tg) mn w2 o2 = (x2, y2, Ok d2) ->
    exists lb ub lb' ub', bounds_in_force mn o1 lb ub /\ bounds_in_force mn o2 lb' ub' /\ unbound (map fst s) lb ub lb' ub' (if mn then 0 else 1) (fun x => qform rows x <= tg * tg) (fun x => - inner (map snd s) x) d1 d2.
  Proof. intros pinv1 pinv2 tg mn Sk E1 E2. destruct (wide_risk _ _ _ _ _ _ _ _ _ _ _ T _ _ _ _ _ _ _ _ Hnd X1 X2 pinv1 pinv2 tg mn Sk E1 E2) as (lb & ub & lb' & ub' & B & B' & L). exists lb, ub, lb', ub'. split; [exact B|]. split; [exact B'|]. apply loosened_unbound; [apply linear_convex|apply below_kept, sq_convex|exact (sl_ef mn _ _ _ _ Sk B B')|exact L]. Qed.
  Theorem slack_sharpe : forall rf, max_sharpe sv1 (NFloat rf) w1 o1 = (x1, y1, Ok d1) -> max_sharpe sv2 (NFloat rf) w2 o2 = (x2, y2, Ok d2) ->
    unbound_ratio (map fst s) (e_lb o1) (e_ub o1) (e_lb o2) (e_ub o2) (map snd s) rows rf d1 d2.
  Proof.
    intros rf E1 E2. destruct (wide_sharpe _ _ _ _ _ _ _ _ _ _ _ T _ _ _ _ _ _ _ _ Hnd X1 X2 rf HM E1 E2) as (x & x' & A & B & A' & B' & _). exists x, x'. split; [exact A|]. split; [exact B|]. split; [exact A'|]. split; [exact B'|].
    intros Sl. apply (slack_ratio _ (e_lb o1) (e_ub o1)); try assumption; [rewrite map_length; exact HM|apply T].
  Qed.
End Slack_ef.
Section Slack_semi.
  Variables (s : list (label * R)) (rows : list (list (option R))) (freq bench : R) (b1 b2 : bounds_arg) (v1 v2 w1 w2 : world) (o1 o2 : ef) (d1 d2 : semi).
  Hypothesis T : semi_wider s rows freq bench b1 b2 v1 v2 w1 w2 o1 o2 d1 d2.
  Lemma scx_semi : forall mn : bool, convex_on (length (map fst s)) (fun x => semivariance (dropna rows) (bench * (if mn then 0 else 1)) x).
  Proof. intros mn. apply semivariance_convex. Qed.
  Theorem min_semivariance_slack : forall sv1 sv2 mn, exact_solver sv1 -> exact_solver sv2 -> same_kind mn o1 o2 -> forall x1 y1 r1 x2 y2 r2, NoDup (map fst s) ->
    min_semivariance sv1 d1 mn w1 o1 = (x1, y1, Ok r1) -> min_semivariance sv2 d2 mn w2 o2 = (x2, y2, Ok r2) ->
    exists lb ub lb' ub', bounds_in_force mn o1 lb ub /\ bounds_in_force mn o2 lb' ub' /\ unbound (map fst s) lb ub lb' ub' (if mn then 0 else 1) (fun x => True) (fun x => semivariance (dropna rows) (bench * (if mn then 0 else 1)) x) r1 r2.
  Proof.
    intros sv1 sv2 mn X1 X2 Sk x1 y1 r1 x2 y2 r2 Hnd E1 E2. destruct (min_semivariance_wide _ _ _ _ _ _ _ _ _ _ _ _ _ _ T sv1 sv2 mn X1 X2 Sk _ _ _ _ _ _ Hnd E1 E2) as (lb & ub & lb' & ub' & B & B' & L).
    exists lb, ub, lb', ub'. split; [exact B|]. split; [exact B'|]. apply loosened_unbound; [apply (scx_semi mn)|apply all_kept|exact (wl_semi _ _ _ _ _ _ _ _ _ _ _ _ _ _ T mn _ _ _ _ Sk B B')|exact L].
  Qed.
  Theorem semivariance_risk_slack : forall sv1 sv2 mn, exact_solver sv1 -> exact_solver sv2 -> same_kind mn o1 o2 -> forall tg, 0 <= freq -> forall x1 y1 r1 x2 y2 r2, NoDup (map fst s) ->
    semi_efficient_risk sv1 d1 tg mn w1 o1 = (x1, y1, Ok r1) -> semi_efficient_risk sv2 d2 tg mn w2 o2 = (x2, y2, Ok r2) ->
    exists lb ub lb' ub', bounds_in_force mn o1 lb ub /\ bounds_in_force mn o2 lb' ub' /\ unbound (map fst s) lb ub lb' ub' (if mn then 0 else 1) (fun x => freq * semivariance (dropna rows) (bench * (if mn then 0 else 1)) x <= tg * tg) (fun x => - inner (map snd s) x) r1 r2.
  Proof.
    intros sv1 sv2 mn X1 X2 Sk tg Hf x1 y1 r1 x2 y2 r2 Hnd E1 E2. destruct (semivariance_risk_wide _ _ _ _ _ _ _ _ _ _ _ _ _ _ T sv1 sv2 mn X1 X2 Sk tg Hf _ _ _ _ _ _ Hnd E1 E2) as (lb & ub & lb' & ub' & B & B' & L).
    exists lb, ub, lb', ub'. split; [exact B|]. split; [exact B'|]. apply loosened_unbound; [apply linear_convex|apply (below_kept _ (fun x => freq * semivariance (dropna rows) (bench * (if mn then 0 else 1)) x)), scaled_convex, (scx_semi mn); exact Hf|exact (wl_semi _ _ _ _ _ _ _ _ _ _ _ _ _ _ T mn _ _ _ _ Sk B B')|exact L].
  Qed.
  Theorem semivariance_return_slack : forall sv1 sv2 mn, exact_solver sv1 -> exact_solver sv2 -> same_kind mn o1 o2 -> forall tg, forall x1 y1 r1 x2 y2 r2, NoDup (map fst s) ->
    semi_efficient_return sv1 d1 (NFloat tg) mn w1 o1 = (x1, y1, Ok r1) -> semi_efficient_return sv2 d2 (NFloat tg) mn w2 o2 = (x2, y2, Ok r2) ->
    exists lb ub lb' ub', bounds_in_force mn o1 lb ub /\ bounds_in_force mn o2 lb' ub' /\ unbound (map fst s) lb ub lb' ub' (if mn then 0 else 1) (fun x => tg <= inner (map snd s) x) (fun x => semivariance (dropna rows) (bench * (if mn then 0 else 1)) x) r1 r2.
  Proof.
    intros sv1 sv2 mn X1 X2 Sk tg x1 y1 r1 x2 y2 r2 Hnd E1 E2. destruct (semivariance_return_wide _ _ _ _ _ _ _ _ _ _ _ _ _ _ T sv1 sv2 mn X1 X2 Sk tg _ _ _ _ _ _ Hnd E1 E2) as (lb & ub & lb' & ub' & B & B' & L).
    exists lb, ub, lb', ub'. split; [exact B|]. split; [exact B'|]. apply loosened_unbound; [apply (scx_semi mn)|apply above_kept|exact (wl_semi _ _ _ _ _ _ _ _ _ _ _ _ _ _ T mn _ _ _ _ Sk B B')|exact L].
  Qed.
  Theorem semivariance_utility_slack : forall sv1 sv2 mn, exact_solver sv1 -> exact_solver sv2 -> same_kind mn o1 o2 -> forall tg, forall x1 y1 r1 x2 y2 r2, NoDup (map fst s) ->
    semi_max_quadratic_utility sv1 d1 tg mn w1 o1 = (x1, y1, Ok r1) -> semi_max_quadratic_utility sv2 d2 tg mn w2 o2 = (x2, y2, Ok r2) ->
    exists lb ub lb' ub', bounds_in_force mn o1 lb ub /\ bounds_in_force mn o2 lb' ub' /\ unbound (map fst s) lb ub lb' ub' (if mn then 0 else 1) (fun x => True) (fun x => - inner (map snd s) x / freq + 1 / 2 * tg * semivariance (dropna rows) (bench * (if mn then 0 else 1)) x) r1 r2.
  Proof.
    intros sv1 sv2 mn X1 X2 Sk tg x1 y1 r1 x2 y2 r2 Hnd E1 E2. assert (R : 0 < tg) by (pose proof E1 as G; unfold semi_max_quadratic_utility in G; destruct (Rleb tg 0) eqn:Er; [discriminate G|]; apply Rleb_false in Er; exact Er). destruct (semivariance_utility_wide _ _ _ _ _ _ _ _ _ _ _ _ _ _ T sv1 sv2 mn X1 X2 Sk tg _ _ _ _ _ _ Hnd E1 E2) as (lb & ub & lb' & ub' & B & B' & L).
    exists lb, ub, lb', ub'. split; [exact B|]. split; [exact B'|]. apply loosened_unbound; [apply (convex_ext _ _ (fun x => (- / freq) * inner (map snd s) x + 1 / 2 * tg * semivariance (dropna rows) (bench * (if mn then 0 else 1)) x)); [intros x; unfold Rdiv; ring|apply utility_convex; [lra|apply (scx_semi mn)]]|apply all_kept|exact (wl_semi _ _ _ _ _ _ _ _ _ _ _ _ _ _ T mn _ _ _ _ Sk B B')|exact L].
  Qed.
End Slack_semi.
Section Slack_cvar.
  Variables (s : list (label * R)) (rows : list (list (option R))) (beta : R) (b1 b2 : bounds_arg) (v1 v2 w1 w2 : world) (o1 o2 : ef) (d1 d2 : cvar_data).
  Hypothesis T : cvar_wider s rows beta b1 b2 v1 v2 w1 w2 o1 o2 d1 d2.
  Lemma scx_cvar : forall mn : bool, convex_on (length (map fst s)) (fun x => cvar beta (dropna rows) x).
  Proof. intros mn. pose proof T as (Hg & I1 & _); destruct (cvar_run_facts _ _ _ _ _ _ _ _ Hg I1) as (_ & Rd & (D1 & D2) & _); destruct Rd as ((Tp1 & Tp2) & Bt & _); rewrite <- D1, <- D2; apply cvar_convex; [exact Bt|auto]. Qed.
  Theorem min_cvar_slack : forall sv1 sv2 mn, exact_solver sv1 -> exact_solver sv2 -> same_kind mn o1 o2 -> forall x1 y1 r1 x2 y2 r2, NoDup (map fst s) ->
    min_cvar sv1 d1 mn w1 o1 = (x1, y1, Ok r1) -> min_cvar sv2 d2 mn w2 o2 = (x2, y2, Ok r2) ->
    exists lb ub lb' ub', bounds_in_force mn o1 lb ub /\ bounds_in_force mn o2 lb' ub' /\ unbound (map fst s) lb ub lb' ub' (if mn then 0 else 1) (fun x => True) (fun x => cvar beta (dropna rows) x) r1 r2.
  Proof.
    intros sv1 sv2 mn X1 X2 Sk x1 y1 r1 x2 y2 r2 Hnd E1 E2. destruct (min_cvar_wide _ _ _ _ _ _ _ _ _ _ _ _ _ T sv1 sv2 mn X1 X2 Sk _ _ _ _ _ _ Hnd E1 E2) as (lb & ub & lb' & ub' & B & B' & L).
    exists lb, ub, lb', ub'. split; [exact B|]. split; [exact B'|]. apply loosened_unbound; [apply (scx_cvar mn)|apply all_kept|exact (wl_cvar _ _ _ _ _ _ _ _ _ _ _ _ _ T mn _ _ _ _ Sk B B')|exact L].
  Qed.
  Theorem cvar_risk_slack : forall sv1 sv2 mn, exact_solver sv1 -> exact_solver sv2 -> same_kind mn o1 o2 -> forall tg, forall x1 y1 r1 x2 y2 r2, NoDup (map fst s) ->
    cvar_efficient_risk sv1 d1 tg mn w1 o1 = (x1, y1, Ok r1) -> cvar_efficient_risk sv2 d2 tg mn w2 o2 = (x2, y2, Ok r2) ->
    exists lb ub lb' ub', bounds_in_force mn o1 lb ub /\ bounds_in_force mn o2 lb' ub' /\ unbound (map fst s) lb ub lb' ub' (if mn then 0 else 1) (fun x => cvar beta (dropna rows) x <= tg) (fun x => - inner (map snd s) x) r1 r2.
  Proof.
    intros sv1 sv2 mn X1 X2 Sk tg x1 y1 r1 x2 y2 r2 Hnd E1 E2. destruct (cvar_risk_wide _ _ _ _ _ _ _ _ _ _ _ _ _ T sv1 sv2 mn X1 X2 Sk tg _ _ _ _ _ _ Hnd E1 E2) as (lb & ub & lb' & ub' & B & B' & L).
    exists lb, ub, lb', ub'. split; [exact B|]. split; [exact B'|]. apply loosened_unbound; [apply linear_convex|apply (below_kept _ (fun x => cvar beta (dropna rows) x)), (scx_cvar mn)|exact (wl_cvar _ _ _ _ _ _ _ _ _ _ _ _ _ T mn _ _ _ _ Sk B B')|exact L].
  Qed.
  Theorem cvar_return_slack : forall sv1 sv2 mn, exact_solver sv1 -> exact_solver sv2 -> same_kind mn o1 o2 -> forall tg, forall x1 y1 r1 x2 y2 r2, NoDup (map fst s) ->
    cvar_efficient_return sv1 d1 tg mn w1 o1 = (x1, y1, Ok r1) -> cvar_efficient_return sv2 d2 tg mn w2 o2 = (x2, y2, Ok r2) ->
    exists lb ub lb' ub', bounds_in_force mn o1 lb ub /\ bounds_in_force mn o2 lb' ub' /\ unbound (map fst s) lb ub lb' ub' (if mn then 0 else 1) (fun x => tg <= inner (map snd s) x) (fun x => cvar beta (dropna rows) x) r1 r2.
  Proof.
    intros sv1 sv2 mn X1 X2 Sk tg x1 y1 r1 x2 y2 r2 Hnd E1 E2. destruct (cvar_return_wide _ _ _ _ _ _ _ _ _ _ _ _ _ T sv1 sv2 mn X1 X2 Sk tg _ _ _ _ _ _ Hnd E1 E2) as (lb & ub & lb' & ub' & B & B' & L).
    exists lb, ub, lb', ub'. split; [exact B|]. split; [exact B'|]. apply loosened_unbound; [apply (scx_cvar mn)|apply above_kept|exact (wl_cvar _ _ _ _ _ _ _ _ _ _ _ _ _ T mn _ _ _ _ Sk B B')|exact L].
  Qed.
End Slack_cvar.
Section Slack_cdar.
  Variables (s : list (label * R)) (rows : list (list (option R))) (beta : R) (b1 b2 : bounds_arg) (v1 v2 w1 w2 : world) (o1 o2 : ef) (d1 d2 : cdar_data).
  Hypothesis T : cdar_wider s rows beta b1 b2 v1 v2 w1 w2 o1 o2 d1 d2.
  Lemma scx_cdar : forall mn : bool, convex_on (length (map fst s)) (fun x => cdar beta (dropna rows) x).
  Proof. intros mn. pose proof T as (Hg & I1 & _); destruct (cdar_run_facts _ _ _ _ _ _ _ _ Hg I1) as (_ & Rd & (D1 & D2) & _); destruct Rd as ((Tp1 & Tp2) & Bt & _); rewrite <- D1, <- D2; apply cdar_convex; [exact Bt|auto]. Qed.
  Theorem min_cdar_slack : forall sv1 sv2 mn, exact_solver sv1 -> exact_solver sv2 -> same_kind mn o1 o2 -> forall x1 y1 r1 x2 y2 r2, NoDup (map fst s) ->
    min_cdar sv1 d1 mn w1 o1 = (x1, y1, Ok r1) -> min_cdar sv2 d2 mn w2 o2 = (x2, y2, Ok r2) ->
    exists lb ub lb' ub', bounds_in_force mn o1 lb ub /\ bounds_in_force mn o2 lb' ub' /\ unbound (map fst s) lb ub lb' ub' (if mn then 0 else 1) (fun x => True) (fun x => cdar beta (dropna rows) x) r1 r2.
  Proof.
    intros sv1 sv2 mn X1 X2 Sk x1 y1 r1 x2 y2 r2 Hnd E1 E2. destruct (min_cdar_wide _ _ _ _ _ _ _ _ _ _ _ _ _ T sv1 sv2 mn X1 X2 Sk _ _ _ _ _ _ Hnd E1 E2) as (lb & ub & lb' & ub' & B & B' & L).
    exists lb, ub, lb', ub'. split; [exact B|]. split; [exact B'|]. apply loosened_unbound; [apply (scx_cdar mn)|apply all_kept|exact (wl_cdar _ _ _ _ _ _ _ _ _ _ _ _ _ T mn _ _ _ _ Sk B B')|exact L].
  Qed.
  Theorem cdar_risk_slack : forall sv1 sv2 mn, exact_solver sv1 -> exact_solver sv2 -> same_kind mn o1 o2 -> forall tg, forall x1 y1 r1 x2 y2 r2, NoDup (map fst s) ->
    cdar_efficient_risk sv1 d1 tg mn w1 o1 = (x1, y1, Ok r1) -> cdar_efficient_risk sv2 d2 tg mn w2 o2 = (x2, y2, Ok r2) ->
    exists lb ub lb' ub', bounds_in_force mn o1 lb ub /\ bounds_in_force mn o2 lb' ub' /\ unbound (map fst s) lb ub lb' ub' (if mn then 0 else 1) (fun x => cdar beta (dropna rows) x <= tg) (fun x => - inner (map snd s) x) r1 r2.
  Proof.
    intros sv1 sv2 mn X1 X2 Sk tg x1 y1 r1 x2 y2 r2 Hnd E1 E2. destruct (cdar_risk_wide _ _ _ _ _ _ _ _ _ _ _ _ _ T sv1 sv2 mn X1 X2 Sk tg _ _ _ _ _ _ Hnd E1 E2) as (lb & ub & lb' & ub' & B & B' & L).
    exists lb, ub, lb', ub'. split; [exact B|]. split; [exact B'|]. apply loosened_unbound; [apply linear_convex|apply (below_kept _ (fun x => cdar beta (dropna rows) x)), (scx_cdar mn)|exact (wl_cdar _ _ _ _ _ _ _ _ _ _ _ _ _ T mn _ _ _ _ Sk B B')|exact L].
  Qed.
  Theorem cdar_return_slack : forall sv1 sv2 mn, exact_solver sv1 -> exact_solver sv2 -> same_kind mn o1 o2 -> forall tg, forall x1 y1 r1 x2 y2 r2, NoDup (map fst s) ->
    cdar_efficient_return sv1 d1 tg mn w1 o1 = (x1, y1, Ok r1) -> cdar_efficient_return sv2 d2 tg mn w2 o2 = (x2, y2, Ok r2) ->
    exists lb ub lb' ub', bounds_in_force mn o1 lb ub /\ bounds_in_force mn o2 lb' ub' /\ unbound (map fst s) lb ub lb' ub' (if mn then 0 else 1) (fun x => tg <= inner (map snd s) x) (fun x => cdar beta (dropna rows) x) r1 r2.
  Proof.
    intros sv1 sv2 mn X1 X2 Sk tg x1 y1 r1 x2 y2 r2 Hnd E1 E2. destruct (cdar_return_wide _ _ _ _ _ _ _ _ _ _ _ _ _ T sv1 sv2 mn X1 X2 Sk tg _ _ _ _ _ _ Hnd E1 E2) as (lb & ub & lb' & ub' & B & B' & L).
    exists lb, ub, lb', ub'. split; [exact B|]. split; [exact B'|]. apply loosened_unbound; [apply (scx_cdar mn)|apply above_kept|exact (wl_cdar _ _ _ _ _ _ _ _ _ _ _ _ _ T mn _ _ _ _ Sk B B')|exact L].
  Qed.
End Slack_cdar.
