(** * Averages of best portfolios (C144) *)
From Coq Require Import ZArith String List Bool Reals Lra Lia.
From Verif Require Import Num Py RBase PyLemmas SBL MBase MConvex MEF MDown SLin SBase SConvex SPerm SObj SUnits SDown SDays SExist SGrow SWide SBlend Sums Mat PBase PConvex PEF PEF2 PDown5 PPerm PPerm2 PPerm4 PObj PCurve PUnique PDays PTail PWide PWide2.
Import ListNotations.
Local Open Scope R_scope.

Lemma blend_chosen : forall n lb ub sum (ok : list R -> Prop) cost x y, convex_on n cost ->
  (forall a b t, length a = n -> length b = n -> 0 <= t <= 1 -> ok a -> ok b -> ok (blend t a b)) ->
  chosen n lb ub sum ok cost x -> chosen n lb ub sum ok cost y -> cost x = cost y /\ forall t, 0 <= t <= 1 -> chosen n lb ub sum ok cost (blend t x y).
Proof.
  intros n lb ub sum ok cost x y C S (Lx & Wx & Tx & Ox & Bx) (Ly & Wy & Ty & Oy & By).
  assert (E : cost x = cost y) by (apply Rle_antisym; [apply Bx|apply By]; assumption). split; [exact E|].
  intros t Ht. assert (Lz : length (blend t x y) = n) by (rewrite blend_length by congruence; exact Lx).
  split; [exact Lz|]. split; [apply within_blend; assumption|]. split; [rewrite total_blend by congruence; rewrite Tx, Ty; ring|]. split; [apply S; assumption|].
  intros z Lz' Wz Tz Oz. pose proof (C x y t Lx Ly Ht) as Cz. pose proof (Bx z Lz' Wz Tz Oz). rewrite <- E in Cz. replace ((1 - t) * cost x + t * cost x) with (cost x) in Cz by ring. lra.
Qed.
Lemma blend_ratio : forall n lb ub m M rf x y, psd n M -> best_ratio n lb ub m M rf x -> best_ratio n lb ub m M rf y -> forall t, 0 <= t <= 1 -> best_ratio n lb ub m M rf (blend t x y).
Proof.
  intros n lb ub m M rf x y P (Lx & Wx & Tx & Ex & Bx) (Ly & Wy & Ty & Ey & By) t Ht.
  assert (Lz : length (blend t x y) = n) by (rewrite blend_length by congruence; exact Lx).
  assert (Ez : excess m rf (blend t x y) = (1 - t) * excess m rf x + t * excess m rf y) by (unfold excess; rewrite inner_blend by congruence; ring).
  assert (Pz : 0 < excess m rf (blend t x y)).
  { rewrite Ez. destruct (Req_dec t 0) as [->|]; [lra|]. assert (0 < t * excess m rf y) by (apply Rmult_lt_0_compat; lra). assert (0 <= (1 - t) * excess m rf x) by (apply Rmult_le_pos; lra). lra. }
  split; [exact Lz|]. split; [apply within_blend; assumption|]. split; [rewrite total_blend by congruence; rewrite Tx, Ty; ring|]. split; [exact Pz|].
  intros z Lz' Wz Tz. pose proof (volatility_convex n M P x y t Lx Ly Ht) as V. cbv beta in V. pose proof (Bx z Lz' Wz Tz) as B1. pose proof (By z Lz' Wz Tz) as B2.
  pose proof (sqrt_pos (qform M (blend t x y))) as S0. pose proof (sqrt_pos (qform M z)) as Sz. destruct (Rle_lt_dec 0 (excess m rf z)) as [N|N].
  - apply Rle_trans with (excess m rf z * ((1 - t) * sqrt (qform M x) + t * sqrt (qform M y))); [apply Rmult_le_compat_l; assumption|]. rewrite Ez.
    assert (H1 : (1 - t) * (excess m rf z * sqrt (qform M x)) <= (1 - t) * (excess m rf x * sqrt (qform M z))) by (apply Rmult_le_compat_l; lra).
    assert (H2 : t * (excess m rf z * sqrt (qform M y)) <= t * (excess m rf y * sqrt (qform M z))) by (apply Rmult_le_compat_l; lra). lra.
  - apply Rle_trans with 0; [|apply Rmult_le_pos; lra]. rewrite Rmult_comm. rewrite <- (Rmult_0_r (sqrt (qform M (blend t x y)))). apply Rmult_le_compat_l; lra.
Qed.
Lemma force_same : forall mn o lb ub lb' ub', bounds_in_force mn o lb ub -> bounds_in_force mn o lb' ub' -> lb = lb' /\ ub = ub'.
Proof.
  intros mn o lb ub lb' ub' [(E & A & -> & ->)|(E & -> & ->)] [(E' & A' & -> & ->)|(E' & -> & ->)]; auto; exfalso; [destruct E' as [E'|E']; [congruence|contradiction]|destruct E as [E|E]; [congruence|contradiction]].
Qed.
Lemma looser_refl : forall lb ub, looser lb ub lb ub.
Proof. intros lb ub. split; [induction lb as [|[x|] l IH]|induction ub as [|[x|] l IH]]; (constructor; [cbn; first [exact I|apply Rle_refl]|assumption]) || constructor. Qed.
Lemma same_kind_refl : forall mn o, same_kind mn o o. Proof. intros mn o _ H. exact H. Qed.
Lemma all_kept : forall n (a b : list R) (t : R), length a = n -> length b = n -> 0 <= t <= 1 -> True -> True -> True. Proof. auto. Qed.
Lemma above_kept : forall m k n a b t, length a = n -> length b = n -> 0 <= t <= 1 -> k <= inner m a -> k <= inner m b -> k <= inner m (blend t a b).
Proof. intros m k n a b t La Lb Ht Ha Hb. rewrite inner_blend by congruence. assert (0 <= (1 - t) * (inner m a - k)) by (apply Rmult_le_pos; lra). assert (0 <= t * (inner m b - k)) by (apply Rmult_le_pos; lra). lra. Qed.
Lemma below_kept : forall n f k, convex_on n f -> forall a b t, length a = n -> length b = n -> 0 <= t <= 1 -> f a <= k -> f b <= k -> f (blend t a b) <= k.
Proof. intros n f k C a b t La Lb Ht Ha Hb. pose proof (C a b t La Lb Ht). assert (0 <= (1 - t) * (k - f a)) by (apply Rmult_le_pos; lra). assert (0 <= t * (k - f b)) by (apply Rmult_le_pos; lra). lra. Qed.
Lemma scaled_convex : forall n f k, 0 <= k -> convex_on n f -> convex_on n (fun x => k * f x).
Proof. intros n f k K C x y t Lx Ly Ht. pose proof (C x y t Lx Ly Ht) as H. apply (Rmult_le_compat_l k) in H; [|exact K]. lra. Qed.
Lemma utility_convex : forall n m q a k, 0 <= k -> convex_on n q -> convex_on n (fun x => a * inner m x + k * q x).
Proof. intros n m q a k K C x y t Lx Ly Ht. rewrite inner_blend by congruence. pose proof (scaled_convex n q k K C x y t Lx Ly Ht) as H. cbv beta in H. lra. Qed.
Lemma convex_ext : forall n f g, (forall x, f x = g x) -> convex_on n g -> convex_on n f.
Proof. intros n f g E C x y t Lx Ly Ht. rewrite !E. apply C; assumption. Qed.
Lemma loosened_blended : forall ts lb ub sum (ok : list R -> Prop) cost d d', convex_on (length ts) cost ->
  (forall a b t, length a = length ts -> length b = length ts -> 0 <= t <= 1 -> ok a -> ok b -> ok (blend t a b)) ->
  loosened ts lb ub lb ub sum ok cost d d' -> blended ts lb ub sum ok cost d d'.
Proof.
  intros ts lb ub sum ok cost d d' C S (x & x' & A & B & A' & B' & _). destruct (blend_chosen _ _ _ _ _ _ _ _ C S A A') as [E F]. exists x, x'. auto 10.
Qed.
Section Blend_ef.
  Variables (s : list (label * R)) (cols : list label) (rows : list (list R)) (b : bounds_arg) (v w : world) (o : ef).
  Hypothesis (HM : psd (length s) rows) (I : ef_init (MIn (MuSeries s)) (CIn (CovFrame cols rows)) b v = (w, Ok o)).
  Lemma wide_self : ef_wider s cols rows b b v v w w o o.
  Proof. split; [apply HM|]. split; [exact I|]. split; [exact I|apply looser_refl]. Qed.
  Lemma q_convex : convex_on (length (map fst s)) (qform rows).
  Proof. rewrite map_length. apply qform_convex, HM. Qed.
  Variables (sv1 sv2 : solver_t) (x1 x2 : world) (y1 y2 : ef) (d1 d2 : dict R).
  Hypothesis (Hnd : NoDup (map fst s)) (X1 : exact_solver sv1) (X2 : exact_solver sv2).
  Theorem blend_min_volatility : min_volatility sv1 w o = (x1, y1, Ok d1) -> min_volatility sv2 w o = (x2, y2, Ok d2) ->
    blended (map fst s) (e_lb o) (e_ub o) 1 (fun _ => True) (qform rows) d1 d2.
  Proof. intros E1 E2. apply loosened_blended; [apply q_convex|apply all_kept|]. exact (wide_min_volatility _ _ _ _ _ _ _ _ _ _ _ wide_self _ _ _ _ _ _ _ _ Hnd X1 X2 E1 E2). Qed.
  Theorem blend_utility : forall ra mn, max_quadratic_utility sv1 ra mn w o = (x1, y1, Ok d1) -> max_quadratic_utility sv2 ra mn w o = (x2, y2, Ok d2) ->
    exists lb ub, bounds_in_force mn o lb ub /\ blended (map fst s) lb ub (if mn then 0 else 1) (fun _ => True) (fun x => - (inner (map snd s) x - ra / 2 * qform rows x)) d1 d2.
  Proof. intros ra mn E1 E2. assert (R : 0 < ra) by (pose proof E1 as G; unfold max_quadratic_utility in G; destruct (Rleb ra 0) eqn:Er; [discriminate G|]; apply Rleb_false in Er; exact Er). destruct (wide_utility _ _ _ _ _ _ _ _ _ _ _ wide_self _ _ _ _ _ _ _ _ Hnd X1 X2 ra mn (same_kind_refl mn o) E1 E2) as (lb & ub & lb' & ub' & B & B' & L). destruct (force_same _ _ _ _ _ _ B B') as [<- <-]. exists lb, ub. split; [exact B|]. apply loosened_blended; [apply (convex_ext _ _ (fun x => (-1) * inner (map snd s) x + ra / 2 * qform rows x)); [intros x; ring|apply utility_convex; [lra|apply q_convex]]|apply all_kept|exact L]. Qed.
  Theorem blend_return : forall tg mn, efficient_return sv1 (NFloat tg) mn w o = (x1, y1, Ok d1) -> efficient_return sv2 (NFloat tg) mn w o = (x2, y2, Ok d2) ->
    exists lb ub, bounds_in_force mn o lb ub /\ blended (map fst s) lb ub (if mn then 0 else 1) (fun x => tg <= inner (map snd s) x) (qform rows) d1 d2.
  Proof. intros tg mn E1 E2. destruct (wide_return _ _ _ _ _ _ _ _ _ _ _ wide_self _ _ _ _ _ _ _ _ Hnd X1 X2 tg mn (same_kind_refl mn o) E1 E2) as (lb & ub & lb' & ub' & B & B' & L). destruct (force_same _ _ _ _ _ _ B B') as [<- <-]. exists lb, ub. split; [exact B|]. apply loosened_blended; [apply q_convex|apply above_kept|exact L]. Qed.
  Theorem blend_risk : forall pinv1 pinv2 tg mn, efficient_risk sv1 pinv1 (NFloat tg) mn w o = (x1, y1, Ok d1) -> efficient_risk sv2 pinv2 (NFloat tg) mn w o = (x2, y2, Ok d2) ->
    exists lb ub, bounds_in_force mn o lb ub /\ blended (map fst s) lb ub (if mn then 0 else 1) (fun x => qform rows x <= tg * tg) (fun x => - inner (map snd s) x) d1 d2.
  Proof. intros pinv1 pinv2 tg mn E1 E2. destruct (wide_risk _ _ _ _ _ _ _ _ _ _ _ wide_self _ _ _ _ _ _ _ _ Hnd X1 X2 pinv1 pinv2 tg mn (same_kind_refl mn o) E1 E2) as (lb & ub & lb' & ub' & B & B' & L). destruct (force_same _ _ _ _ _ _ B B') as [<- <-]. exists lb, ub. split; [exact B|]. apply loosened_blended; [apply linear_convex|apply below_kept, q_convex|exact L]. Qed.
  Theorem blend_sharpe : forall rf, max_sharpe sv1 (NFloat rf) w o = (x1, y1, Ok d1) -> max_sharpe sv2 (NFloat rf) w o = (x2, y2, Ok d2) ->
    blended_ratio (map fst s) (e_lb o) (e_ub o) (map snd s) rows rf d1 d2.
  Proof.
    intros rf E1 E2. destruct (wide_sharpe _ _ _ _ _ _ _ _ _ _ _ wide_self _ _ _ _ _ _ _ _ Hnd X1 X2 rf HM E1 E2) as (x & x' & A & B & A' & B' & _). exists x, x'. split; [exact A|]. split; [exact B|]. split; [exact A'|]. split; [exact B'|].
    intros t Ht. apply blend_ratio; try assumption. rewrite map_length. exact HM.
  Qed.
End Blend_ef.
Section Blend_semi.
  Variables (s : list (label * R)) (rows : list (list (option R))) (freq bench : R) (b : bounds_arg) (v w : world) (o : ef) (d : semi).
  Hypothesis (Hg : good_rows (length s) rows) (I : semi_init (MIn (MuSeries s)) (RTable (length s) rows) freq bench b v = (w, Ok (o, d))).
  Lemma wide_self_semi : semi_wider s rows freq bench b b v v w w o o d d.
  Proof. split; [exact Hg|]. split; [exact I|]. split; [exact I|apply looser_refl]. Qed.
  Lemma cx_semi : forall mn : bool, convex_on (length (map fst s)) (fun x => semivariance (dropna rows) (bench * (if mn then 0 else 1)) x).
  Proof. intros mn. apply semivariance_convex. Qed.
  Theorem min_semivariance_blend : forall sv1 sv2 mn, exact_solver sv1 -> exact_solver sv2 -> forall x1 y1 r1 x2 y2 r2, NoDup (map fst s) ->
    min_semivariance sv1 d mn w o = (x1, y1, Ok r1) -> min_semivariance sv2 d mn w o = (x2, y2, Ok r2) ->
    exists lb ub, bounds_in_force mn o lb ub /\ blended (map fst s) lb ub (if mn then 0 else 1) (fun x => True) (fun x => semivariance (dropna rows) (bench * (if mn then 0 else 1)) x) r1 r2.
  Proof.
    intros sv1 sv2 mn X1 X2 x1 y1 r1 x2 y2 r2 Hnd E1 E2. destruct (min_semivariance_wide _ _ _ _ _ _ _ _ _ _ _ _ _ _ wide_self_semi sv1 sv2 mn X1 X2 (same_kind_refl mn o) _ _ _ _ _ _ Hnd E1 E2) as (lb & ub & lb' & ub' & B & B' & L).
    destruct (force_same _ _ _ _ _ _ B B') as [<- <-]. exists lb, ub. split; [exact B|]. apply loosened_blended; [apply (cx_semi mn)|apply all_kept|exact L].
  Qed.
  Theorem semivariance_risk_blend : forall sv1 sv2 mn, exact_solver sv1 -> exact_solver sv2 -> forall tg, 0 <= freq -> forall x1 y1 r1 x2 y2 r2, NoDup (map fst s) ->
    semi_efficient_risk sv1 d tg mn w o = (x1, y1, Ok r1) -> semi_efficient_risk sv2 d tg mn w o = (x2, y2, Ok r2) ->
    exists lb ub, bounds_in_force mn o lb ub /\ blended (map fst s) lb ub (if mn then 0 else 1) (fun x => freq * semivariance (dropna rows) (bench * (if mn then 0 else 1)) x <= tg * tg) (fun x => - inner (map snd s) x) r1 r2.
  Proof.
    intros sv1 sv2 mn X1 X2 tg Hf x1 y1 r1 x2 y2 r2 Hnd E1 E2. destruct (semivariance_risk_wide _ _ _ _ _ _ _ _ _ _ _ _ _ _ wide_self_semi sv1 sv2 mn X1 X2 (same_kind_refl mn o) tg Hf _ _ _ _ _ _ Hnd E1 E2) as (lb & ub & lb' & ub' & B & B' & L).
    destruct (force_same _ _ _ _ _ _ B B') as [<- <-]. exists lb, ub. split; [exact B|]. apply loosened_blended; [apply linear_convex|apply (below_kept _ (fun x => freq * semivariance (dropna rows) (bench * (if mn then 0 else 1)) x)), scaled_convex, (cx_semi mn); exact Hf|exact L].
  Qed.
  Theorem semivariance_return_blend : forall sv1 sv2 mn, exact_solver sv1 -> exact_solver sv2 -> forall tg, forall x1 y1 r1 x2 y2 r2, NoDup (map fst s) ->
    semi_efficient_return sv1 d (NFloat tg) mn w o = (x1, y1, Ok r1) -> semi_efficient_return sv2 d (NFloat tg) mn w o = (x2, y2, Ok r2) ->
    exists lb ub, bounds_in_force mn o lb ub /\ blended (map fst s) lb ub (if mn then 0 else 1) (fun x => tg <= inner (map snd s) x) (fun x => semivariance (dropna rows) (bench * (if mn then 0 else 1)) x) r1 r2.
  Proof.
    intros sv1 sv2 mn X1 X2 tg x1 y1 r1 x2 y2 r2 Hnd E1 E2. destruct (semivariance_return_wide _ _ _ _ _ _ _ _ _ _ _ _ _ _ wide_self_semi sv1 sv2 mn X1 X2 (same_kind_refl mn o) tg _ _ _ _ _ _ Hnd E1 E2) as (lb & ub & lb' & ub' & B & B' & L).
    destruct (force_same _ _ _ _ _ _ B B') as [<- <-]. exists lb, ub. split; [exact B|]. apply loosened_blended; [apply (cx_semi mn)|apply above_kept|exact L].
  Qed.
  Theorem semivariance_utility_blend : forall sv1 sv2 mn, exact_solver sv1 -> exact_solver sv2 -> forall tg, forall x1 y1 r1 x2 y2 r2, NoDup (map fst s) ->
    semi_max_quadratic_utility sv1 d tg mn w o = (x1, y1, Ok r1) -> semi_max_quadratic_utility sv2 d tg mn w o = (x2, y2, Ok r2) ->
    exists lb ub, bounds_in_force mn o lb ub /\ blended (map fst s) lb ub (if mn then 0 else 1) (fun x => True) (fun x => - inner (map snd s) x / freq + 1 / 2 * tg * semivariance (dropna rows) (bench * (if mn then 0 else 1)) x) r1 r2.
  Proof.
    intros sv1 sv2 mn X1 X2 tg x1 y1 r1 x2 y2 r2 Hnd E1 E2. assert (R : 0 < tg) by (pose proof E1 as G; unfold semi_max_quadratic_utility in G; destruct (Rleb tg 0) eqn:Er; [discriminate G|]; apply Rleb_false in Er; exact Er). destruct (semivariance_utility_wide _ _ _ _ _ _ _ _ _ _ _ _ _ _ wide_self_semi sv1 sv2 mn X1 X2 (same_kind_refl mn o) tg _ _ _ _ _ _ Hnd E1 E2) as (lb & ub & lb' & ub' & B & B' & L).
    destruct (force_same _ _ _ _ _ _ B B') as [<- <-]. exists lb, ub. split; [exact B|]. apply loosened_blended; [apply (convex_ext _ _ (fun x => (- / freq) * inner (map snd s) x + 1 / 2 * tg * semivariance (dropna rows) (bench * (if mn then 0 else 1)) x)); [intros x; unfold Rdiv; ring|apply utility_convex; [lra|apply (cx_semi mn)]]|apply all_kept|exact L].
  Qed.
End Blend_semi.
Section Blend_cvar.
  Variables (s : list (label * R)) (rows : list (list (option R))) (beta : R) (b : bounds_arg) (v w : world) (o : ef) (d : cvar_data).
  Hypothesis (Hg : good_rows (length s) rows) (I : cvar_init (MIn (MuSeries s)) (RTable (length s) rows) beta b v = (w, Ok (o, d))).
  Lemma wide_self_cvar : cvar_wider s rows beta b b v v w w o o d d.
  Proof. split; [exact Hg|]. split; [exact I|]. split; [exact I|apply looser_refl]. Qed.
  Lemma cx_cvar : forall mn : bool, convex_on (length (map fst s)) (fun x => cvar beta (dropna rows) x).
  Proof. intros mn. destruct (cvar_run_facts _ _ _ _ _ _ _ _ Hg I) as (_ & Rd & (D1 & D2) & _); destruct Rd as ((Tp1 & Tp2) & Bt & _); rewrite <- D1, <- D2; apply cvar_convex; [exact Bt|auto]. Qed.
  Theorem min_cvar_blend : forall sv1 sv2 mn, exact_solver sv1 -> exact_solver sv2 -> forall x1 y1 r1 x2 y2 r2, NoDup (map fst s) ->
    min_cvar sv1 d mn w o = (x1, y1, Ok r1) -> min_cvar sv2 d mn w o = (x2, y2, Ok r2) ->
    exists lb ub, bounds_in_force mn o lb ub /\ blended (map fst s) lb ub (if mn then 0 else 1) (fun x => True) (fun x => cvar beta (dropna rows) x) r1 r2.
  Proof.
    intros sv1 sv2 mn X1 X2 x1 y1 r1 x2 y2 r2 Hnd E1 E2. destruct (min_cvar_wide _ _ _ _ _ _ _ _ _ _ _ _ _ wide_self_cvar sv1 sv2 mn X1 X2 (same_kind_refl mn o) _ _ _ _ _ _ Hnd E1 E2) as (lb & ub & lb' & ub' & B & B' & L).
    destruct (force_same _ _ _ _ _ _ B B') as [<- <-]. exists lb, ub. split; [exact B|]. apply loosened_blended; [apply (cx_cvar mn)|apply all_kept|exact L].
  Qed.
  Theorem cvar_risk_blend : forall sv1 sv2 mn, exact_solver sv1 -> exact_solver sv2 -> forall tg, forall x1 y1 r1 x2 y2 r2, NoDup (map fst s) ->
    cvar_efficient_risk sv1 d tg mn w o = (x1, y1, Ok r1) -> cvar_efficient_risk sv2 d tg mn w o = (x2, y2, Ok r2) ->
    exists lb ub, bounds_in_force mn o lb ub /\ blended (map fst s) lb ub (if mn then 0 else 1) (fun x => cvar beta (dropna rows) x <= tg) (fun x => - inner (map snd s) x) r1 r2.
  Proof.
    intros sv1 sv2 mn X1 X2 tg x1 y1 r1 x2 y2 r2 Hnd E1 E2. destruct (cvar_risk_wide _ _ _ _ _ _ _ _ _ _ _ _ _ wide_self_cvar sv1 sv2 mn X1 X2 (same_kind_refl mn o) tg _ _ _ _ _ _ Hnd E1 E2) as (lb & ub & lb' & ub' & B & B' & L).
    destruct (force_same _ _ _ _ _ _ B B') as [<- <-]. exists lb, ub. split; [exact B|]. apply loosened_blended; [apply linear_convex|apply (below_kept _ (fun x => cvar beta (dropna rows) x)), (cx_cvar mn)|exact L].
  Qed.
  Theorem cvar_return_blend : forall sv1 sv2 mn, exact_solver sv1 -> exact_solver sv2 -> forall tg, forall x1 y1 r1 x2 y2 r2, NoDup (map fst s) ->
    cvar_efficient_return sv1 d tg mn w o = (x1, y1, Ok r1) -> cvar_efficient_return sv2 d tg mn w o = (x2, y2, Ok r2) ->
    exists lb ub, bounds_in_force mn o lb ub /\ blended (map fst s) lb ub (if mn then 0 else 1) (fun x => tg <= inner (map snd s) x) (fun x => cvar beta (dropna rows) x) r1 r2.
  Proof.
    intros sv1 sv2 mn X1 X2 tg x1 y1 r1 x2 y2 r2 Hnd E1 E2. destruct (cvar_return_wide _ _ _ _ _ _ _ _ _ _ _ _ _ wide_self_cvar sv1 sv2 mn X1 X2 (same_kind_refl mn o) tg _ _ _ _ _ _ Hnd E1 E2) as (lb & ub & lb' & ub' & B & B' & L).
    destruct (force_same _ _ _ _ _ _ B B') as [<- <-]. exists lb, ub. split; [exact B|]. apply loosened_blended; [apply (cx_cvar mn)|apply above_kept|exact L].
  Qed.
End Blend_cvar.
Section Blend_cdar.
  Variables (s : list (label * R)) (rows : list (list (option R))) (beta : R) (b : bounds_arg) (v w : world) (o : ef) (d : cdar_data).
  Hypothesis (Hg : good_rows (length s) rows) (I : cdar_init (MIn (MuSeries s)) (RTable (length s) rows) beta b v = (w, Ok (o, d))).
  Lemma wide_self_cdar : cdar_wider s rows beta b b v v w w o o d d.
  Proof. split; [exact Hg|]. split; [exact I|]. split; [exact I|apply looser_refl]. Qed.
  Lemma cx_cdar : forall mn : bool, convex_on (length (map fst s)) (fun x => cdar beta (dropna rows) x).
  Proof. intros mn. destruct (cdar_run_facts _ _ _ _ _ _ _ _ Hg I) as (_ & Rd & (D1 & D2) & _); destruct Rd as ((Tp1 & Tp2) & Bt & _); rewrite <- D1, <- D2; apply cdar_convex; [exact Bt|auto]. Qed.
  Theorem min_cdar_blend : forall sv1 sv2 mn, exact_solver sv1 -> exact_solver sv2 -> forall x1 y1 r1 x2 y2 r2, NoDup (map fst s) ->
    min_cdar sv1 d mn w o = (x1, y1, Ok r1) -> min_cdar sv2 d mn w o = (x2, y2, Ok r2) ->
    exists lb ub, bounds_in_force mn o lb ub /\ blended (map fst s) lb ub (if mn then 0 else 1) (fun x => True) (fun x => cdar beta (dropna rows) x) r1 r2.
  Proof.
    intros sv1 sv2 mn X1 X2 x1 y1 r1 x2 y2 r2 Hnd E1 E2. destruct (min_cdar_wide _ _ _ _ _ _ _ _ _ _ _ _ _ wide_self_cdar sv1 sv2 mn X1 X2 (same_kind_refl mn o) _ _ _ _ _ _ Hnd E1 E2) as (lb & ub & lb' & ub' & B & B' & L).
    destruct (force_same _ _ _ _ _ _ B B') as [<- <-]. exists lb, ub. split; [exact B|]. apply loosened_blended; [apply (cx_cdar mn)|apply all_kept|exact L].
  Qed.
  Theorem cdar_risk_blend : forall sv1 sv2 mn, exact_solver sv1 -> exact_solver sv2 -> forall tg, forall x1 y1 r1 x2 y2 r2, NoDup (map fst s) ->
    cdar_efficient_risk sv1 d tg mn w o = (x1, y1, Ok r1) -> cdar_efficient_risk sv2 d tg mn w o = (x2, y2, Ok r2) ->
    exists lb ub, bounds_in_force mn o lb ub /\ blended (map fst s) lb ub (if mn then 0 else 1) (fun x => cdar beta (dropna rows) x <= tg) (fun x => - inner (map snd s) x) r1 r2.
  Proof.
    intros sv1 sv2 mn X1 X2 tg x1 y1 r1 x2 y2 r2 Hnd E1 E2. destruct (cdar_risk_wide _ _ _ _ _ _ _ _ _ _ _ _ _ wide_self_cdar sv1 sv2 mn X1 X2 (same_kind_refl mn o) tg _ _ _ _ _ _ Hnd E1 E2) as (lb & ub & lb' & ub' & B & B' & L).
    destruct (force_same _ _ _ _ _ _ B B') as [<- <-]. exists lb, ub. split; [exact B|]. apply loosened_blended; [apply linear_convex|apply (below_kept _ (fun x => cdar beta (dropna rows) x)), (cx_cdar mn)|exact L].
  Qed.
  Theorem cdar_return_blend : forall sv1 sv2 mn, exact_solver sv1 -> exact_solver sv2 -> forall tg, forall x1 y1 r1 x2 y2 r2, NoDup (map fst s) ->
    cdar_efficient_return sv1 d tg mn w o = (x1, y1, Ok r1) -> cdar_efficient_return sv2 d tg mn w o = (x2, y2, Ok r2) ->
    exists lb ub, bounds_in_force mn o lb ub /\ blended (map fst s) lb ub (if mn then 0 else 1) (fun x => tg <= inner (map snd s) x) (fun x => cdar beta (dropna rows) x) r1 r2.
  Proof.
    intros sv1 sv2 mn X1 X2 tg x1 y1 r1 x2 y2 r2 Hnd E1 E2. destruct (cdar_return_wide _ _ _ _ _ _ _ _ _ _ _ _ _ wide_self_cdar sv1 sv2 mn X1 X2 (same_kind_refl mn o) tg _ _ _ _ _ _ Hnd E1 E2) as (lb & ub & lb' & ub' & B & B' & L).
    destruct (force_same _ _ _ _ _ _ B B') as [<- <-]. exists lb, ub. split; [exact B|]. apply loosened_blended; [apply (cx_cdar mn)|apply above_kept|exact L].
  Qed.
End Blend_cdar.
