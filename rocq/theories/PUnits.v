(** * Units of measurement: EfficientFrontier (C129) *)
From Coq Require Import ZArith String List Bool Reals Lra Lia.
From Verif Require Import Num Py RBase PyLemmas SBL MBase MConvex MEF SLin SBase SConvex SPerm Sums Mat PBase PConvex PEF PEF2 PEF3 PEF4 PDown PDown2 PDown5 PObj SObj SHRP PPerm PPerm2 PEF5 PEF6 PPerm3 PPerm4 SUnits.
Import ListNotations.
Local Open Scope R_scope.

Lemma inner_times : forall a m x, inner (map (Rmult a) m) x = a * inner m x.
Proof. intros a m x. apply (inner_scale_l a m x). Qed.
Lemma qform_times : forall k M x, qform (cov_times k M) x = k * qform M x.
Proof.
  intros k M x. unfold qform, cov_times. rewrite map_map. rewrite (map_ext _ (fun row => k * inner row x)) by (intros row; apply inner_times).
  rewrite <- (map_map (fun row => inner row x) (Rmult k)). apply inner_scale_r.
Qed.
Lemma mu_times_fst : forall a s, map fst (mu_times a s) = map fst s.
Proof. intros a s. unfold mu_times. rewrite map_map. reflexivity. Qed.
Lemma mu_times_snd : forall a s, map snd (mu_times a s) = map (Rmult a) (map snd s).
Proof. intros a s. unfold mu_times. rewrite !map_map. reflexivity. Qed.
Lemma square_times : forall n k M, square n M -> square n (cov_times k M).
Proof.
  intros n k M [L F]. split; [unfold cov_times; rewrite map_length; exact L|]. apply Forall_forall. intros r Hr. apply in_map_iff in Hr as (r0 & <- & H0).
  rewrite map_length. rewrite Forall_forall in F. auto.
Qed.
Lemma psd_times : forall n k M, 0 < k -> psd n M -> psd n (cov_times k M).
Proof.
  intros n k M Hk [S P]. split; [apply square_times; exact S|]. intros x Lx. rewrite qform_times. specialize (P x Lx). nra.
Qed.
(** another unit of the costs does not change the choice *)
Lemma chosen_times : forall n lb ub sum (ok1 ok2 : list R -> Prop) c (cost1 cost2 : list R -> R), 0 < c ->
  (forall x, length x = n -> (ok1 x <-> ok2 x)) -> (forall x, length x = n -> cost2 x = c * cost1 x) ->
  forall x, chosen n lb ub sum ok1 cost1 x <-> chosen n lb ub sum ok2 cost2 x.
Proof.
  intros n lb ub sum ok1 ok2 c cost1 cost2 Hc Hok E x. unfold chosen. split; intros (L & W & S & O & M).
  - split; [exact L|]. split; [exact W|]. split; [exact S|]. split; [apply Hok; assumption|]. intros y Ly Wy Sy Oy. rewrite !E by assumption.
    apply Rmult_le_compat_l; [lra|]. apply M; try assumption. apply Hok; assumption.
  - split; [exact L|]. split; [exact W|]. split; [exact S|]. split; [apply Hok; assumption|]. intros y Ly Wy Sy Oy.
    apply (Rmult_le_reg_l c); [exact Hc|]. rewrite <- !E by assumption. apply M; try assumption. apply Hok; assumption.
Qed.
Lemma ratio_times : forall n lb ub m M rf a k x, 0 < a -> 0 < k -> psd n M ->
  (best_ratio n lb ub m M rf x <-> best_ratio n lb ub (map (Rmult a) m) (cov_times k M) (a * rf) x).
Proof.
  intros n lb ub m M rf a k x Ha Hk [SqM P]. unfold best_ratio.
  assert (Ex : forall z, excess (map (Rmult a) m) (a * rf) z = a * excess m rf z) by (intros z; unfold excess; rewrite inner_times; ring).
  assert (Eq : forall z, length z = n -> sqrt (qform (cov_times k M) z) = sqrt k * sqrt (qform M z)) by (intros z Lz; rewrite qform_times; apply sqrt_mult; [lra|apply P; exact Lz]).
  pose proof (sqrt_lt_R0 k Hk) as Sk. assert (Ask : 0 < a * sqrt k) by nra.
  split; intros (L & W & S & E & B).
  - do 3 (split; [assumption|]). rewrite Ex. split; [nra|]. intros y Ly Wy Sy. rewrite Ex, !Eq by assumption.
    specialize (B y Ly Wy Sy). apply (Rmult_le_compat_l (a * sqrt k)) in B; [|lra]. lra.
  - rewrite Ex in E. do 3 (split; [assumption|]). split; [nra|]. intros y Ly Wy Sy. specialize (B y Ly Wy Sy). rewrite !Ex, !Eq in B by assumption.
    apply (Rmult_le_reg_l (a * sqrt k)); [exact Ask|]. lra.
Qed.

Section Measured.
  Variables (a k : R) (s : list (label * R)) (cols : list label) (rows : list (list R)) (b : bounds_arg) (v1 v2 w1 w2 : world) (o1 o2 : ef).
  Hypothesis T : measured a k s cols rows b v1 v2 w1 w2 o1 o2.
  Let n := length s.
  Let m := map snd s.

  Lemma measured_facts : 0 < a /\ 0 < k /\ square n rows /\
    open_ef w1 o1 [] /\ open_ef w2 o2 [] /\ e_n o1 = n /\ e_n o2 = n /\ e_add o1 = [] /\ e_add o2 = [] /\
    b_tickers (e_base o1) = map fst s /\ b_tickers (e_base o2) = map fst s /\
    e_mu o1 = Some m /\ e_mu o2 = Some (map (Rmult a) m) /\ e_cov o1 = rows /\ e_cov o2 = cov_times k rows /\
    e_lb o2 = e_lb o1 /\ e_ub o2 = e_ub o1 /\ e_maxret o1 = None /\ e_maxret o2 = None /\
    (forall name, fresh_name w1 o1 name) /\ (forall name, fresh_name w2 o2 name).
  Proof.
    destruct T as (Ha & Hk & HM & E1 & E2). pose proof (square_times _ k _ HM) as HM'. fold n in HM, HM'.
    destruct (ef_init_inv _ _ _ _ _ _ E1) as [m1 [lb [ub [Em [Hs [Hr [Ew Eo]]]]]]]. inversion Em; subst m1.
    destruct (ef_init_inv _ _ _ _ _ _ E2) as [m2 [lb' [ub' [Em' [Hs' [Hr' [Ew' Eo']]]]]]]. inversion Em'; subst m2.
    assert (N1 : length (init_tickers (MuSeries s) (CovFrame cols rows)) = n) by (cbn [init_tickers]; apply map_length).
    assert (N2 : length (init_tickers (MuSeries (mu_times a s)) (CovFrame cols (cov_times k rows))) = n) by (cbn [init_tickers]; rewrite mu_times_fst; apply map_length).
    pose proof (PEF2.init_open _ _ b v1 lb ub Hs) as O1. pose proof (PEF2.init_open _ _ b v2 lb' ub' Hs') as O2.
    rewrite N1 in *. rewrite N2 in *. specialize (O1 HM Hr). specialize (O2 HM' Hr'). rewrite <- Ew, <- Eo in O1. rewrite <- Ew', <- Eo' in O2.
    rewrite Hr in Hr'. inversion Hr'; subst lb' ub'.
    split; [exact Ha|]. split; [exact Hk|]. split; [exact HM|]. split; [exact O1|]. split; [exact O2|].
    rewrite Eo, Eo'. unfold e_n. cbn [init_ef e_base b_tickers e_add e_mu e_cov e_lb e_ub e_maxret mu_values cov_values].
    rewrite N1, N2. cbn [init_tickers]. rewrite mu_times_fst, mu_times_snd.
    do 14 (split; [reflexivity|]). split; intros name q Hq; cbn in Hq; contradiction.
  Qed.
  Ltac facts := destruct measured_facts as (Ha & Hk & HM & O1 & O2 & N1 & N2 & A1 & A2 & T1 & T2 & M1 & M2 & C1 & C2 & LB & UB & R1 & R2 & F1 & F2).

  Lemma answers_from : forall w o lb ub sum (ok : list R -> Prop) cost d ws, NoDup (map fst s) -> open_ef w o [] -> e_add o = [] -> e_n o = n -> b_tickers (e_base o) = map fst s ->
    best_portfolio w o [] lb ub sum ok cost ws d -> answers (map fst s) lb ub sum ok cost d.
  Proof.
    intros w o lb ub sum ok cost d ws Hnd (_ & _ & _ & _ & Hsz & _) A N E B. destruct (best_chosen _ _ _ _ _ _ _ _ _ Hsz A B) as [x [r [C [_ [F Ed]]]]]. rewrite N in C.
    exists x, r. rewrite map_length. fold n. split; [exact C|]. split; [exact F|]. intros t. subst d. rewrite E.
    rewrite dict_of_pairs_NoDup; [reflexivity|]. rewrite fst_combine; [exact Hnd|]. rewrite map_length, <- (Forall2_length _ _ _ F). destruct C as [C _]. symmetry. exact C.
  Qed.
  Lemma answers_times : forall lb ub sum (ok1 ok2 : list R -> Prop) c (cost1 cost2 : list R -> R) d, 0 < c ->
    (forall x, length x = n -> (ok1 x <-> ok2 x)) -> (forall x, length x = n -> cost2 x = c * cost1 x) ->
    answers (map fst s) lb ub sum ok2 cost2 d -> answers (map fst s) lb ub sum ok1 cost1 d.
  Proof.
    intros lb ub sum ok1 ok2 c cost1 cost2 d Hc Hok E (x & r & C & F). exists x, r. split; [|exact F].
    rewrite map_length in *. fold n in C |- *. apply (chosen_times n lb ub sum ok1 ok2 c cost1 cost2); assumption.
  Qed.
  Lemma force_same : forall mn lb ub, bounds_in_force mn o2 lb ub -> bounds_in_force mn o1 lb ub.
  Proof. intros mn lb ub. facts. unfold bounds_in_force. rewrite LB, UB, N1, N2. auto. Qed.
  Lemma force_same' : forall mn lb ub, bounds_in_force mn o1 lb ub -> bounds_in_force mn o2 lb ub.
  Proof. intros mn lb ub. facts. unfold bounds_in_force. rewrite LB, UB, N1, N2. auto. Qed.

  (** ** The answers *)
  Variables (sv1 sv2 : solver_t) (x1 x2 : world) (y1 y2 : ef) (d1 d2 : dict R).
  Hypothesis (Hnd : NoDup (map fst s)) (S1 : exact_solver sv1) (S2 : exact_solver sv2).

  Theorem units_min_volatility : min_volatility sv1 w1 o1 = (x1, y1, Ok d1) -> min_volatility sv2 w2 o2 = (x2, y2, Ok d2) ->
    answers (map fst s) (e_lb o1) (e_ub o1) 1 (fun _ => True) (qform rows) d1 /\
    answers (map fst s) (e_lb o1) (e_ub o1) 1 (fun _ => True) (qform rows) d2.
  Proof.
    intros E1 E2. facts.
    apply (min_volatility_best _ _ _ _ _ _ _ S1 O1) in E1. apply (min_volatility_best _ _ _ _ _ _ _ S2 O2) in E2. rewrite C1 in E1. rewrite C2, LB, UB in E2.
    split; [apply answers_from in E1; assumption|]. apply answers_from in E2; try assumption. revert E2. apply (answers_times _ _ _ _ _ k); [exact Hk|tauto|]. intros x _. apply qform_times.
  Qed.
  Theorem units_utility : forall ra mn, max_quadratic_utility sv1 ra mn w1 o1 = (x1, y1, Ok d1) ->
    max_quadratic_utility sv2 (ra * a / k) mn w2 o2 = (x2, y2, Ok d2) ->
    exists lb ub, bounds_in_force mn o1 lb ub /\
    answers (map fst s) lb ub (if mn then 0 else 1) (fun _ => True) (fun x => - (inner m x - ra / 2 * qform rows x)) d1 /\
    answers (map fst s) lb ub (if mn then 0 else 1) (fun _ => True) (fun x => - (inner m x - ra / 2 * qform rows x)) d2.
  Proof.
    intros ra mn E1 E2. facts.
    apply (utility_best _ _ _ _ _ _ _ _ _ _ S1 O1 M1 (F1 _)) in E1. apply (utility_best _ _ _ _ _ _ _ _ _ _ S2 O2 M2 (F2 _)) in E2.
    destruct E1 as [Hra [lb [ub [B1 E1]]]], E2 as [_ [lb2 [ub2 [B2 E2]]]]. rewrite C1 in E1. rewrite C2 in E2. apply force_same in B2.
    destruct (in_force_unique _ _ _ _ _ _ B1 B2) as [<- <-]. exists lb, ub. split; [exact B1|].
    split; [apply answers_from in E1; assumption|]. apply answers_from in E2; try assumption. revert E2. apply (answers_times _ _ _ _ _ a); [exact Ha|tauto|].
    intros x _. rewrite qform_times, inner_times. field. lra.
  Qed.
  Theorem units_return : forall t mn, efficient_return sv1 (NFloat t) mn w1 o1 = (x1, y1, Ok d1) ->
    efficient_return sv2 (NFloat (a * t)) mn w2 o2 = (x2, y2, Ok d2) ->
    exists lb ub, bounds_in_force mn o1 lb ub /\
    answers (map fst s) lb ub (if mn then 0 else 1) (fun x => t <= inner m x) (qform rows) d1 /\
    answers (map fst s) lb ub (if mn then 0 else 1) (fun x => t <= inner m x) (qform rows) d2.
  Proof.
    intros t mn E1 E2. facts.
    apply (efficient_return_best _ _ _ _ _ _ _ _ _ _ S1 O1 M1 (F1 _)) in E1. apply (efficient_return_best _ _ _ _ _ _ _ _ _ _ S2 O2 M2 (F2 _)) in E2.
    destruct E1 as [t1 [lb [ub [Et [B1 E1]]]]], E2 as [t2 [lb2 [ub2 [Et2 [B2 E2]]]]]. rewrite C1 in E1. rewrite C2 in E2. injection Et as <-. injection Et2 as <-. apply force_same in B2.
    destruct (in_force_unique _ _ _ _ _ _ B1 B2) as [<- <-]. exists lb, ub. split; [exact B1|].
    split; [apply answers_from in E1; assumption|]. apply answers_from in E2; try assumption. revert E2. apply (answers_times _ _ _ _ _ k); [exact Hk| |intros x _; apply qform_times].
    intros x _. rewrite inner_times. split; intros Q; nra.
  Qed.
  Theorem units_risk : forall pinv1 pinv2 t mn, efficient_risk sv1 pinv1 (NFloat t) mn w1 o1 = (x1, y1, Ok d1) ->
    efficient_risk sv2 pinv2 (NFloat (sqrt k * t)) mn w2 o2 = (x2, y2, Ok d2) ->
    exists lb ub, bounds_in_force mn o1 lb ub /\
    answers (map fst s) lb ub (if mn then 0 else 1) (fun x => qform rows x <= t * t) (fun x => - inner m x) d1 /\
    answers (map fst s) lb ub (if mn then 0 else 1) (fun x => qform rows x <= t * t) (fun x => - inner m x) d2.
  Proof.
    intros pinv1 pinv2 t mn E1 E2. facts.
    apply (efficient_risk_best _ _ _ _ _ _ _ _ _ _ _ S1 O1 M1 (F1 _)) in E1. apply (efficient_risk_best _ _ _ _ _ _ _ _ _ _ _ S2 O2 M2 (F2 _)) in E2.
    destruct E1 as [t1 [lb [ub [Et [_ [B1 E1]]]]]], E2 as [t2 [lb2 [ub2 [Et2 [_ [B2 E2]]]]]]. rewrite C1 in E1. rewrite C2 in E2. cbn [target_of] in Et, Et2. injection Et as <-. injection Et2 as <-. apply force_same in B2.
    destruct (in_force_unique _ _ _ _ _ _ B1 B2) as [<- <-]. exists lb, ub. split; [exact B1|].
    split; [apply answers_from in E1; assumption|]. apply answers_from in E2; try assumption. revert E2. apply (answers_times _ _ _ _ _ a); [exact Ha| |intros x _; rewrite inner_times; ring].
    intros x _. rewrite qform_times. replace (sqrt k * t * (sqrt k * t)) with (k * (t * t)) by (rewrite <- (sqrt_sqrt k) at 1 by lra; ring). split; intros Q; nra.
  Qed.
  Theorem units_sharpe : forall rf, psd n rows -> max_sharpe sv1 (NFloat rf) w1 o1 = (x1, y1, Ok d1) -> max_sharpe sv2 (NFloat (a * rf)) w2 o2 = (x2, y2, Ok d2) ->
    ratio_answers (map fst s) (e_lb o1) (e_ub o1) m rows rf d1 /\ ratio_answers (map fst s) (e_lb o1) (e_ub o1) m rows rf d2.
  Proof.
    intros rf HP E1 E2. facts.
    apply (fun P => sharpe_ratio _ _ _ _ _ _ _ _ S1 O1 A1 P M1) in E1; [|rewrite N1, C1; exact HP].
    apply (fun P => sharpe_ratio _ _ _ _ _ _ _ _ S2 O2 A2 P M2) in E2; [|rewrite N2, C2; apply psd_times; assumption].
    destruct E1 as [r [z [rr [Er [B1 [G1 D1]]]]]], E2 as [r2 [z2 [rr2 [Er2 [B2 [G2 D2]]]]]]. cbn [target_of] in Er, Er2. injection Er as <-. injection Er2 as <-.
    rewrite N1, C1 in B1. rewrite N2, C2, LB, UB in B2. apply ratio_times in B2; try assumption.
    split.
    - exists z, rr. rewrite map_length. fold n. split; [exact B1|]. split; [exact G1|]. intros t. subst d1. rewrite T1, dict_of_pairs_NoDup; [reflexivity|].
      rewrite fst_combine; [exact Hnd|]. rewrite map_length, <- (Forall2_length _ _ _ G1). destruct B1 as [B1 _]. symmetry. exact B1.
    - exists z2, rr2. rewrite map_length. fold n. split; [exact B2|]. split; [exact G2|]. intros t. subst d2. rewrite T2, dict_of_pairs_NoDup; [reflexivity|].
      rewrite fst_combine; [exact Hnd|]. rewrite map_length, <- (Forall2_length _ _ _ G2). destruct B2 as [B2 _]. symmetry. exact B2.
  Qed.
End Measured.
