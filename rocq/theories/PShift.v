(** * The same amount added to all expected returns: EfficientFrontier (C138) *)
From Coq Require Import ZArith String List Bool Reals Lra Lia.
From Verif Require Import Num Py RBase PyLemmas SBL MBase MConvex MEF SLin SBase SConvex SPerm Sums Mat PBase PConvex PEF PEF2 PEF3 PEF4 PDown PDown2 PDown5 PObj SObj SHRP PPerm PPerm2 PEF5 PEF6 PPerm3 PPerm4 PUnits PUnits2 SShift.
Import ListNotations.
Local Open Scope R_scope.

Lemma inner_plus : forall c m x, length m = length x -> inner (map (fun v => v + c) m) x = inner m x + c * total x.
Proof.
  intros c m. induction m as [|v m IH]; intros [|y x] L; try discriminate L; cbn [map inner total]; [ring|]. rewrite IH by (injection L; auto). ring.
Qed.
Lemma mu_plus_fst : forall c s, map fst (mu_plus c s) = map fst s.
Proof. intros c s. unfold mu_plus. rewrite map_map. reflexivity. Qed.
Lemma mu_plus_snd : forall c s, map snd (mu_plus c s) = map (fun v => v + c) (map snd s).
Proof. intros c s. unfold mu_plus. rewrite !map_map. reflexivity. Qed.
Lemma chosen_shift : forall n lb ub sum (ok1 ok2 : list R -> Prop) e (cost1 cost2 : list R -> R),
  (forall x, length x = n -> total x = sum -> (ok1 x <-> ok2 x)) -> (forall x, length x = n -> total x = sum -> cost2 x = cost1 x + e) ->
  forall x, chosen n lb ub sum ok1 cost1 x <-> chosen n lb ub sum ok2 cost2 x.
Proof.
  intros n lb ub sum ok1 ok2 e cost1 cost2 Hok E x. unfold chosen. split; intros (L & W & S & O & M).
  - split; [exact L|]. split; [exact W|]. split; [exact S|]. split; [apply Hok; assumption|]. intros y Ly Wy Sy Oy. rewrite !E by assumption.
    apply Rplus_le_compat_r. apply M; try assumption. apply Hok; assumption.
  - split; [exact L|]. split; [exact W|]. split; [exact S|]. split; [apply Hok; assumption|]. intros y Ly Wy Sy Oy.
    apply (Rplus_le_reg_r e). rewrite <- !E by assumption. apply M; try assumption. apply Hok; assumption.
Qed.
Lemma ratio_shift : forall n lb ub m M rf c x, length m = n ->
  (best_ratio n lb ub m M rf x <-> best_ratio n lb ub (map (fun v => v + c) m) M (rf + c) x).
Proof.
  intros n lb ub m M rf c x Lm. unfold best_ratio.
  assert (Ex : forall z, length z = n -> total z = 1 -> excess (map (fun v => v + c) m) (rf + c) z = excess m rf z) by (intros z Lz Tz; unfold excess; rewrite inner_plus by congruence; rewrite Tz; ring).
  split; intros (L & W & S & E & B).
  - do 3 (split; [assumption|]). rewrite Ex by assumption. split; [exact E|]. intros y Ly Wy Sy. rewrite Ex by assumption. apply B; assumption.
  - rewrite Ex in E by assumption. do 3 (split; [assumption|]). split; [exact E|]. intros y Ly Wy Sy. specialize (B y Ly Wy Sy). rewrite !Ex in B by assumption. exact B.
Qed.
Theorem shift_accepted : forall c s cols rows b v1 v2 w1 o1, square (List.length s) rows ->
  ef_init (MIn (MuSeries s)) (CIn (CovFrame cols rows)) b v1 = (w1, Ok o1) ->
  exists w2 o2, ef_init (MIn (MuSeries (mu_plus c s))) (CIn (CovFrame cols rows)) b v2 = (w2, Ok o2).
Proof.
  intros c s cols rows b v1 v2 w1 o1 HM E. destruct (ef_init_inv _ _ _ _ _ _ E) as [m [lb [ub [Em [Hs [Hr _]]]]]]. inversion Em; subst m.
  cbn [init_tickers] in Hr. rewrite map_length in Hr. eexists _, _. apply ef_init_ok with (lb := lb) (ub := ub).
  - unfold init_shape_ok. cbn [mu_values cov_values]. rewrite mu_plus_snd, !map_length.
    split; [apply HM|]. destruct (List.length s) as [|n] eqn:En.
    + destruct HM as [A _]. destruct rows; [reflexivity|discriminate A].
    + apply num_cols_square; [lia|exact HM].
  - cbn [init_tickers]. rewrite mu_plus_fst, map_length. exact Hr.
Qed.

Section Shifted.
  Variables (c : R) (s : list (label * R)) (cols : list label) (rows : list (list R)) (b : bounds_arg) (v1 v2 w1 w2 : world) (o1 o2 : ef).
  Hypothesis T : shifted c s cols rows b v1 v2 w1 w2 o1 o2.
  Let n := length s.
  Let m := map snd s.
  Let m' := map (fun v => v + c) m.
  Lemma m_len : length m = n. Proof. apply map_length. Qed.
  Lemma level : forall x sum, length x = n -> total x = sum -> inner m' x = inner m x + c * sum.
  Proof. intros x sum L <-. apply inner_plus. rewrite m_len. symmetry. exact L. Qed.

  Lemma shifted_facts : square n rows /\
    open_ef w1 o1 [] /\ open_ef w2 o2 [] /\ e_n o1 = n /\ e_n o2 = n /\ e_add o1 = [] /\ e_add o2 = [] /\
    b_tickers (e_base o1) = map fst s /\ b_tickers (e_base o2) = map fst s /\
    e_mu o1 = Some m /\ e_mu o2 = Some m' /\ e_cov o1 = rows /\ e_cov o2 = rows /\
    e_lb o2 = e_lb o1 /\ e_ub o2 = e_ub o1 /\ e_maxret o1 = None /\ e_maxret o2 = None /\
    (forall name, fresh_name w1 o1 name) /\ (forall name, fresh_name w2 o2 name).
  Proof.
    destruct T as (HM & E1 & E2). fold n in HM.
    destruct (ef_init_inv _ _ _ _ _ _ E1) as [m1 [lb [ub [Em [Hs [Hr [Ew Eo]]]]]]]. inversion Em; subst m1.
    destruct (ef_init_inv _ _ _ _ _ _ E2) as [m2 [lb' [ub' [Em' [Hs' [Hr' [Ew' Eo']]]]]]]. inversion Em'; subst m2.
    assert (N1 : length (init_tickers (MuSeries s) (CovFrame cols rows)) = n) by (cbn [init_tickers]; apply map_length).
    assert (N2 : length (init_tickers (MuSeries (mu_plus c s)) (CovFrame cols rows)) = n) by (cbn [init_tickers]; rewrite mu_plus_fst; apply map_length).
    pose proof (PEF2.init_open _ _ b v1 lb ub Hs) as O1. pose proof (PEF2.init_open _ _ b v2 lb' ub' Hs') as O2.
    rewrite N1 in *. rewrite N2 in *. specialize (O1 HM Hr). specialize (O2 HM Hr'). rewrite <- Ew, <- Eo in O1. rewrite <- Ew', <- Eo' in O2.
    rewrite Hr in Hr'. inversion Hr'; subst lb' ub'.
    split; [exact HM|]. split; [exact O1|]. split; [exact O2|].
    rewrite Eo, Eo'. unfold e_n. cbn [init_ef e_base b_tickers e_add e_mu e_cov e_lb e_ub e_maxret mu_values cov_values].
    rewrite N1, N2. cbn [init_tickers]. rewrite mu_plus_fst, mu_plus_snd.
    do 14 (split; [reflexivity|]). split; intros name q Hq; cbn in Hq; contradiction.
  Qed.
  Ltac facts := destruct shifted_facts as (HM & O1 & O2 & N1 & N2 & A1 & A2 & T1 & T2 & M1 & M2 & C1 & C2 & LB & UB & R1 & R2 & F1 & F2).

  Lemma s_answers_from : forall w o lb ub sum (ok : list R -> Prop) cost d ws, NoDup (map fst s) -> open_ef w o [] -> e_add o = [] -> e_n o = n -> b_tickers (e_base o) = map fst s ->
    best_portfolio w o [] lb ub sum ok cost ws d -> answers (map fst s) lb ub sum ok cost d.
  Proof.
    intros w o lb ub sum ok cost d ws Hnd (_ & _ & _ & _ & Hsz & _) A N E B. destruct (best_chosen _ _ _ _ _ _ _ _ _ Hsz A B) as [x [r [C [_ [F Ed]]]]]. rewrite N in C.
    exists x, r. rewrite map_length. fold n. split; [exact C|]. split; [exact F|]. intros t. subst d. rewrite E.
    rewrite dict_of_pairs_NoDup; [reflexivity|]. rewrite fst_combine; [exact Hnd|]. rewrite map_length, <- (Forall2_length _ _ _ F). destruct C as [C _]. symmetry. exact C.
  Qed.
  Lemma answers_shift : forall lb ub sum (ok1 ok2 : list R -> Prop) e (cost1 cost2 : list R -> R) d,
    (forall x, length x = n -> total x = sum -> (ok1 x <-> ok2 x)) -> (forall x, length x = n -> total x = sum -> cost2 x = cost1 x + e) ->
    answers (map fst s) lb ub sum ok2 cost2 d -> answers (map fst s) lb ub sum ok1 cost1 d.
  Proof.
    intros lb ub sum ok1 ok2 e cost1 cost2 d Hok E (x & r & C & F). exists x, r. split; [|exact F].
    rewrite map_length in *. fold n in C |- *. apply (chosen_shift n lb ub sum ok1 ok2 e cost1 cost2); assumption.
  Qed.
  Lemma s_force : forall mn lb ub, bounds_in_force mn o2 lb ub <-> bounds_in_force mn o1 lb ub.
  Proof. intros mn lb ub. facts. unfold bounds_in_force. rewrite LB, UB, N1, N2. tauto. Qed.

  Section Answers.
    Variables (sv1 sv2 : solver_t) (x1 x2 : world) (y1 y2 : ef) (d1 d2 : dict R).
    Hypothesis (Hnd : NoDup (map fst s)) (S1 : exact_solver sv1) (S2 : exact_solver sv2).
    Theorem shift_min_volatility : min_volatility sv1 w1 o1 = (x1, y1, Ok d1) -> min_volatility sv2 w2 o2 = (x2, y2, Ok d2) ->
      answers (map fst s) (e_lb o1) (e_ub o1) 1 (fun _ => True) (qform rows) d1 /\
      answers (map fst s) (e_lb o1) (e_ub o1) 1 (fun _ => True) (qform rows) d2.
    Proof.
      intros E1 E2. facts.
      apply (min_volatility_best _ _ _ _ _ _ _ S1 O1) in E1. apply (min_volatility_best _ _ _ _ _ _ _ S2 O2) in E2. rewrite C1 in E1. rewrite C2, LB, UB in E2.
      split; [apply s_answers_from in E1; assumption|]. apply s_answers_from in E2; assumption.
    Qed.
    Theorem shift_utility : forall ra mn, max_quadratic_utility sv1 ra mn w1 o1 = (x1, y1, Ok d1) ->
      max_quadratic_utility sv2 ra mn w2 o2 = (x2, y2, Ok d2) ->
      exists lb ub, bounds_in_force mn o1 lb ub /\
      answers (map fst s) lb ub (if mn then 0 else 1) (fun _ => True) (fun x => - (inner m x - ra / 2 * qform rows x)) d1 /\
      answers (map fst s) lb ub (if mn then 0 else 1) (fun _ => True) (fun x => - (inner m x - ra / 2 * qform rows x)) d2.
    Proof.
      intros ra mn E1 E2. facts.
      apply (utility_best _ _ _ _ _ _ _ _ _ _ S1 O1 M1 (F1 _)) in E1. apply (utility_best _ _ _ _ _ _ _ _ _ _ S2 O2 M2 (F2 _)) in E2.
      destruct E1 as [Hra [lb [ub [B1 E1]]]], E2 as [_ [lb2 [ub2 [B2 E2]]]]. rewrite C1 in E1. rewrite C2 in E2. apply s_force in B2.
      destruct (in_force_unique _ _ _ _ _ _ B1 B2) as [<- <-]. exists lb, ub. split; [exact B1|].
      split; [apply s_answers_from in E1; assumption|]. apply s_answers_from in E2; try assumption. revert E2.
      apply (answers_shift _ _ _ _ _ (- (c * (if mn then 0 else 1)))); [tauto|]. intros x Lx Tx. rewrite (level x _ Lx Tx). ring.
    Qed.
    Theorem shift_return : forall t mn, efficient_return sv1 (NFloat t) mn w1 o1 = (x1, y1, Ok d1) ->
      efficient_return sv2 (NFloat (target_plus c t mn)) mn w2 o2 = (x2, y2, Ok d2) ->
      exists lb ub, bounds_in_force mn o1 lb ub /\
      answers (map fst s) lb ub (if mn then 0 else 1) (fun x => t <= inner m x) (qform rows) d1 /\
      answers (map fst s) lb ub (if mn then 0 else 1) (fun x => t <= inner m x) (qform rows) d2.
    Proof.
      intros t mn E1 E2. facts.
      apply (efficient_return_best _ _ _ _ _ _ _ _ _ _ S1 O1 M1 (F1 _)) in E1. apply (efficient_return_best _ _ _ _ _ _ _ _ _ _ S2 O2 M2 (F2 _)) in E2.
      destruct E1 as [t1 [lb [ub [Et [B1 E1]]]]], E2 as [t2 [lb2 [ub2 [Et2 [B2 E2]]]]]. rewrite C1 in E1. rewrite C2 in E2. injection Et as <-. injection Et2 as <-. apply s_force in B2.
      destruct (in_force_unique _ _ _ _ _ _ B1 B2) as [<- <-]. exists lb, ub. split; [exact B1|].
      split; [apply s_answers_from in E1; assumption|]. apply s_answers_from in E2; try assumption. revert E2.
      apply (answers_shift _ _ _ _ _ 0); [|intros; ring]. intros x Lx Tx. rewrite (level x _ Lx Tx). unfold target_plus. destruct mn; split; intros; lra.
    Qed.
    Theorem shift_risk : forall pinv1 pinv2 t mn, efficient_risk sv1 pinv1 t mn w1 o1 = (x1, y1, Ok d1) ->
      efficient_risk sv2 pinv2 t mn w2 o2 = (x2, y2, Ok d2) ->
      exists lb ub tv, target_of t = Some tv /\ bounds_in_force mn o1 lb ub /\
      answers (map fst s) lb ub (if mn then 0 else 1) (fun x => qform rows x <= tv * tv) (fun x => - inner m x) d1 /\
      answers (map fst s) lb ub (if mn then 0 else 1) (fun x => qform rows x <= tv * tv) (fun x => - inner m x) d2.
    Proof.
      intros pinv1 pinv2 t mn E1 E2. facts.
      apply (efficient_risk_best _ _ _ _ _ _ _ _ _ _ _ S1 O1 M1 (F1 _)) in E1. apply (efficient_risk_best _ _ _ _ _ _ _ _ _ _ _ S2 O2 M2 (F2 _)) in E2.
      destruct E1 as [t1 [lb [ub [Et [_ [B1 E1]]]]]], E2 as [t2 [lb2 [ub2 [Et2 [_ [B2 E2]]]]]]. rewrite C1 in E1. rewrite C2 in E2. rewrite Et in Et2. injection Et2 as <-. apply s_force in B2.
      destruct (in_force_unique _ _ _ _ _ _ B1 B2) as [<- <-]. exists lb, ub, t1. split; [exact Et|]. split; [exact B1|].
      split; [apply s_answers_from in E1; assumption|]. apply s_answers_from in E2; try assumption. revert E2.
      apply (answers_shift _ _ _ _ _ (- (c * (if mn then 0 else 1)))); [tauto|]. intros x Lx Tx. rewrite (level x _ Lx Tx). ring.
    Qed.
    Theorem shift_sharpe : forall rf, psd n rows -> max_sharpe sv1 (NFloat rf) w1 o1 = (x1, y1, Ok d1) -> max_sharpe sv2 (NFloat (rf + c)) w2 o2 = (x2, y2, Ok d2) ->
      ratio_answers (map fst s) (e_lb o1) (e_ub o1) m rows rf d1 /\ ratio_answers (map fst s) (e_lb o1) (e_ub o1) m rows rf d2.
    Proof.
      intros rf HP E1 E2. facts.
      apply (fun P => sharpe_ratio _ _ _ _ _ _ _ _ S1 O1 A1 P M1) in E1; [|rewrite N1, C1; exact HP].
      apply (fun P => sharpe_ratio _ _ _ _ _ _ _ _ S2 O2 A2 P M2) in E2; [|rewrite N2, C2; exact HP].
      destruct E1 as [r [z [rr [Er [B1 [G1 D1]]]]]], E2 as [r2 [z2 [rr2 [Er2 [B2 [G2 D2]]]]]]. cbn [target_of] in Er, Er2. injection Er as <-. injection Er2 as <-.
      rewrite N1, C1 in B1. rewrite N2, C2, LB, UB in B2. apply (ratio_shift _ _ _ _ _ _ _ _ m_len) in B2.
      split.
      - exists z, rr. rewrite map_length. fold n. split; [exact B1|]. split; [exact G1|]. intros t. subst d1. rewrite T1, dict_of_pairs_NoDup; [reflexivity|].
        rewrite fst_combine; [exact Hnd|]. rewrite map_length, <- (Forall2_length _ _ _ G1). destruct B1 as [B1 _]. symmetry. exact B1.
      - exists z2, rr2. rewrite map_length. fold n. split; [exact B2|]. split; [exact G2|]. intros t. subst d2. rewrite T2, dict_of_pairs_NoDup; [reflexivity|].
        rewrite fst_combine; [exact Hnd|]. rewrite map_length, <- (Forall2_length _ _ _ G2). destruct B2 as [B2 _]. symmetry. exact B2.
    Qed.

    (** ** The same weights when the matrix is positive definite *)
    Hypothesis HPD : pos_def n rows.
    Theorem shift_same_min_volatility : min_volatility sv1 w1 o1 = (x1, y1, Ok d1) -> min_volatility sv2 w2 o2 = (x2, y2, Ok d2) -> agree d1 d2.
    Proof.
      intros E1 E2. destruct (shift_min_volatility E1 E2) as [A1 A2].
      apply (answers_cost _ _ _ _ _ _ (fun z => 1 * qform rows z + 0)) in A1; [|intros; ring].
      apply (answers_cost _ _ _ _ _ _ (fun z => 1 * qform rows z + 0)) in A2; [|intros; ring].
      refine (answers_same _ _ _ _ _ _ _ _ _ A1 A2). rewrite map_length.
      apply (chosen_unique n rows _ _ _ _ 1 (fun _ => 0)); [exact HPD|lra| |tauto]. intros; ring.
    Qed.
    Theorem shift_same_utility : forall ra mn, 0 < ra -> max_quadratic_utility sv1 ra mn w1 o1 = (x1, y1, Ok d1) ->
      max_quadratic_utility sv2 ra mn w2 o2 = (x2, y2, Ok d2) -> agree d1 d2.
    Proof.
      intros ra mn Hra E1 E2. destruct (shift_utility ra mn E1 E2) as [lb [ub [_ [A1 A2]]]].
      apply (answers_cost _ _ _ _ _ _ (fun z => ra / 2 * qform rows z + - inner m z)) in A1; [|intros; ring].
      apply (answers_cost _ _ _ _ _ _ (fun z => ra / 2 * qform rows z + - inner m z)) in A2; [|intros; ring].
      refine (answers_same _ _ _ _ _ _ _ _ _ A1 A2). rewrite map_length.
      apply (chosen_unique n rows _ _ _ _ (ra / 2) (fun z => - inner m z)); [exact HPD|lra| |tauto].
      intros x y t Hx Hy. rewrite inner_blend by congruence. ring.
    Qed.
    Theorem shift_same_return : forall t mn, efficient_return sv1 (NFloat t) mn w1 o1 = (x1, y1, Ok d1) ->
      efficient_return sv2 (NFloat (target_plus c t mn)) mn w2 o2 = (x2, y2, Ok d2) -> agree d1 d2.
    Proof.
      intros t mn E1 E2. destruct (shift_return t mn E1 E2) as [lb [ub [_ [A1 A2]]]].
      apply (answers_cost _ _ _ _ _ _ (fun z => 1 * qform rows z + 0)) in A1; [|intros; ring].
      apply (answers_cost _ _ _ _ _ _ (fun z => 1 * qform rows z + 0)) in A2; [|intros; ring].
      refine (answers_same _ _ _ _ _ _ _ _ _ A1 A2). rewrite map_length.
      apply (chosen_unique n rows _ _ _ _ 1 (fun _ => 0)); [exact HPD|lra| |]; [intros; ring|].
      intros x y Hx Hy X Y. rewrite inner_blend by congruence. lra.
    Qed.
    Theorem shift_same_sharpe : forall rf, max_sharpe sv1 (NFloat rf) w1 o1 = (x1, y1, Ok d1) -> max_sharpe sv2 (NFloat (rf + c)) w2 o2 = (x2, y2, Ok d2) -> agree d1 d2.
    Proof.
      intros rf E1 E2. destruct (shift_sharpe rf (pos_def_psd _ _ HPD) E1 E2) as [[z [rr [B1 [F1 D1]]]] [z2 [rr2 [B2 [F2 D2]]]]].
      rewrite map_length in B1, B2. assert (z = z2) as <- by exact (ratio_unique _ _ _ _ _ _ _ _ HPD (map_length _ _) B1 B2).
      intros t. rewrite D1, D2, (Forall2_rounded_unique _ _ _ F1 F2). reflexivity.
    Qed.
  End Answers.

  Section Success.
    Variables (sv1 sv2 : solver_t).
    Hypothesis (X1 : exact_solver sv1) (X2 : exact_solver sv2) (K1 : complete_solver sv1) (K2 : complete_solver sv2).
    Lemma shift_force : forall (mn : bool) (ok1 ok2 : list R -> Prop) e (cost1 cost2 : list R -> R), let sum := if mn then 0 else 1 in
      (forall x, List.length x = n -> total x = sum -> (ok1 x <-> ok2 x)) -> (forall x, List.length x = n -> total x = sum -> cost2 x = cost1 x + e) ->
      ((exists lb ub x, bounds_in_force mn o1 lb ub /\ chosen n lb ub sum ok1 cost1 x) <->
       (exists lb ub x, bounds_in_force mn o2 lb ub /\ chosen n lb ub sum ok2 cost2 x)).
    Proof.
      intros mn ok1 ok2 e cost1 cost2 sum Hok E.
      split; intros (lb & ub & x & B & C); exists lb, ub, x; (split; [apply s_force; exact B|apply (chosen_shift n lb ub sum ok1 ok2 e cost1 cost2); assumption]).
    Qed.
    Theorem shift_both_min_volatility : succeeds (min_volatility sv1) w1 o1 <-> succeeds (min_volatility sv2) w2 o2.
    Proof. facts. rewrite min_volatility_iff, min_volatility_iff by assumption. rewrite N1, N2, C1, C2, LB, UB. tauto. Qed.
    Theorem shift_both_utility : forall ra mn, succeeds (max_quadratic_utility sv1 ra mn) w1 o1 <-> succeeds (max_quadratic_utility sv2 ra mn) w2 o2.
    Proof.
      intros ra mn. facts.
      destruct (Rle_dec ra 0) as [Hra|Hra].
      - split; intros [w' [o' [d E]]]; unfold max_quadratic_utility in E; rewrite (proj2 (Rleb_true ra 0) Hra) in E; discriminate E.
      - apply Rnot_le_lt in Hra.
        rewrite (utility_iff sv1 w1 o1 X1 K1 O1 A1 _ M1 mn ra Hra (F1 _)), (utility_iff sv2 w2 o2 X2 K2 O2 A2 _ M2 mn _ Hra (F2 _)).
        rewrite N1, N2, C1, C2. apply (shift_force mn _ _ (- (c * (if mn then 0 else 1)))); [tauto|]. intros x Lx Tx. rewrite (level x _ Lx Tx). ring.
    Qed.
    Theorem shift_both_risk : forall pinv t mn, succeeds (efficient_risk sv1 pinv (NFloat t) mn) w1 o1 <-> succeeds (efficient_risk sv2 pinv (NFloat t) mn) w2 o2.
    Proof.
      intros pinv t mn. facts.
      rewrite (risk_iff sv1 w1 o1 X1 K1 O1 A1 _ M1 mn pinv (NFloat t) t eq_refl (F1 _)), (risk_iff sv2 w2 o2 X2 K2 O2 A2 _ M2 mn pinv (NFloat t) t eq_refl (F2 _)).
      rewrite N1, N2, C1, C2.
      assert (P := shift_force mn (fun x => qform rows x <= t * t) (fun x => qform rows x <= t * t) (- (c * (if mn then 0 else 1))) (fun x => - inner m x) (fun x => - inner m' x) ltac:(intros; tauto)
        ltac:(intros x Lx Tx; cbv beta; rewrite (level x _ Lx Tx); ring)).
      cbv beta in P. fold n. rewrite P. tauto.
    Qed.
    Theorem shift_both_return : forall t, succeeds (efficient_return sv1 (NFloat t) false) w1 o1 <-> succeeds (efficient_return sv2 (NFloat (t + c)) false) w2 o2.
    Proof.
      intros t. facts.
      rewrite (return_iff sv1 w1 o1 X1 K1 O1 A1 _ M1 false t R1 (F1 _)), (return_iff sv2 w2 o2 X2 K2 O2 A2 _ M2 false (t + c) R2 (F2 _)).
      rewrite N1, N2, C1, C2, LB, UB.
      assert (G := fun x => chosen_shift n (e_lb o1) (e_ub o1) 1 (fun _ => True) (fun _ => True) (- c) (fun x => - inner m x) (fun x => - inner m' x) ltac:(intros; tauto)
        ltac:(intros y Ly Ty; cbv beta; rewrite (level y _ Ly Ty); ring) x).
      assert (P := shift_force false (fun x => t <= inner m x) (fun x => t + c <= inner m' x) 0 (qform rows) (qform rows) ltac:(intros x Lx Tx; cbv beta; rewrite (level x _ Lx Tx); split; intros; lra) ltac:(intros; ring)).
      cbv beta zeta in P. fold m m'. split; intros [[y [Hy C]] H2]; (split; [exists y; split; [|apply G; exact C]|apply P; exact H2]).
      - destruct C as (L & _ & S & _). rewrite (level y _ L S). lra.
      - destruct C as (L & _ & S & _). rewrite (level y _ L S) in Hy. lra.
    Qed.
    Theorem shift_neutral_up : forall t, 0 <= c -> succeeds (efficient_return sv1 (NFloat t) true) w1 o1 -> succeeds (efficient_return sv2 (NFloat t) true) w2 o2.
    Proof.
      intros t Hc. facts.
      rewrite (return_iff sv1 w1 o1 X1 K1 O1 A1 _ M1 true t R1 (F1 _)), (return_iff sv2 w2 o2 X2 K2 O2 A2 _ M2 true t R2 (F2 _)).
      rewrite N1, N2, C1, C2, LB, UB.
      assert (G := fun x => chosen_shift n (e_lb o1) (e_ub o1) 1 (fun _ => True) (fun _ => True) (- c) (fun x => - inner m x) (fun x => - inner m' x) ltac:(intros; tauto)
        ltac:(intros y Ly Ty; cbv beta; rewrite (level y _ Ly Ty); ring) x).
      assert (P := shift_force true (fun x => t <= inner m x) (fun x => t <= inner m' x) 0 (qform rows) (qform rows) ltac:(intros x Lx Tx; cbv beta; rewrite (level x _ Lx Tx); split; intros; lra) ltac:(intros; ring)).
      cbv beta zeta in P. fold m m'. intros [[y [Hy C]] H2]. split; [exists y; split; [|apply G; exact C]|apply P; exact H2].
      destruct C as (L & _ & S & _). rewrite (level y _ L S). lra.
    Qed.
    Theorem shift_both_sharpe : forall rf, psd n rows -> Forall (fun c => c <> None) (e_lb o1) -> Forall (fun c => c <> None) (e_ub o1) ->
      (succeeds (max_sharpe sv1 (NFloat rf)) w1 o1 <-> succeeds (max_sharpe sv2 (NFloat (rf + c))) w2 o2).
    Proof.
      intros rf HP Fl Fu. facts.
      rewrite (sharpe_iff sv1 w1 o1 X1 K1 O1 A1 _ M1 (NFloat rf) rf), (sharpe_iff sv2 w2 o2 X2 K2 O2 A2 _ M2 (NFloat (rf + c)) (rf + c)); try assumption; try reflexivity.
      - rewrite N1, N2, C1, C2, LB, UB. fold n.
        assert (Q : Exists (fun v => rf < v) m <-> Exists (fun v => rf + c < v) m').
        { rewrite !Exists_exists. unfold m'. split.
          - intros [v [Hv1 Hv2]]. exists (v + c). split; [apply (in_map (fun v => v + c)); exact Hv1|lra].
          - intros [v [Hv1 Hv2]]. apply in_map_iff in Hv1 as (u & <- & Hu). exists u. split; [exact Hu|lra]. }
        rewrite Q. split; intros [H1 [x B]]; (split; [exact H1|exists x; apply (ratio_shift n (e_lb o1) (e_ub o1) m rows rf c x m_len); exact B]).
      - rewrite N2, C2. exact HP.
      - rewrite LB. exact Fl.
      - rewrite UB. exact Fu.
      - rewrite N1, C1. exact HP.
    Qed.
  End Success.
End Shifted.
