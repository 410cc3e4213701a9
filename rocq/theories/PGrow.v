(** * One more asset: EfficientFrontier (C142) *)
From Coq Require Import ZArith String List Bool Reals Lra Lia.
From Verif Require Import Num Py RBase PyLemmas SBL MBase MConvex MEF MDown SLin SBase SConvex SPerm SDown SExist SGrow Sums Mat PBase PConvex PEF PEF2 PEF3 PEF4 PDown PDown2 PDown5 PObj SObj SHRP PPerm PPerm2 PEF5 PEF6 PPerm3 PPerm4 PUnits PUnits2 PExist PExist2 PExist3 PExist4 PExist5 PClone.
Import ListNotations.
Local Open Scope R_scope.

Lemma inner_grow : forall a m y, inner (a :: m) (0 :: y) = inner m y.
Proof. intros a m y. cbn. ring. Qed.
Lemma qform_grow : forall v b c rows y, length c = length rows -> qform (cov_grow v b c rows) (0 :: y) = qform rows y.
Proof.
  intros v b c rows y L. unfold qform, cov_grow. cbn [map inner]. rewrite Rmult_0_l, Rplus_0_l. f_equal. rewrite map_map.
  revert c L. induction rows as [|r rows IH]; intros [|e c] L; try discriminate L; [reflexivity|]. injection L as L. cbn [combine map fst snd]. rewrite (IH c L), inner_grow. reflexivity.
Qed.
Lemma cov_grow_square : forall n v b c rows, length b = n -> length c = n -> square n rows -> square (S n) (cov_grow v b c rows).
Proof.
  intros n v b c rows Lb Lc [L F]. unfold cov_grow. split; [cbn [length]; rewrite map_length, combine_length, Lc, L, Nat.min_id; reflexivity|].
  constructor; [cbn; congruence|]. apply Forall_map. apply Forall_forall. intros [e r] I. apply in_combine_r in I. rewrite Forall_forall in F. cbn. rewrite (F r I). reflexivity.
Qed.

(** ** The bounds in force *)
Definition lo_in_force (mn : bool) (lo : R) : R := if mn then (if Rle_dec 0 lo then -1 else lo) else lo.
Definition hi_in_force (mn : bool) (lo hi : R) : R := if mn then (if Rle_dec 0 lo then 1 else hi) else hi.
Lemma around_zero : forall mn lo hi, lo <= 0 <= hi -> lo_in_force mn lo <= 0 <= hi_in_force mn lo hi.
Proof. intros [|] lo hi H; unfold lo_in_force, hi_in_force; [destruct (Rle_dec 0 lo)|]; lra. Qed.
Lemma around_shorts : forall n lo, (0 < n)%nat -> (no_short_allowed (repeat (Some lo) n) <-> 0 <= lo).
Proof.
  intros n lo H. unfold no_short_allowed. split; [destruct n as [|n]; [lia|]; cbn; intros F; exact (Forall_inv F)|].
  intros L. apply Forall_forall. intros b Hb. apply repeat_spec in Hb. subst b. exact L.
Qed.
Lemma around_force : forall mn o n lo hi lb ub, e_n o = n -> (0 < n)%nat -> e_lb o = repeat (Some lo) n -> e_ub o = repeat (Some hi) n ->
  (bounds_in_force mn o lb ub <-> lb = repeat (Some (lo_in_force mn lo)) n /\ ub = repeat (Some (hi_in_force mn lo hi)) n).
Proof.
  intros mn o n lo hi lb ub N Hn L U. unfold bounds_in_force. rewrite L, U, N, (around_shorts n lo Hn). unfold lo_in_force, hi_in_force. destruct mn; [destruct (Rle_dec 0 lo)|]; intuition congruence.
Qed.
Lemma around_within : forall n lo hi y, lo <= 0 <= hi -> (within (repeat (Some lo) (S n)) (repeat (Some hi) (S n)) (0 :: y) <-> within (repeat (Some lo) n) (repeat (Some hi) n) y).
Proof.
  intros n lo hi y H. unfold within. cbn [repeat]. split; intros [F G].
  - inversion F; subst. inversion G; subst. auto.
  - split; constructor; try assumption; cbn; lra.
Qed.
Lemma around_bounded : forall n a, bounded (repeat (Some a) n).
Proof. intros n a. apply Forall_forall. intros b Hb. apply repeat_spec in Hb. subst b. discriminate. Qed.

Section Better.
  Variables (n : nat) (lb ub lb' ub' : list (option R)) (sum : R) (ok ok' : list R -> Prop) (cost cost' : list R -> R).
  Hypothesis W : forall y, within lb' ub' (0 :: y) <-> within lb ub y.
  Hypothesis O : forall y, length y = n -> (ok' (0 :: y) <-> ok y).
  Hypothesis C : forall y, length y = n -> cost' (0 :: y) = cost y.
  Lemma grow_total : forall y, total (0 :: y) = total y. Proof. intros y. cbn. ring. Qed.
  Lemma grow_better : forall x x', chosen n lb ub sum ok cost x -> chosen (S n) lb' ub' sum ok' cost' x' ->
    cost' x' <= cost x /\ (forall y, x' = 0 :: y -> chosen n lb ub sum ok cost y).
  Proof.
    assert (G : forall y x', chosen (S n) lb' ub' sum ok' cost' x' -> length y = n -> within lb ub y -> total y = sum -> ok y -> cost' x' <= cost y).
    { intros y x' (_ & _ & _ & _ & M) L Wy T Oy. rewrite <- (C y L). apply M; [cbn; congruence|apply W; exact Wy|rewrite grow_total; exact T|apply O; assumption]. }
    intros x x' (L & Wx & T & Ox & _) H'. split; [apply G; assumption|].
    intros y ->. pose proof H' as (L' & W' & T' & O' & _). injection L' as L'. split; [exact L'|]. split; [apply W; exact W'|]. split; [rewrite <- grow_total; exact T'|]. split; [apply O; assumption|].
    intros z Lz Wz Tz Oz. rewrite <- (C y L'). apply G; assumption.
  Qed.
  Lemma grow_improved : forall ts t d d', length ts = n -> answers ts lb ub sum ok cost d -> answers (t :: ts) lb' ub' sum ok' cost' d' -> improved ts t lb ub lb' ub' sum ok ok' cost cost' d d'.
  Proof.
    intros ts t d d' L (x & r & A & F & D) (x' & r' & A' & F' & D'). cbn [length] in A'. rewrite L in A, A'. destruct (grow_better x x' A A') as [G1 G2].
    exists x, x'. rewrite L. split; [exact A|]. split; [exists r; auto|]. split; [exact A'|]. split; [exists r'; auto|]. auto.
  Qed.
  Lemma grow_fits : forall x, chosen n lb ub sum ok cost x -> exists x', fits (S n) lb' ub' sum x' /\ ok' x'.
  Proof. intros x (L & Wx & T & Ox & _). exists (0 :: x). split; [split; [cbn; congruence|]; split; [apply W; exact Wx|rewrite grow_total; exact T]|apply O; assumption]. Qed.
End Better.
Lemma new_chosen : forall w o mn lb ub sum (ok : list R -> Prop) cost, open_ef w o [] -> e_add o = [] -> bounded (e_lb o) -> bounded (e_ub o) -> bounds_in_force mn o lb ub ->
  closed_on (e_n o) ok -> continuous_on (e_n o) cost -> (exists x, fits (e_n o) lb ub sum x /\ ok x) -> exists x, chosen (e_n o) lb ub sum ok cost x.
Proof.
  intros w o mn lb ub sum ok cost Ho Ha Hl Hu Hb K1 K2 X. destruct (new_least w o Ho Ha Hl Hu mn lb ub sum ok cost Hb K1 K2 X) as (lb1 & ub1 & s & B & (A & Os & M)).
  destruct (in_force_unique _ _ _ _ _ _ B Hb) as [-> ->]. exists (s (e_w o)). destruct (new_fits w o Ho _ _ _ _ A) as (L & Wx & T). split; [exact L|]. split; [exact Wx|]. split; [exact T|]. split; [exact Os|].
  intros y Ly Wy Ty Oy. destruct (fits_new w o Ho lb ub sum y (conj Ly (conj Wy Ty))) as (s' & A' & E). specialize (M s' A'). rewrite E, Ha in M. specialize (M Oy). unfold penalty in M. cbn in M. lra.
Qed.

Lemma c_answers_from' : forall w o ts lb ub sum (ok : list R -> Prop) cost d ws, NoDup ts -> open_ef w o [] -> e_add o = [] -> b_tickers (e_base o) = ts ->
  best_portfolio w o [] lb ub sum ok cost ws d -> answers ts lb ub sum ok cost d.
Proof.
  intros w o tt lb ub sum ok cost d ws Hnd (_ & _ & _ & _ & Hsz & _) A E B. destruct (best_chosen _ _ _ _ _ _ _ _ _ Hsz A B) as [x [r [C [_ [F Ed]]]]]. unfold e_n in C. rewrite E in C.
  exists x, r. split; [exact C|]. split; [exact F|]. intros u. subst d. rewrite E.
  rewrite dict_of_pairs_NoDup; [reflexivity|]. rewrite fst_combine; [exact Hnd|]. rewrite <- (Forall2_length _ _ _ F). destruct C as [C _]. symmetry. exact C.
Qed.
Lemma around_facts : forall s cols rows lo hi v w o, square (length s) rows -> ef_init (MIn (MuSeries s)) (CIn (CovFrame cols rows)) (around lo hi) v = (w, Ok o) ->
  open_ef w o [] /\ e_n o = length s /\ e_add o = [] /\ b_tickers (e_base o) = map fst s /\ e_mu o = Some (map snd s) /\ e_cov o = rows /\
  e_lb o = repeat (Some lo) (length s) /\ e_ub o = repeat (Some hi) (length s) /\ e_maxret o = None /\ (forall name, fresh_name w o name).
Proof.
  intros s cols rows lo hi v w o HM E1.
  destruct (ef_init_inv _ _ _ _ _ _ E1) as [m1 [lb [ub [Em [Hs [Hr [Ew Eo]]]]]]]. inversion Em; subst m1.
  assert (N1 : length (init_tickers (MuSeries s) (CovFrame cols rows)) = length s) by (cbn [init_tickers]; apply map_length).
  pose proof (PEF2.init_open _ _ (around lo hi) v lb ub Hs) as O1. rewrite N1 in *. specialize (O1 HM Hr). rewrite <- Ew, <- Eo in O1. unfold read_bounds, around in Hr. rewrite andb_false_r in Hr. injection Hr as <- <-.
  split; [exact O1|]. rewrite Eo. unfold e_n. cbn [init_ef e_base b_tickers e_add e_mu e_cov e_lb e_ub e_maxret mu_values cov_values]. rewrite N1. cbn [init_tickers].
  do 8 (split; [reflexivity|]). intros name q Hq; cbn in Hq; contradiction.
Qed.
Theorem grow_accepted : forall t a v b c lo hi s cols cols' rows v1 v2 w1 o1, length b = length s -> length c = length s -> square (length s) rows ->
  ef_init (MIn (MuSeries s)) (CIn (CovFrame cols rows)) (around lo hi) v1 = (w1, Ok o1) ->
  exists w2 o2, ef_init (MIn (MuSeries (mu_grow t a s))) (CIn (CovFrame cols' (cov_grow v b c rows))) (around lo hi) v2 = (w2, Ok o2).
Proof.
  intros t a v b c lo hi s cols cols' rows v1 v2 w1 o1 Lb Lc HM E. eexists _, _. pose proof (cov_grow_square _ v _ _ _ Lb Lc HM) as HM'.
  apply ef_init_ok with (lb := repeat (Some lo) (S (length s))) (ub := repeat (Some hi) (S (length s))).
  - unfold init_shape_ok. cbn [mu_values cov_values mu_grow map snd length]. rewrite map_length. split; [apply HM'|]. apply num_cols_square; [lia|exact HM'].
  - cbn [init_tickers mu_grow map fst length]. rewrite map_length. unfold read_bounds, around. rewrite andb_false_r. reflexivity.
Qed.

Section Grown.
  Variables (t : label) (a v : R) (b c : list R) (lo hi : R) (s : list (label * R)) (cols cols' : list label) (rows : list (list R)) (v1 v2 w1 w2 : world) (o1 o2 : ef).
  Hypothesis T : ef_grown t a v b c lo hi s cols cols' rows v1 v2 w1 w2 o1 o2.
  Let n := length s.
  Let m := map snd s.
  Let rows' := cov_grow v b c rows.
  Ltac facts := pose proof T as (Hz & Hn & Lb & Lc & HM & I1 & I2); pose proof (cov_grow_square _ v _ _ _ Lb Lc HM) as HM2;
    destruct (around_facts _ _ _ _ _ _ _ _ HM I1) as (O1 & N1 & A1 & T1 & M1 & C1 & LB1 & UB1 & R1 & F1);
    destruct (around_facts (mu_grow t a s) _ _ _ _ _ _ _ HM2 I2) as (O2 & N2 & A2 & T2 & M2 & C2 & LB2 & UB2 & R2 & F2);
    change (length (mu_grow t a s)) with (S n) in N2, LB2, UB2; change (map snd (mu_grow t a s)) with (a :: m) in M2; change (map fst (mu_grow t a s)) with (t :: map fst s) in T2; fold n in Hn, Lb, Lc, HM, HM2, N1, LB1, UB1; fold m in M1; fold rows' in C2, HM2, I2;
    assert (Var : forall y, length y = n -> qform rows' (0 :: y) = qform rows y) by (intros y _; apply qform_grow; destruct HM; congruence);
    assert (Ret : forall y, length y = n -> inner (a :: m) (0 :: y) = inner m y) by (intros y _; apply inner_grow);
    assert (Lt : length (map fst s) = n) by (apply map_length);
    assert (Bl : bounded (e_lb o2)) by (rewrite LB2; apply around_bounded); assert (Bu : bounded (e_ub o2)) by (rewrite UB2; apply around_bounded).
  Ltac forced mn := match goal with Hz : lo <= 0 <= hi, N1 : e_n o1 = _, LB1 : e_lb o1 = _, UB1 : e_ub o1 = _, N2 : e_n o2 = _, LB2 : e_lb o2 = _, UB2 : e_ub o2 = _, Hn : (0 < n)%nat |- _ =>
    pose proof (fun lb ub => around_force mn o1 n lo hi lb ub N1 Hn LB1 UB1) as Fo1; pose proof (fun lb ub => around_force mn o2 (S n) lo hi lb ub N2 (Nat.lt_0_succ n) LB2 UB2) as Fo2;
    pose proof (fun y => around_within n _ _ y (around_zero mn lo hi Hz)) as Wz end.
  Section Answers.
    Variables (sv1 sv2 : solver_t) (x1 x2 : world) (y1 y2 : ef) (d1 d2 : dict R).
    Hypothesis (Hnd : NoDup (t :: map fst s)) (X1 : exact_solver sv1) (X2 : exact_solver sv2).
    Let Hnd1 : NoDup (map fst s). Proof. inversion Hnd; assumption. Qed.
    Theorem grow_min_volatility : min_volatility sv1 w1 o1 = (x1, y1, Ok d1) -> min_volatility sv2 w2 o2 = (x2, y2, Ok d2) ->
      improved (map fst s) t (e_lb o1) (e_ub o1) (e_lb o2) (e_ub o2) 1 (fun _ => True) (fun _ => True) (qform rows) (qform rows') d1 d2.
    Proof.
      intros E1 E2. facts. apply (min_volatility_best _ _ _ _ _ _ _ X1 O1) in E1. apply (min_volatility_best _ _ _ _ _ _ _ X2 O2) in E2.
      rewrite C1 in E1. rewrite C2 in E2. apply c_answers_from' with (ts := map fst s) in E1; try assumption. apply c_answers_from' with (ts := t :: map fst s) in E2; try assumption.
      refine (grow_improved n _ _ _ _ _ _ _ _ _ _ _ _ _ _ _ _ Lt E1 E2); [|tauto|exact Var]. intros y. rewrite LB1, UB1, LB2, UB2. apply around_within. exact Hz.
    Qed.
    Theorem grow_utility : forall ra mn, max_quadratic_utility sv1 ra mn w1 o1 = (x1, y1, Ok d1) -> max_quadratic_utility sv2 ra mn w2 o2 = (x2, y2, Ok d2) ->
      exists lb ub lb' ub', bounds_in_force mn o1 lb ub /\ bounds_in_force mn o2 lb' ub' /\
      improved (map fst s) t lb ub lb' ub' (if mn then 0 else 1) (fun _ => True) (fun _ => True) (fun x => - (inner m x - ra / 2 * qform rows x)) (fun x => - (inner (a :: m) x - ra / 2 * qform rows' x)) d1 d2.
    Proof.
      intros ra mn E1 E2. facts. forced mn. apply (utility_best _ _ _ _ _ _ _ _ _ _ X1 O1 M1 (F1 _)) in E1. apply (utility_best _ _ _ _ _ _ _ _ _ _ X2 O2 M2 (F2 _)) in E2.
      destruct E1 as [_ [lb [ub [B1 E1]]]]. destruct E2 as [_ [lb' [ub' [B2 E2]]]]. rewrite C1 in E1. rewrite C2 in E2. apply c_answers_from' with (ts := map fst s) in E1; try assumption. apply c_answers_from' with (ts := t :: map fst s) in E2; try assumption.
      exists lb, ub, lb', ub'. split; [exact B1|]. split; [exact B2|]. apply Fo1 in B1 as [-> ->]. apply Fo2 in B2 as [-> ->].
      refine (grow_improved n _ _ _ _ _ _ _ _ _ Wz _ _ _ _ _ _ Lt E1 E2); [tauto|]. intros y Ly. cbv beta. rewrite Ret, Var by exact Ly. reflexivity.
    Qed.
    Theorem grow_return : forall tg mn, efficient_return sv1 (NFloat tg) mn w1 o1 = (x1, y1, Ok d1) -> efficient_return sv2 (NFloat tg) mn w2 o2 = (x2, y2, Ok d2) ->
      exists lb ub lb' ub', bounds_in_force mn o1 lb ub /\ bounds_in_force mn o2 lb' ub' /\
      improved (map fst s) t lb ub lb' ub' (if mn then 0 else 1) (fun x => tg <= inner m x) (fun x => tg <= inner (a :: m) x) (qform rows) (qform rows') d1 d2.
    Proof.
      intros tg mn E1 E2. facts. forced mn. apply (efficient_return_best _ _ _ _ _ _ _ _ _ _ X1 O1 M1 (F1 _)) in E1. apply (efficient_return_best _ _ _ _ _ _ _ _ _ _ X2 O2 M2 (F2 _)) in E2.
      destruct E1 as [t1 [lb [ub [Et1 [B1 E1]]]]]. destruct E2 as [t2 [lb' [ub' [Et2 [B2 E2]]]]]. injection Et1 as <-. injection Et2 as <-. rewrite C1 in E1. rewrite C2 in E2. apply c_answers_from' with (ts := map fst s) in E1; try assumption. apply c_answers_from' with (ts := t :: map fst s) in E2; try assumption.
      exists lb, ub, lb', ub'. split; [exact B1|]. split; [exact B2|]. apply Fo1 in B1 as [-> ->]. apply Fo2 in B2 as [-> ->].
      refine (grow_improved n _ _ _ _ _ _ _ _ _ Wz _ Var _ _ _ _ Lt E1 E2). intros y Ly. cbv beta. rewrite Ret by exact Ly. tauto.
    Qed.
    Theorem grow_risk : forall pinv1 pinv2 tg mn, efficient_risk sv1 pinv1 (NFloat tg) mn w1 o1 = (x1, y1, Ok d1) -> efficient_risk sv2 pinv2 (NFloat tg) mn w2 o2 = (x2, y2, Ok d2) ->
      exists lb ub lb' ub', bounds_in_force mn o1 lb ub /\ bounds_in_force mn o2 lb' ub' /\
      improved (map fst s) t lb ub lb' ub' (if mn then 0 else 1) (fun x => qform rows x <= tg * tg) (fun x => qform rows' x <= tg * tg) (fun x => - inner m x) (fun x => - inner (a :: m) x) d1 d2.
    Proof.
      intros pinv1 pinv2 tg mn E1 E2. facts. forced mn. apply (efficient_risk_best _ _ _ _ _ _ _ _ _ _ _ X1 O1 M1 (F1 _)) in E1. apply (efficient_risk_best _ _ _ _ _ _ _ _ _ _ _ X2 O2 M2 (F2 _)) in E2.
      destruct E1 as [t1 [lb [ub [Et1 [_ [B1 E1]]]]]]. destruct E2 as [t2 [lb' [ub' [Et2 [_ [B2 E2]]]]]]. cbn [target_of] in Et1, Et2. injection Et1 as <-. injection Et2 as <-. rewrite C1 in E1. rewrite C2 in E2. apply c_answers_from' with (ts := map fst s) in E1; try assumption. apply c_answers_from' with (ts := t :: map fst s) in E2; try assumption.
      exists lb, ub, lb', ub'. split; [exact B1|]. split; [exact B2|]. apply Fo1 in B1 as [-> ->]. apply Fo2 in B2 as [-> ->].
      refine (grow_improved n _ _ _ _ _ _ _ _ _ Wz _ _ _ _ _ _ Lt E1 E2); intros y Ly; cbv beta; rewrite ?Ret, ?Var by exact Ly; tauto.
    Qed.
    Theorem grow_sharpe : forall rf, psd (S n) rows' -> max_sharpe sv1 (NFloat rf) w1 o1 = (x1, y1, Ok d1) -> max_sharpe sv2 (NFloat rf) w2 o2 = (x2, y2, Ok d2) ->
      improved_ratio (map fst s) t (e_lb o1) (e_ub o1) (e_lb o2) (e_ub o2) m (a :: m) rows rows' rf d1 d2.
    Proof.
      intros rf HP2 E1 E2. facts. assert (HP1 : psd n rows) by (split; [exact HM|]; intros y Ly; rewrite <- (Var y Ly); apply HP2; cbn; congruence).
      apply (fun P => sharpe_ratio _ _ _ _ _ _ _ _ X1 O1 A1 P M1) in E1; [|rewrite N1, C1; exact HP1]. apply (fun P => sharpe_ratio _ _ _ _ _ _ _ _ X2 O2 A2 P M2) in E2; [|rewrite N2, C2; exact HP2].
      destruct E1 as [r1 [z [rr [Er1 [B1 [G1 D1]]]]]]. destruct E2 as [r2 [z' [rr' [Er2 [B2 [G2 D2]]]]]]. cbn [target_of] in Er1, Er2. injection Er1 as <-. injection Er2 as <-. rewrite N1, C1 in B1. rewrite N2, C2 in B2.
      assert (Wz : forall y, within (e_lb o2) (e_ub o2) (0 :: y) <-> within (e_lb o1) (e_ub o1) y) by (intros y; rewrite LB1, UB1, LB2, UB2; apply around_within; exact Hz).
      assert (Ex : forall y, length y = n -> excess (a :: m) rf (0 :: y) = excess m rf y) by (intros y Ly; unfold excess; rewrite Ret by exact Ly; reflexivity).
      exists z, z'. rewrite Lt. split; [exact B1|]. split; [exists rr; split; [exact G1|]; intros u; subst d1; rewrite T1, dict_of_pairs_NoDup; [reflexivity|]; rewrite fst_combine; [exact Hnd1|]; rewrite <- (Forall2_length _ _ _ G1), Lt; symmetry; apply B1|].
      split; [exact B2|]. split; [exists rr'; split; [exact G2|]; intros u; subst d2; rewrite T2, dict_of_pairs_NoDup; [reflexivity|]; rewrite fst_combine; [exact Hnd|]; rewrite <- (Forall2_length _ _ _ G2); cbn [length]; rewrite Lt; symmetry; apply B2|].
      destruct B2 as (L2 & W2 & S2 & P2 & Q2). split.
      - destruct B1 as (L1 & W1 & S1 & _). pose proof (Q2 (0 :: z) ltac:(cbn; congruence) (proj2 (Wz z) W1) ltac:(rewrite grow_total; exact S1)) as Q. rewrite (Ex z L1), (Var z L1) in Q. exact Q.
      - intros y ->. injection L2 as L2. rewrite (Ex y L2) in P2. split; [exact L2|]. split; [apply Wz; exact W2|]. split; [rewrite <- grow_total; exact S2|]. split; [exact P2|].
        intros u Lu Wu Tu. pose proof (Q2 (0 :: u) ltac:(cbn; congruence) (proj2 (Wz u) Wu) ltac:(rewrite grow_total; exact Tu)) as Q. rewrite (Ex u Lu), (Ex y L2), (Var u Lu), (Var y L2) in Q. exact Q.
    Qed.
  End Answers.
  Section Success.
    Variables (sv1 sv2 : solver_t).
    Hypothesis (X1 : exact_solver sv1) (X2 : exact_solver sv2) (K1 : complete_solver sv1) (K2 : complete_solver sv2).
    Let Q2 : continuous_on (S n) (qform rows'). Proof. apply (cont_vec_qform (S n) (S n) rows' _ (cont_vec_id (S n))). Qed.
    Theorem grow_min_volatility_found : succeeds (min_volatility sv1) w1 o1 -> succeeds (min_volatility sv2) w2 o2.
    Proof.
      facts. rewrite min_volatility_iff, min_volatility_iff by assumption. intros [x X]. rewrite N1 in X.
      rewrite C2. apply (new_chosen w2 o2 false); try assumption; [right; auto|apply closed_true|rewrite N2; exact Q2|]. rewrite N2.
      refine (grow_fits n _ _ _ _ 1 _ _ _ _ _ x X); [|tauto]. intros y. rewrite LB1, UB1, LB2, UB2. apply around_within. exact Hz.
    Qed.
    Theorem grow_utility_found : forall ra mn, succeeds (max_quadratic_utility sv1 ra mn) w1 o1 -> succeeds (max_quadratic_utility sv2 ra mn) w2 o2.
    Proof.
      intros ra mn. facts. forced mn. destruct (Rle_dec ra 0) as [Hra|Hra].
      - intros [w' [o' [d E]]]. unfold max_quadratic_utility in E; rewrite (proj2 (Rleb_true ra 0) Hra) in E; discriminate E.
      - apply Rnot_le_lt in Hra. rewrite (utility_iff sv1 w1 o1 X1 K1 O1 A1 _ M1 mn ra Hra (F1 _)), (utility_iff sv2 w2 o2 X2 K2 O2 A2 _ M2 mn _ Hra (F2 _)).
        intros (lb & ub & x & B & X). rewrite N1 in X. apply Fo1 in B as [-> ->]. eexists _, _. rewrite C2.
        destruct (new_chosen w2 o2 mn _ _ (if mn then 0 else 1) (fun _ => True) (fun x => - (inner (a :: m) x - ra / 2 * qform rows' x)) O2 A2 Bl Bu (proj2 (Fo2 _ _) (conj eq_refl eq_refl))) as [x' X'].
        + apply closed_true.
        + rewrite N2. apply (cont_ext (S n) (fun x => ra / 2 * qform rows' x - inner (a :: m) x)); [|intros; ring]. apply cont_minus; [apply cont_scal; exact Q2|apply new_inner_cont].
        + rewrite N2. refine (grow_fits n _ _ _ _ _ _ _ _ Wz _ x X). tauto.
        + exists x'. split; [apply Fo2; auto|exact X'].
    Qed.
    Theorem grow_return_found : forall tg, succeeds (efficient_return sv1 (NFloat tg) false) w1 o1 -> succeeds (efficient_return sv2 (NFloat tg) false) w2 o2.
    Proof.
      intros tg. facts. rewrite (return_iff sv1 w1 o1 X1 K1 O1 A1 _ M1 false tg R1 (F1 _)), (return_iff sv2 w2 o2 X2 K2 O2 A2 _ M2 false tg R2 (F2 _)).
      intros [_ (lb & ub & x & B & X)]. destruct B as [(Ef & _)|(_ & -> & ->)]; [discriminate Ef|]. rewrite N1 in X. pose proof X as (Lx & Wx & Tx & Ox & _).
      assert (Wz : forall y, within (e_lb o2) (e_ub o2) (0 :: y) <-> within (e_lb o1) (e_ub o1) y) by (intros y; rewrite LB1, UB1, LB2, UB2; apply around_within; exact Hz).
      assert (Bf : bounds_in_force false o2 (e_lb o2) (e_ub o2)) by (right; auto). rewrite C2. split.
      - destruct (new_chosen w2 o2 false _ _ 1 (fun _ => True) (fun x => - inner (a :: m) x) O2 A2 Bl Bu Bf) as [x' X'].
        + apply closed_true.
        + rewrite N2. apply (cont_ext (S n) (fun x => 0 - inner (a :: m) x)); [|intros; ring]. apply cont_minus; [apply cont_const|apply new_inner_cont].
        + rewrite N2. exists (0 :: x). split; [|exact I]. split; [cbn; congruence|]. split; [apply Wz; exact Wx|rewrite grow_total; exact Tx].
        + exists x'. split; [|exact X']. destruct X' as (_ & _ & _ & _ & M). rewrite N2 in M. specialize (M (0 :: x) ltac:(cbn; congruence) (proj2 (Wz x) Wx) ltac:(rewrite grow_total; exact Tx) I). cbv beta in M. rewrite (Ret x Lx) in M. lra.
      - destruct (new_chosen w2 o2 false _ _ 1 (fun x => tg <= inner (a :: m) x) (qform rows') O2 A2 Bl Bu Bf) as [x' X'].
        + rewrite N2. apply closed_le; [apply cont_const|apply new_inner_cont].
        + rewrite N2. exact Q2.
        + rewrite N2. refine (grow_fits n _ _ _ _ _ _ _ _ Wz _ x X). intros y Ly. cbv beta. rewrite Ret by exact Ly. tauto.
        + exists (e_lb o2), (e_ub o2), x'. split; [exact Bf|exact X'].
    Qed.
    Theorem grow_sharpe_found : forall rf, psd (S n) rows' -> (forall x, fits (S n) (e_lb o2) (e_ub o2) 1 x -> 0 < qform rows' x) ->
      succeeds (max_sharpe sv1 (NFloat rf)) w1 o1 -> succeeds (max_sharpe sv2 (NFloat rf)) w2 o2.
    Proof.
      intros rf HP2 Hpos S1. facts. assert (HP1 : psd n rows) by (split; [exact HM|]; intros y Ly; rewrite <- (Var y Ly); apply HP2; cbn; congruence).
      assert (Lr : length rows' = S n) by apply HM2. assert (Wz : forall y, within (e_lb o2) (e_ub o2) (0 :: y) <-> within (e_lb o1) (e_ub o1) y) by (intros y; rewrite LB1, UB1, LB2, UB2; apply around_within; exact Hz).
      assert (Bd1 : bounded (e_lb o1)) by (rewrite LB1; apply around_bounded). assert (Bd2 : bounded (e_ub o1)) by (rewrite UB1; apply around_bounded).
      pose proof (proj1 (sharpe_iff sv1 w1 o1 X1 K1 O1 A1 _ M1 (NFloat rf) rf ltac:(rewrite N1, C1; exact HP1) Bd1 Bd2 eq_refl) S1) as [Ex [x X]].
      rewrite N1, C1 in X. destruct X as (Lx & Wx & Tx & Px & _).
      apply (exist_sharpe (MuSeries (mu_grow t a s)) (CovFrame cols' rows') (around lo hi) v2 w2 o2 (a :: m) I2) with (r := rf); cbn [cov_values]; try assumption; try reflexivity.
      - rewrite Lr. exact HM2.
      - rewrite Lr, N2. reflexivity.
      - rewrite N2. exact HP2.
      - rewrite N2. exact Hpos.
      - split; [apply Exists_cons_tl; exact Ex|]. exists (0 :: x). rewrite N2. split; [split; [cbn; congruence|]; split; [apply Wz; exact Wx|rewrite grow_total; exact Tx]|]. unfold excess in *. rewrite (Ret x Lx). exact Px.
    Qed.
  End Success.
End Grown.
