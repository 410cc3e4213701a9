(** * Units of measurement: the weights agree, and so does success (C129) *)
From Coq Require Import ZArith String List Bool Reals Lra Lia.
From Verif Require Import Num Py RBase PyLemmas SBL MBase MConvex MEF SLin SBase SConvex SPerm Sums Mat PBase PConvex PEF PEF2 PEF3 PEF4 PDown PDown2 PDown5 PObj SObj SHRP PPerm PPerm2 PEF5 PEF6 PPerm3 PPerm4 SUnits PUnits.
Import ListNotations.
Local Open Scope R_scope.

Lemma pos_def_psd : forall n M, pos_def n M -> psd n M.
Proof.
  intros n M [HM HP]. split; [exact HM|]. intros z Lz. destruct (list_eq_dec Req_EM_T z (repeat 0 n)) as [->|Hz]; [|left; apply HP; assumption].
  right. symmetry. unfold qform. generalize (map (fun row => inner row (repeat 0 n)) M). clear. induction n as [|k IH]; intros l; [reflexivity|]. destruct l as [|a l]; [reflexivity|]. cbn. rewrite IH. ring.
Qed.
(** the constructor accepts the data in the other unit as well *)
Theorem units_accepted : forall a k s cols rows b v1 v2 w1 o1, square (List.length s) rows ->
  ef_init (MIn (MuSeries s)) (CIn (CovFrame cols rows)) b v1 = (w1, Ok o1) ->
  exists w2 o2, ef_init (MIn (MuSeries (mu_times a s))) (CIn (CovFrame cols (cov_times k rows))) b v2 = (w2, Ok o2).
Proof.
  intros a k s cols rows b v1 v2 w1 o1 HM E. destruct (ef_init_inv _ _ _ _ _ _ E) as [m [lb [ub [Em [Hs [Hr _]]]]]]. inversion Em; subst m.
  pose proof (square_times _ k _ HM) as HM'. cbn [init_tickers] in Hr. rewrite map_length in Hr.
  eexists _, _. apply ef_init_ok with (lb := lb) (ub := ub).
  - unfold init_shape_ok. cbn [mu_values cov_values]. rewrite mu_times_snd, !map_length.
    split; [apply HM'|]. destruct (List.length s) as [|n] eqn:En.
    + destruct HM' as [A _]. destruct (cov_times k rows); [reflexivity|discriminate A].
    + apply num_cols_square; [lia|exact HM'].
  - cbn [init_tickers]. rewrite mu_times_fst, map_length. exact Hr.
Qed.

Section Same.
  Variables (a k : R) (s : list (label * R)) (cols : list label) (rows : list (list R)) (b : bounds_arg) (v1 v2 w1 w2 : world) (o1 o2 : ef).
  Hypothesis T : measured a k s cols rows b v1 v2 w1 w2 o1 o2.
  Let n := List.length s.
  Let m := map snd s.
  Ltac facts := destruct (measured_facts _ _ _ _ _ _ _ _ _ _ _ _ T) as (Ha & Hk & HM & O1 & O2 & N1 & N2 & A1 & A2 & T1 & T2 & M1 & M2 & C1 & C2 & LB & UB & R1 & R2 & F1 & F2).

  Section Weights.
    Variables (sv1 sv2 : solver_t) (x1 x2 : world) (y1 y2 : ef) (d1 d2 : dict R).
    Hypothesis (Hnd : NoDup (map fst s)) (HP : pos_def n rows) (S1 : exact_solver sv1) (S2 : exact_solver sv2).
    Theorem units_same_min_volatility : min_volatility sv1 w1 o1 = (x1, y1, Ok d1) -> min_volatility sv2 w2 o2 = (x2, y2, Ok d2) -> agree d1 d2.
    Proof.
      intros E1 E2. destruct (units_min_volatility _ _ _ _ _ _ _ _ _ _ _ _ T sv1 sv2 _ _ _ _ _ _ Hnd S1 S2 E1 E2) as [A1 A2].
      apply (answers_cost _ _ _ _ _ _ (fun z => 1 * qform rows z + 0)) in A1; [|intros; ring].
      apply (answers_cost _ _ _ _ _ _ (fun z => 1 * qform rows z + 0)) in A2; [|intros; ring].
      refine (answers_same _ _ _ _ _ _ _ _ _ A1 A2). rewrite map_length.
      apply (chosen_unique n rows _ _ _ _ 1 (fun _ => 0)); [exact HP|lra| |tauto]. intros; ring.
    Qed.
    Theorem units_same_utility : forall ra mn, 0 < ra -> max_quadratic_utility sv1 ra mn w1 o1 = (x1, y1, Ok d1) ->
      max_quadratic_utility sv2 (ra * a / k) mn w2 o2 = (x2, y2, Ok d2) -> agree d1 d2.
    Proof.
      intros ra mn Hra E1 E2. destruct (units_utility _ _ _ _ _ _ _ _ _ _ _ _ T sv1 sv2 _ _ _ _ _ _ Hnd S1 S2 ra mn E1 E2) as [lb [ub [_ [A1 A2]]]].
      apply (answers_cost _ _ _ _ _ _ (fun z => ra / 2 * qform rows z + - inner (map snd s) z)) in A1; [|intros; ring].
      apply (answers_cost _ _ _ _ _ _ (fun z => ra / 2 * qform rows z + - inner (map snd s) z)) in A2; [|intros; ring].
      refine (answers_same _ _ _ _ _ _ _ _ _ A1 A2). rewrite map_length.
      apply (chosen_unique n rows _ _ _ _ (ra / 2) (fun z => - inner (map snd s) z)); [exact HP|lra| |tauto].
      intros x y t Hx Hy. rewrite inner_blend by congruence. ring.
    Qed.
    Theorem units_same_return : forall t mn, efficient_return sv1 (NFloat t) mn w1 o1 = (x1, y1, Ok d1) ->
      efficient_return sv2 (NFloat (a * t)) mn w2 o2 = (x2, y2, Ok d2) -> agree d1 d2.
    Proof.
      intros t mn E1 E2. destruct (units_return _ _ _ _ _ _ _ _ _ _ _ _ T sv1 sv2 _ _ _ _ _ _ Hnd S1 S2 t mn E1 E2) as [lb [ub [_ [A1 A2]]]].
      apply (answers_cost _ _ _ _ _ _ (fun z => 1 * qform rows z + 0)) in A1; [|intros; ring].
      apply (answers_cost _ _ _ _ _ _ (fun z => 1 * qform rows z + 0)) in A2; [|intros; ring].
      refine (answers_same _ _ _ _ _ _ _ _ _ A1 A2). rewrite map_length.
      apply (chosen_unique n rows _ _ _ _ 1 (fun _ => 0)); [exact HP|lra| |]; [intros; ring|].
      intros x y Hx Hy X Y. rewrite inner_blend by congruence. lra.
    Qed.
    Theorem units_same_sharpe : forall rf, max_sharpe sv1 (NFloat rf) w1 o1 = (x1, y1, Ok d1) -> max_sharpe sv2 (NFloat (a * rf)) w2 o2 = (x2, y2, Ok d2) -> agree d1 d2.
    Proof.
      intros rf E1 E2. destruct (units_sharpe _ _ _ _ _ _ _ _ _ _ _ _ T sv1 sv2 _ _ _ _ _ _ Hnd S1 S2 rf (pos_def_psd _ _ HP) E1 E2) as [[z [rr [B1 [F1 D1]]]] [z2 [rr2 [B2 [F2 D2]]]]].
      rewrite map_length in B1, B2. assert (z = z2) as <- by exact (ratio_unique _ _ _ _ _ _ _ _ HP (map_length _ _) B1 B2).
      intros t. rewrite D1, D2, (Forall2_rounded_unique _ _ _ F1 F2). reflexivity.
    Qed.
  End Weights.

  Section Success.
    Variables (sv1 sv2 : solver_t).
    Hypothesis (X1 : exact_solver sv1) (X2 : exact_solver sv2) (K1 : complete_solver sv1) (K2 : complete_solver sv2).
    Theorem units_both_min_volatility : succeeds (min_volatility sv1) w1 o1 <-> succeeds (min_volatility sv2) w2 o2.
    Proof.
      facts. rewrite min_volatility_iff, min_volatility_iff by assumption. rewrite N1, N2, C1, C2, LB, UB.
      assert (G := fun x => chosen_times n (e_lb o1) (e_ub o1) 1 (fun _ => True) (fun _ => True) k (qform rows) (qform (cov_times k rows)) Hk ltac:(intros; tauto) ltac:(intros; apply qform_times) x).
      split; intros [x C]; exists x; apply G; exact C.
    Qed.
    Lemma units_force : forall mn sum (ok1 ok2 : list R -> Prop) c (cost1 cost2 : list R -> R), 0 < c ->
      (forall x, List.length x = n -> (ok1 x <-> ok2 x)) -> (forall x, List.length x = n -> cost2 x = c * cost1 x) ->
      ((exists lb ub x, bounds_in_force mn o1 lb ub /\ chosen n lb ub sum ok1 cost1 x) <->
       (exists lb ub x, bounds_in_force mn o2 lb ub /\ chosen n lb ub sum ok2 cost2 x)).
    Proof.
      intros mn sum ok1 ok2 c cost1 cost2 Hc Hok E.
      split; intros (lb & ub & x & B & C); exists lb, ub, x; (split; [first [eapply force_same'; eassumption|eapply force_same; eassumption]|apply (chosen_times n lb ub sum ok1 ok2 c cost1 cost2); assumption]).
    Qed.
    Theorem units_both_utility : forall ra mn, succeeds (max_quadratic_utility sv1 ra mn) w1 o1 <-> succeeds (max_quadratic_utility sv2 (ra * a / k) mn) w2 o2.
    Proof.
      intros ra mn. facts.
      destruct (Rle_dec ra 0) as [Hra|Hra].
      - assert (Hra2 : ra * a / k <= 0) by (unfold Rdiv; pose proof (Rinv_0_lt_compat k Hk); assert (ra * a <= 0) by nra; nra).
        split; intros [w' [o' [d E]]]; unfold max_quadratic_utility in E; [rewrite (proj2 (Rleb_true ra 0) Hra) in E|rewrite (proj2 (Rleb_true _ 0) Hra2) in E]; discriminate E.
      - apply Rnot_le_lt in Hra. assert (Hra2 : 0 < ra * a / k) by (unfold Rdiv; pose proof (Rinv_0_lt_compat k Hk); assert (0 < ra * a) by nra; nra).
        rewrite (utility_iff sv1 w1 o1 X1 K1 O1 A1 _ M1 mn ra Hra (F1 _)), (utility_iff sv2 w2 o2 X2 K2 O2 A2 _ M2 mn _ Hra2 (F2 _)).
        rewrite N1, N2, C1, C2. apply (units_force _ _ _ _ a); [exact Ha|tauto|]. intros x _. rewrite qform_times, inner_times. field. lra.
    Qed.
    Theorem units_both_return : forall t mn, succeeds (efficient_return sv1 (NFloat t) mn) w1 o1 <-> succeeds (efficient_return sv2 (NFloat (a * t)) mn) w2 o2.
    Proof.
      intros t mn. facts.
      rewrite (return_iff sv1 w1 o1 X1 K1 O1 A1 _ M1 mn t R1 (F1 _)), (return_iff sv2 w2 o2 X2 K2 O2 A2 _ M2 mn (a * t) R2 (F2 _)).
      rewrite N1, N2, C1, C2, LB, UB.
      assert (G := fun x => chosen_times n (e_lb o1) (e_ub o1) 1 (fun _ => True) (fun _ => True) a (fun x => - inner m x) (fun x => - inner (map (Rmult a) m) x) Ha ltac:(intros; tauto) ltac:(intros y _; cbv beta; rewrite inner_times; ring) x).
      assert (Q : forall x, t <= inner m x <-> a * t <= inner (map (Rmult a) m) x) by (intros x; rewrite inner_times; split; intros; nra).
      assert (P := units_force mn (if mn then 0 else 1) (fun x => t <= inner m x) (fun x => a * t <= inner (map (Rmult a) m) x) k (qform rows) (qform (cov_times k rows)) Hk ltac:(intros; apply Q) ltac:(intros; apply qform_times)).
      cbv beta in P. fold m. split; intros [[y [Hy C]] H2]; (split; [exists y; split; [apply Q; exact Hy|apply G; exact C]|apply P; exact H2]).
    Qed.
    Lemma vsum_times : forall c M, vsum (map vsum (cov_times c M)) = c * vsum (map vsum M).
    Proof.
      intros c M. rewrite !vsum_total. rewrite !(map_ext vsum total vsum_total). unfold cov_times. rewrite map_map. rewrite (map_ext _ (fun r => c * total r)).
      - rewrite <- (map_map total (Rmult c)). apply (total_map_scal c (fun z => z)) || (induction (map total M) as [|z l IH]; cbn [map total]; [ring|rewrite IH; ring]).
      - intros r. induction r as [|z l IH]; cbn [map total]; [ring|rewrite IH; ring].
    Qed.
    Theorem units_both_risk : forall pinv1 pinv2 t mn, inverse_times k rows pinv1 pinv2 ->
      (succeeds (efficient_risk sv1 pinv1 (NFloat t) mn) w1 o1 <-> succeeds (efficient_risk sv2 pinv2 (NFloat (sqrt k * t)) mn) w2 o2).
    Proof.
      intros pinv1 pinv2 t mn Hinv. facts. pose proof (sqrt_lt_R0 k Hk) as Sk.
      rewrite (risk_iff sv1 w1 o1 X1 K1 O1 A1 _ M1 mn pinv1 (NFloat t) t eq_refl (F1 _)), (risk_iff sv2 w2 o2 X2 K2 O2 A2 _ M2 mn pinv2 (NFloat (sqrt k * t)) (sqrt k * t) eq_refl (F2 _)).
      rewrite N1, N2, C1, C2.
      assert (Ht : 0 <= t <-> 0 <= sqrt k * t) by (split; intros; nra). rewrite Ht.
      replace (below_global_min pinv2 (cov_times k rows) (sqrt k * t)) with (below_global_min pinv1 rows t).
      2:{ unfold below_global_min. rewrite Hinv, vsum_times. set (v := vsum (map vsum (pinv1 rows))). pose proof (Rinv_0_lt_compat k Hk) as Ik.
          destruct (Reqb v 0) eqn:E0; [apply Reqb_true in E0; rewrite E0; rewrite Rmult_0_r, (proj2 (Reqb_true 0 0) eq_refl); reflexivity|].
          assert (v <> 0) as Hv by (intros Ev; apply Reqb_true in Ev; congruence).
          destruct (Reqb (/ k * v) 0) eqn:E1; [apply Reqb_true in E1; exfalso; apply Rmult_integral in E1 as [E1|E1]; [lra|contradiction]|].
          destruct (Rltb v 0) eqn:E2.
          - apply Rltb_true in E2. rewrite (proj2 (Rltb_true (/ k * v) 0)) by nra. reflexivity.
          - apply Rltb_false in E2. destruct (Rltb (/ k * v) 0) eqn:E3; [apply Rltb_true in E3; nra|]. assert (0 < v) by lra.
            replace (sqrt (1 / (/ k * v))) with (sqrt k * sqrt (1 / v)).
            + destruct (Rltb t (sqrt (1 / v))) eqn:E4; symmetry.
              * apply Rltb_true in E4. apply Rltb_true. apply Rmult_lt_compat_l; assumption.
              * apply Rltb_false in E4. destruct (Rltb (sqrt k * t) (sqrt k * sqrt (1 / v))) eqn:E5; [|reflexivity]. apply Rltb_true in E5. apply Rmult_lt_reg_l in E5; [lra|exact Sk].
            + rewrite <- sqrt_mult; [f_equal; field; split; lra|lra|]. apply Rlt_le, Rdiv_lt_0_compat; lra. }
      assert (P := units_force mn (if mn then 0 else 1) (fun x => qform rows x <= t * t) (fun x => qform (cov_times k rows) x <= sqrt k * t * (sqrt k * t)) a (fun x => - inner m x) (fun x => - inner (map (Rmult a) m) x) Ha
        ltac:(intros x _; cbv beta; rewrite qform_times; replace (sqrt k * t * (sqrt k * t)) with (k * (t * t)) by (rewrite <- (sqrt_sqrt k) at 1 by lra; ring); split; intros; nra)
        ltac:(intros x _; cbv beta; rewrite inner_times; ring)).
      cbv beta in P. fold m. fold n. rewrite P. tauto.
    Qed.
    Theorem units_both_sharpe : forall rf, psd n rows -> Forall (fun c => c <> None) (e_lb o1) -> Forall (fun c => c <> None) (e_ub o1) ->
      (succeeds (max_sharpe sv1 (NFloat rf)) w1 o1 <-> succeeds (max_sharpe sv2 (NFloat (a * rf))) w2 o2).
    Proof.
      intros rf HP Fl Fu. facts.
      rewrite (sharpe_iff sv1 w1 o1 X1 K1 O1 A1 _ M1 (NFloat rf) rf), (sharpe_iff sv2 w2 o2 X2 K2 O2 A2 _ M2 (NFloat (a * rf)) (a * rf)); try assumption; try reflexivity.
      - rewrite N1, N2, C1, C2, LB, UB. fold n.
        assert (Q : Exists (fun v => rf < v) (map snd s) <-> Exists (fun v => a * rf < v) (map (Rmult a) (map snd s))).
        { rewrite !Exists_exists. split.
          - intros [v [Hv1 Hv2]]. exists (a * v). split; [apply in_map; exact Hv1|nra].
          - intros [v [Hv1 Hv2]]. apply in_map_iff in Hv1 as (u & <- & Hu). exists u. split; [exact Hu|nra]. }
        rewrite Q. split; intros [H1 [x B]]; (split; [exact H1|exists x; apply (ratio_times n (e_lb o1) (e_ub o1) (map snd s) rows rf a k x Ha Hk HP); exact B]).
      - rewrite N2, C2. apply psd_times; assumption.
      - rewrite LB. exact Fl.
      - rewrite UB. exact Fu.
      - rewrite N1, C1. exact HP.
    Qed.
  End Success.
End Same.
