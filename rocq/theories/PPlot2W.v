(** * The marker of the CLA plot: a concrete run *)
From Coq Require Import ZArith QArith Qreals String List Bool Reals Lra Lia.
From Verif Require Import Num Py MFrame MBase MCLA MHRP MPlot2 SLin SBL SCLA SPlot2 RBase PyLemmas QRBase PBase PCLA1 PCLA2 PCLA3 PCLAQ PCLAW PPlot2.
Import ListNotations.
Local Open Scope R_scope.

Definition pair : cla Q := long_only [2; 1]%Z [[4; 0]; [0; 1]]%Z.
Definition pair_tp : list (tp Q) := c_tp (fst (@solve Q QNum 20 qinv idord pair)).
Lemma pair_run : forall k, @solve Q QNum (10 + k) qinv idord pair = (set_tp pair_tp pair, Ok tt).
Proof. intros k. vm_compute. reflexivity. Qed.
Lemma pair_chosen : @chosen Q QNum (set_tp pair_tp pair) = Ok [1 # 5; 4 # 5]%Q.
Proof. vm_compute. reflexivity. Qed.
Definition pair_cov : list (list R) := [[4; 0]; [0; 1]].
Lemma pair_cov_R : qm (c_cov pair) = pair_cov.
Proof. change (c_cov pair) with (map zq [[4; 0]; [0; 1]]%Z). rewrite zqm_R. reflexivity. Qed.
Lemma pair_mean_R : qv (c_mean pair) = [2; 1].
Proof. change (c_mean pair) with (zq [2; 1]%Z). rewrite zq_R. reflexivity. Qed.
Lemma pair_nonneg : forall w, 0 <= qform pair_cov w.
Proof. intros [|a [|b w]]; unfold qform, pair_cov; cbn; try nra. destruct w; cbn; nra. Qed.
Lemma deviations_exist : forall ws, exists sg, mapM (deviation_of pair_cov) ws = Ok sg.
Proof.
  induction ws as [|w ws [sg IH]]; [eexists; reflexivity|]. cbn [mapM]. unfold deviation_of at 1. rewrite quad_qform. cbv zeta.
  rewrite (proj2 (Rltb_false _ _)) by apply pair_nonneg. cbn [rbind]. rewrite IH. eexists. reflexivity.
Qed.
Theorem marker_not_best : exists o, long_only_cla [2; 1]%Z [[4; 0]; [0; 1]]%Z = Ok o /\ well_posed o /\ well_labelled o /\
  feasible (c_lb o) (c_ub o) [1 / 3; 2 / 3] /\
  forall k inv points, sound_inverse inv -> complete_inverse inv ->
  exists o1 d o2 p s, cla_min_volatility (10 + k) inv idord o = (o1, Ok d) /\ plot_cla (10 + k) inv idord points o1 = (o2, Ok p) /\
    p_marker p = (s, Some (6 / 5)) /\ (6 / 5) / s < inner [1 / 3; 2 / 3] (c_mean o) / sqrt (qform (c_cov o) [1 / 3; 2 / 3]).
Proof.
  exists (qcla pair). split; [apply long_only_is|].
  destruct (long_only_posed [2; 1]%Z [[4; 0]; [0; 1]]%Z) as [Hp Hl]; [cbn; lia|vm_compute; reflexivity..|]. split; [exact Hp|]. split; [exact Hl|]. split.
  { cbn [qcla pair long_only c_lb c_ub]. unfold qv. rewrite !map_repeat, RMicromega.Q2R_0, RMicromega.Q2R_1. cbn [repeat length]. feas. }
  intros k inv points Hs Hc.
  assert (E : solve (10 + k) inv idord (qcla pair) = (qcla (set_tp pair_tp pair), Ok tt)) by (apply (run (10 + k) inv _ _ _ _ Hs Hc (pair_run k)); discriminate).
  assert (Ee : ensure (10 + k) inv idord (qcla pair) = (qcla (set_tp pair_tp pair), Ok tt)) by exact E.
  set (o1 := qcla (set_tp pair_tp pair)) in *. set (w := [1 / 5; 4 / 5]).
  assert (Ew : chosen o1 = Ok w). { unfold o1. rewrite chosen_Q, pair_chosen. cbn [qmap]. unfold qv, w. cbn [map]. unfold Q2R. cbn [Qnum Qden]. repeat (f_equal; try lra). }
  exists (set_cweights w o1), (make_output_of (c_base o1) w).
  destruct (deviations_exist (frontier_weights (points / List.length (c_tp o1)) (c_tp o1))) as [sg Esg].
  set (ws := frontier_weights (points / List.length (c_tp o1)) (c_tp o1)) in *.
  assert (C1 : c_cov o1 = pair_cov) by (unfold o1; cbn [qcla set_tp c_cov]; apply pair_cov_R).
  assert (M1 : c_mean o1 = [2; 1]) by (unfold o1; cbn [qcla set_tp c_mean]; apply pair_mean_R).
  assert (T1 : exists t ts, c_tp o1 = t :: ts) by (unfold o1; cbn [qcla set_tp c_tp]; unfold pair_tp; vm_compute; eauto).
  destruct T1 as (t & ts & T1).
  exists (set_frontier (map (fun w => dot w (c_mean o1)) ws, sg, ws) (set_cweights w o1)).
  assert (Q1 : qform pair_cov w = 4 / 5) by (unfold qform, pair_cov, w; cbn; lra).
  assert (I1 : inner w [2; 1] = 6 / 5) by (unfold w; cbn; lra).
  assert (P : exists sh, cla_performance 0 (set_cweights w o1) = Ok (Some (6 / 5), sqrt (4 / 5), sh)).
  { unfold cla_performance. cbn [set_cweights c_base b_weights c_mean c_cov]. rewrite C1, M1.
    destruct (perf_values (MuArray [2; 1]) [2; 1] (CovArray pair_cov) 0 w eq_refl eq_refl) as (r & s & sh & E1 & E2 & E3 & E4 & E5).
    - split; [reflexivity|]. repeat constructor.
    - cbn [cov_values]. rewrite Q1. lra.
    - cbn [cov_values] in E4. rewrite Q1 in E4. rewrite I1 in E2. rewrite E1, E2. exists (Some sh). do 2 f_equal. f_equal.
      rewrite <- E4. symmetry. apply sqrt_square. lra. }
  destruct P as [sh P].
  assert (F : cla_frontier (10 + k) inv idord points (set_cweights w o1) =
    (set_frontier (map (fun w => dot w (c_mean o1)) ws, sg, ws) (set_cweights w o1), Ok (map (fun w => dot w (c_mean o1)) ws, sg, ws))).
  { unfold cla_frontier. rewrite ensure_ready by (cbn [set_cweights c_tp]; rewrite T1; discriminate). cbn [set_cweights c_tp c_cov c_mean].
    rewrite T1. rewrite <- T1. fold ws. rewrite C1, Esg. reflexivity. }
  assert (A : exists sd, asset_deviations pair_cov = Ok sd).
  { unfold asset_deviations, pair_cov, diagonal. cbn [List.length seq map nth mapM]. rewrite !(proj2 (Rltb_false _ _)) by lra. eexists. reflexivity. }
  destruct A as [sd A].
  exists (mkPic sg (map (fun w => dot w (c_mean o1)) ws) (sqrt (4 / 5), Some (6 / 5)) (combine sd (c_mean o1)) (b_tickers (c_base o1))), (sqrt (4 / 5)).
  split; [|split; [|split]].
  - rewrite (min_vol_chosen _ _ _ _ _ Ee), Ew. reflexivity.
  - unfold plot_cla, marker_weights. cbn [set_cweights c_base b_weights]. fold (set_cweights w o1). rewrite P. unfold curve_values.
    change (c_frontier (set_cweights w o1)) with (@None (list R * list R * list (list R))). cbv iota. rewrite F.
    cbn [set_frontier set_cweights c_cov c_mean c_base b_tickers]. rewrite C1, A. reflexivity.
  - reflexivity.
  - cbn [qcla c_mean c_cov]. rewrite pair_mean_R, pair_cov_R.
    replace (qform pair_cov [1 / 3; 2 / 3]) with (8 / 9) by (unfold qform, pair_cov; cbn; lra).
    replace (inner [1 / 3; 2 / 3] [2; 1]) with (4 / 3) by (cbn; lra).
    assert (S1 : 0 < sqrt (4 / 5)) by (apply sqrt_lt_R0; lra). assert (S2 : 0 < sqrt (8 / 9)) by (apply sqrt_lt_R0; lra).
    pose proof (sqrt_sqrt (4 / 5) ltac:(lra)) as Q4. pose proof (sqrt_sqrt (8 / 9) ltac:(lra)) as Q8. set (a := sqrt (4 / 5)) in *. set (b := sqrt (8 / 9)) in *.
    apply (Rmult_lt_reg_r (a * b)); [apply Rmult_lt_0_compat; assumption|]. replace (6 / 5 / a * (a * b)) with (6 / 5 * b) by (field; lra).
    replace (4 / 3 / b * (a * b)) with (4 / 3 * a) by (field; lra). apply Rsqr_incrst_0; [unfold Rsqr; nra|lra|lra].
Qed.
