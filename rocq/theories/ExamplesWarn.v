(** * Non-vacuity for C121 *)
From Coq Require Import ZArith List String Bool Reals Lra Lia Arith.
From Verif Require Import Num RBase Py PyLemmas SLin Sums MConvex MEF MDown MCalls MPlot MPlot2 MFrame MBase MHRP MReturns MRisk MRisk2 MArray MBL MWarn SConvex SRisk SPlot SWarn PCov1 PBase.
From Verif Require Import PEFW PWarn1 PWarn3 PWarn4 PWarnW PropertiesWarn SPlot2 SConv.
Import ListNotations.
Local Open Scope R_scope.

(** evaluate a method statement by statement *)
Lemma rb : forall X Y (m : M wef X) (k : X -> M wef Y) w s w1 s1 x t, m w s = (w1, s1, Ok x) -> k x w1 s1 = t -> bind m k w s = t.
Proof. intros X Y m k w s w1 s1 x t A B. unfold bind. rewrite A. exact B. Qed.
Ltac w_lazy := lazy -[any_negative Rleb Rltb Reqb round16 IZR Rdiv Rmult Rplus Ropp Rinv Rminus list_max].
Ltac w_num := repeat match goal with
  | |- context[Rltb ?a ?b] => first [rewrite (proj2 (Rltb_false a b)) by lra | rewrite (proj2 (Rltb_true a b)) by lra]
  | |- context[Rleb ?a ?b] => first [rewrite (proj2 (Rleb_false a b)) by lra | rewrite (proj2 (Rleb_true a b)) by lra]
  | |- context[Reqb ?a ?b] => first [rewrite (proj2 (Reqb_false a b)) by lra | rewrite (proj2 (Reqb_true a b)) by lra]
  end.
Ltac w_go :=
  cbv beta;
  match goal with
  | |- bind _ _ _ _ = _ => eapply rb; [w_go|w_go]
  | |- (if ?b then _ else _) _ _ = _ => let b' := eval cbn in b in change b with b'; cbv iota; w_num; w_go
  | |- (match ?b with _ => _ end) _ _ = _ => let b' := eval cbn in b in change b with b'; cbv iota beta; w_num; w_go
  | |- _ => w_lazy; w_num; w_lazy; reflexivity
  end.
(** a solver that answers one half each, and 1 for every other variable *)
Definition w_solver : solver_t := fun _ _ _ _ => AOptimal (fun v => if Nat.eqb v 0 then [1/2; 1/2] else [1]) 0.
Definition w_nlp : nlp_solver := fun q => (nlp_x0 q, true).
Definition w_id : list (list R) -> list (list R) := fun m => m.
Definition w_long : ef := two_ef [1/5; 1/10] 0 1.
Lemma w_all_long : any_negative [Some 0; Some 0] = false.
Proof. apply long_iff. intros b [<-|[<-|[]]]; exists 0; split; auto; lra. Qed.
Lemma w_some_short : any_negative [Some (-1); Some (-1)] = true.
Proof. apply short_iff. intros H. destruct (H (Some (-1))) as (x & E & Hx); [left; reflexivity|]. inversion E. lra. Qed.
(** a market-neutral portfolio of long positions: the bounds are widened, with a warning *)
Example ex_c121_bounds : exists w' o', run_w w_solver w_nlp w_id (KUtility 1 true) two_world ([], w_long) = (w', ([WBounds], o'), Ok tt) /\
  e_lb o' = [Some (-1); Some (-1)] /\ e_ub o' = [Some 1; Some 1].
Proof.
  eexists. eexists. split.
  - cbn [run_w]. unfold max_quadratic_utility_w, make_weight_sum_constraint_w. w_num. 
    eapply rb; [|reflexivity]. eapply rb; [w_go|]. cbv beta iota. eapply rb.
    + do 5 (eapply rb; [w_go|]; cbv beta). eapply rb.
      * eapply rb; [w_go|]. cbv beta. cbn [e_lb]. rewrite w_all_long. cbn [negb when]. w_go.
      * w_go.
    + w_go.
  - split; reflexivity.
Qed.
(** sector constraints beside short positions *)
Definition w_short : ef := two_ef [1/5; 1/10] (-1) 1.
Example ex_c121_sectors : exists w' o', run_w w_solver w_nlp w_id (KAddSector [(LInt 0, "s"%string); (LInt 1, "t"%string)] [("s"%string, 1/10)] []) two_world ([], w_short) =
  (w', ([WShortSectors], o'), Ok tt) /\ ~ all_long (e_lb w_short).
Proof.
  eexists. eexists. split; [|apply short_iff; exact w_some_short]. cbn [run_w]. unfold add_sector_constraints_w. eapply rb; [w_go|]. cbv beta. cbn [e_lb].
  rewrite w_some_short. cbn [when]. w_go.
Qed.
(** an extra objective and max_sharpe *)
Definition w_extra : ef := set_add [ESumSq (EVar 0)] w_long.
Example ex_c121_objectives : exists w' o', run_w w_solver w_nlp w_id (KMaxSharpe (NFloat 0)) two_world ([], w_extra) = (w', ([WObjectives], o'), Ok tt) /\ e_add w_extra <> [].
Proof.
  assert (M : list_max [1/5; 1/10] = Some (1/5)) by (unfold list_max; cbn; unfold Rmax; destruct (Rle_dec (1/5) (1/10)); [lra|reflexivity]).
  eexists. eexists. split; [|discriminate]. cbn [run_w]. unfold max_sharpe_w. eapply rb; [|reflexivity]. eapply rb; [w_go|]. cbv beta. cbn [e_mu]. rewrite M. w_num.
  repeat (eapply rb; [w_go|]; cbv beta). cbn [fst snd scalar Nat.eqb]. w_num. w_go.
Qed.
(** EfficientSemivariance *)
Example ex_c121_downside : exists k w' o', g_run_w w_solver w_nlp k (GMin true) two_world ([], w_long) = (w', ([WBounds], o'), Ok tt).
Proof.
  exists (DSemi (mkSemi [[0; 0]] 0 1)). eexists. eexists. cbn [g_run_w g_min_w]. unfold make_weight_sum_constraint_w. eapply rb; [|reflexivity].
  do 4 (eapply rb; [w_go|]; cbv beta). eapply rb.
  - eapply rb.
    + eapply rb; [w_go|]. cbv beta. cbn [e_lb]. rewrite w_all_long. cbn [negb when]. w_go.
    + w_go.
  - w_go.
Qed.
(** the matrix -1 is announced, the matrix 1 is not *)
Lemma w_bad : is_psd [[-1]] = false.
Proof.
  destruct (is_psd [[-1]]) eqn:E; [|reflexivity]. exfalso. unfold is_psd in E. cbn [List.length cholesky] in E. unfold entry, delta in E. cbn [nth Nat.eqb] in E.
  apply andb_true_iff in E. destruct E as [E _]. apply Rltb_true in E. assert (S : eps16 < 1) by (unfold eps16; rewrite <- Rinv_1; apply Rinv_lt_contravar; cbn; lra). lra.
Qed.
Lemma w_good : is_psd [[1]] = true.
Proof.
  unfold is_psd. cbn [List.length cholesky]. unfold entry, delta. cbn [nth Nat.eqb]. rewrite andb_true_r. apply Rltb_true. pose proof eps16_pos. lra.
Qed.
Example ex_c121_repair : forall eigh, In WAmended (fst (fix_psd_w eigh [[-1]] "spectral")) /\ fix_psd_w eigh [[1]] "spectral" = ([], Ok [[1]]).
Proof.
  intros eigh. split; [apply fix_warned; exact w_bad|]. unfold fix_psd_w. rewrite w_good. reflexivity.
Qed.
Example ex_c121_repair_works : eigen_of 1 [[-1]] [-1] [[1]] /\ fst (fix_psd_w (fun _ => ([-1], [[1]])) [[-1]] "diag") = [WAmended].
Proof.
  assert (E : eigen_of 1 [[-1]] [-1] [[1]]).
  { repeat split; try reflexivity; try (repeat constructor); intros i j Hi Hj; replace i with O by lia; replace j with O by lia; unfold entry, delta; cbn; lra. }
  split; [exact E|]. pose proof (c121_repair_works (fun _ => ([-1], [[1]])) 1 [[-1]] "diag") as H. unfold fix_psd_w in *. rewrite w_bad in *. cbn [String.eqb Ascii.eqb Bool.eqb fst snd] in *.
  match goal with |- context[is_psd ?F] => destruct (is_psd F); [reflexivity|] end. exfalso. apply H; [split; [reflexivity|repeat constructor]| |exact E|right; left; reflexivity].
  intros i j Hi Hj. replace i with O by lia. replace j with O by lia. reflexivity.
Qed.
(** one asset with returns 0 and 2 *)
Definition w_tab : table := TArray 1 [[Some 0]; [Some 2]].
Lemma w_psd1 : forall x, 0 <= x -> is_psd [[x]] = true.
Proof. intros x H. unfold is_psd. cbn [List.length cholesky]. unfold entry, delta. cbn [nth Nat.eqb]. rewrite andb_true_r. apply Rltb_true. pose proof eps16_pos. lra. Qed.
Example ex_c121_sample_cov : forall eigh, exists f, sample_cov_w eigh w_tab true 1 false "spectral" = ([WNotFrame], Ok f).
Proof.
  intros eigh. eexists. unfold sample_cov_w, w_tab, get_returns. cbn -[is_psd frame_cov fixed_frame_w]. cbn -[is_psd fixed_frame_w].
  unfold fixed_frame_w, fix_psd_w. rewrite w_psd1; [reflexivity|]. unfold codev. cbn. rewrite vsum_total. generalize (mean_of [0; 2]). intros m. cbn. nra.
Qed.
Example ex_c121_semicovariance : forall eigh, exists f, semicovariance_w eigh w_tab true 1 1 false "spectral" = ([WNotFrame], Ok f).
Proof.
  intros eigh. eexists. unfold semicovariance_w, w_tab, get_returns. cbn -[is_psd fixed_frame_w].
  unfold fixed_frame_w, fix_psd_w. rewrite w_psd1; [reflexivity|]. unfold Rmin. destruct (Rle_dec (0 - 1) 0); [|lra]. destruct (Rle_dec (2 - 1) 0); lra.
Qed.
(** span 3: one asset, one pair *)
Example ex_c121_exp_cov : forall eigh, exists f, exp_cov_w eigh w_tab true 3 1 false "spectral" = ([WNotFrame; WSpan], Ok f).
Proof.
  intros eigh. eexists. unfold exp_cov_w, w_tab, get_returns, span_warnings, pair_exp_cov. rewrite (proj2 (Rltb_false 3 1)) by lra. rewrite (proj2 (Rltb_true 3 10)) by lra.
  cbn -[is_psd fixed_frame_w].
  unfold fixed_frame_w, fix_psd_w. rewrite w_psd1; [reflexivity|]. generalize (mean_of [0; 2]). intros m.
  replace (_ * 1) with ((1/2 * ((0 - m) * (0 - m)) + (2 - m) * (2 - m)) * (2/3)) by field. pose proof (Rle_0_sqr (0 - m)) as P1. pose proof (Rle_0_sqr (2 - m)) as P2. unfold Rsqr in P1, P2. nra.
Qed.
Definition w_mcd : mcd_oracle := fun _ => [[5]].
Example ex_c121_mcd : forall eigh, exists f, min_cov_determinant_w eigh w_mcd w_tab true 1 false "spectral" = ([WDeprecated; WNotFrame], Ok f).
Proof.
  intros eigh. eexists. unfold min_cov_determinant_w, w_tab, get_returns, w_mcd. cbn -[is_psd fixed_frame_w].
  unfold fixed_frame_w, fix_psd_w. rewrite w_psd1; [reflexivity|lra].
Qed.
(** one row of two is removed *)
Example ex_c121_removed : validate_returns_w (Some [1/5]) (RTable 1 [[None]; [Some 2]]) = ([WRemoved], Ok [[2]]) /\
  validate_returns_w (Some [1/5]) (RTable 1 [[Some 1]; [Some 2]]) = ([], Ok [[1]; [2]]).
Proof. split; reflexivity. Qed.
Example ex_c121_beta : fst (validate_beta_w (1/10)) = [WBeta] /\ fst (validate_beta_w (19/20)) = [].
Proof.
  unfold validate_beta_w. w_num. cbn. split; reflexivity.
Qed.
(** the rate of max_sharpe is remembered *)
Definition w_rate : ef := set_rf (Some (1/50)) w_long.
Example ex_c121_rate : fst (ef_performance_w 0 w_rate) = [WRate] /\ fst (ef_performance_w (1/50) w_rate) = [].
Proof.
  unfold ef_performance_w. cbn [w_rate set_rf e_rf fst]. w_num. split; reflexivity.
Qed.
(** a model without a prior, and one with *)
Definition w_args (p : pi_arg) : bl_args := mkArgs (CovArray [[1]]) p VNone (Some [1]) (Some [[1]]) (OmArr [[1]]) ConfNone (1/2) 1 None 0.
Example ex_c121_prior : exists b b', bl_init_w (w_args PiNone) = ([WNoPrior], Ok b) /\ bl_init_w (w_args (PiArr [1])) = ([], Ok b').
Proof.
  eexists. eexists. unfold bl_init_w, w_args. cbn [a_cov a_pi a_views a_Q a_P a_omega a_conf a_tau a_ra a_caps a_rf]. w_num. split; reflexivity.
Qed.
(** a plot: 1 is drawn, 0 fails, -1 is rejected *)
Definition w_toy (name : string) : option (R -> M R unit) :=
  if String.eqb name "risk" then Some (fun v w s => if Reqb v 0 then (w, s, Err OptimizationError) else if Rltb v 0 then (w, s, Err ValueError) else (w, v, Ok tt)) else None.
Example ex_c121_plot : plot_loop_w w_toy (fun s => Ok (Some s, s)) "risk" [1; 0; -1] two_world 5 = ([WNoPortfolio (-1)], (two_world, 1, Ok [(Some 1, 1); (Some 1, 1)])).
Proof.
  unfold plot_loop_w, attempt, w_toy. cbn [String.eqb Ascii.eqb Bool.eqb]. w_num. reflexivity.
Qed.
Example ex_c121_dendrogram : forall lk, exists h, hrp_init HRetNone (HCovFrame (mkFrame [LInt 0] [LInt 0] [[1]])) = Ok h /\ fst (plot_dendrogram_w lk h) = [WNotOptimized].
Proof. intros lk. eexists. split; reflexivity. Qed.

(** C121: two assets with standard deviations 2 and 3 and correlation 1/2 *)
Example ex_c121_conversion : square 2 [[4; 3]; [3; 9]] /\ all_risky 2 [[4; 3]; [3; 9]] /\ rescaled 2 [[1; 1 / 2]; [1 / 2; 1]] [2; 3] [[4; 3]; [3; 9]].
Proof.
  split; [split; [reflexivity|repeat constructor]|]. split.
  - intros [|[|i]] H; cbn; try lra; lia.
  - intros [|[|i]] [|[|j]] Hi Hj; cbn; try lra; lia.
Qed.
(** C121: a table that is announced and one that is not *)
Example ex_c121_table : announces (TArray 1 [[Some 1]]) [] [WNotFrame; WAmended] /\ announces (TFrame (mkFrame [LInt 0] [LInt 0] [[Some 1]])) [] [].
Proof.
  split; (split; [split|intros x H; cbn in *; tauto]).
  - intros _ f. discriminate.
  - intros _. left. reflexivity.
  - intros [].
  - intros H. exfalso. eapply H. reflexivity.
Qed.
