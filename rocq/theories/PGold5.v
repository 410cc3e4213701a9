(** * CLA: performance of the portfolio of the last optimisation *)
From Coq Require Import List Reals Lra Lia ZArith.
From Verif Require Import Num Py SBL MBase MCLA SLin SCLA SGold RBase PyLemmas Sums Mat PBase PCLA1 PCLA2 PCLA3 PGold.
Import ListNotations.
Local Open Scope R_scope.

Lemma ensure_weights : forall fuel inv ord (o : cla R), b_weights (c_base (fst (ensure fuel inv ord o))) = b_weights (c_base o).
Proof.
  intros fuel inv ord o. unfold ensure. destruct (c_tp o); [|reflexivity]. pose proof (solve_data fuel inv ord o) as H. unfold data in H.
  injection H as H1 H2 H3 H4 H5 H6. rewrite H1. reflexivity.
Qed.
(** calls that do not succeed, and the frontier, leave the weights alone *)
Theorem weights_kept : forall fuel inv ord c (o o' : cla R) r, do_call fuel inv ord c o = (o', r) ->
  (exists e, r = Err e) \/ (exists k, c = CallFrontier k) -> b_weights (c_base o') = b_weights (c_base o).
Proof.
  intros fuel inv ord c o o' r E H. rewrite <- (ensure_weights fuel inv ord o). destruct c as [| |k]; cbn [do_call] in E.
  - destruct H as [[e ->]|[k H]]; [|discriminate]. unfold cla_min_volatility in E. destruct (ensure fuel inv ord o) as [o1 [u|x]]; cbn [fst].
    + destruct (rbind _ _) as [p|x]; [cbn in E; discriminate|]. injection E as <- _. reflexivity.
    + injection E as <- _. reflexivity.
  - destruct H as [[e ->]|[k H]]; [|discriminate]. unfold cla_max_sharpe in E. destruct (ensure fuel inv ord o) as [o1 [u|x]]; cbn [fst].
    + destruct (rbind _ _) as [p|x]; [cbn in E; discriminate|]. injection E as <- _. reflexivity.
    + injection E as <- _. reflexivity.
  - unfold cla_frontier in E. destruct (ensure fuel inv ord o) as [o1 [u|x]]; cbn [fst].
    + destruct (c_tp o1); [injection E as <- _; reflexivity|]. destruct (mapM _ _) as [sg|x]; injection E as <- _; reflexivity.
    + injection E as <- _. reflexivity.
Qed.
Lemma call_weights : forall fuel inv ord c (o o' : cla R) w, do_call fuel inv ord c o = (o', Ok [w]) -> c = CallMinVol \/ c = CallSharpe ->
  well_labelled o -> length (c_ub o) = length (c_lb o) -> c_tp o = [] \/ all_feasible o ->
  b_weights (c_base o') = Some w /\ c_mean o' = c_mean o /\ c_cov o' = c_cov o /\ nearly_feasible tol9 (c_lb o) (c_ub o) w.
Proof.
  intros fuel inv ord c o o' w E Hc [Hn Hl] Hlen Hf.
  destruct (ensure fuel inv ord o) as [o1 [u|e]] eqn:Ee.
  2:{ destruct Hc as [->| ->]; cbn [do_call] in E; [unfold cla_min_volatility in E|unfold cla_max_sharpe in E]; rewrite Ee in E; discriminate. }
  destruct u. destruct (ensure_feasible _ _ _ _ _ Hlen Hf Ee) as [[S1 [S2 [S3 [S4 [S5 _]]]]] [A2 AF]].
  rewrite Forall_forall in AF. rewrite S4, S5 in AF.
  assert (Hln : Forall (fun p => length (t_w p) = length (c_lb o)) (c_tp o1)).
  { apply Forall_forall. intros p Hp. apply (nearly_length _ _ _ _ (AF p Hp)). }
  destruct Hc as [->| ->]; cbn [do_call] in E.
  - destruct (cla_min_volatility fuel inv ord o) as [o2 [d|e]] eqn:Em; [|discriminate]. injection E as <- <-.
    destruct (min_vol_run _ _ _ _ _ _ _ Ee Em) as [p [Hp [-> [-> _]]]].
    rewrite output_values; [|rewrite S1; exact Hn|rewrite S1, Hl; symmetry; apply (nearly_length _ _ _ _ (AF p Hp))]. cbn. auto.
  - destruct (cla_max_sharpe fuel inv ord o) as [o2 [d|e]] eqn:Em; [|discriminate]. injection E as <- <-.
    destruct (max_sharpe_run _ _ _ _ _ _ _ _ Ee Hln Em) as [i [p [q [a [Hp [Hq [Hab [-> ->]]]]]]]].
    apply nth_error_In in Hp, Hq. pose proof (combo_feasible _ _ _ a _ _ Hab (AF p Hp) (AF q Hq)) as F.
    rewrite output_values; [|rewrite S1; exact Hn|rewrite S1, Hl; symmetry; apply (nearly_length _ _ _ _ F)]. cbn. auto.
Qed.
(** after an optimisation the reported figures are those of the weights returned *)
Theorem performance_of_result : forall fuel inv ord c (o o' : cla R) w rf, do_call fuel inv ord c o = (o', Ok [w]) -> c = CallMinVol \/ c = CallSharpe ->
  well_labelled o -> length (c_lb o) = c_n o -> length (c_ub o) = c_n o -> c_tp o = [] \/ all_feasible o -> pos_def (c_n o) (c_cov o) ->
  0 < qform (c_cov o) w /\
  cla_performance rf o' = Ok (Some (inner w (c_mean o)), sqrt (qform (c_cov o) w), Some ((inner w (c_mean o) - rf) / sqrt (qform (c_cov o) w))).
Proof.
  intros fuel inv ord c o o' w rf E Hc Hlab L1 L2 Hf [Hsq Hpd].
  destruct (call_weights fuel inv ord c o o' w E Hc Hlab ltac:(congruence) Hf) as [Ew [Em [Ec F]]].
  pose proof (nearly_length _ _ _ _ F) as Lw. rewrite L1 in Lw.
  assert (V : 0 < qform (c_cov o) w).
  { apply Hpd; [exact Lw|]. intros E0. destruct F as [F _]. rewrite E0 in F. assert (T : forall k, total (repeat 0 k) = 0) by (induction k as [|k IH]; cbn; lra).
    rewrite T in F. apply Rabs_unpack in F. unfold tol9 in F. lra. }
  split; [exact V|]. unfold cla_performance. rewrite Ew, Em, Ec.
  destruct (perf_values (MuArray (c_mean o)) (c_mean o) (CovArray (c_cov o)) rf w eq_refl) as [r [s [sh [-> [-> [Hs [Hss ->]]]]]]].
  - symmetry. exact Lw.
  - rewrite Lw. exact Hsq.
  - exact V.
  - cbn [cov_values] in Hss. assert (Es : s = sqrt (qform (c_cov o) w)) by (rewrite <- Hss; symmetry; apply sqrt_square; lra). rewrite Es. reflexivity.
Qed.
Theorem no_weights_no_figures : forall (o : cla R) rf, b_weights (c_base o) = None -> cla_performance rf o = Err ValueError.
Proof. intros o rf H. unfold cla_performance. rewrite H. reflexivity. Qed.
Theorem set_weights_refuses : forall (o : cla R) d, cla_set_weights o d = (o, Err NotImplementedError).
Proof. reflexivity. Qed.
