(** * Concrete cases for the theorems in PropertiesPlot.v *)
From Coq Require Import ZArith QArith Qreals List String Bool Reals Lra Lia.
From Verif Require Import Num Py RBase PyLemmas QRBase MFrame MBase MCLA MConvex MEF MHRP MPlot2 SLin SHRP SCLA SPlot2 SLabels SFront PCLA1 PCLA3 PCLAQ PCLAW PHRP PHRP2 PHRP3 PHRP4 PPlot2 PPlot2W PFront PropertiesHRP ExamplesHRP PropertiesPlot.
Import ListNotations.
Local Open Scope R_scope.

(** C97: [c97_marker_refuted] contains a run of the plot; C54: its object after solving, with three turning points, the first two equal *)
Definition pair1 : cla R := qcla (set_tp pair_tp pair).
(** kept folded: unfolding runs the algorithm *)
Lemma pair1_points : map t_w (c_tp pair1) = [[1; 0]; [1; 0]; [1 / 5; 4 / 5]].
Proof.
  assert (E : map t_w pair_tp = [[1; 0]; [1; 0]; [1 # 5; 4 # 5]]%Q) by (vm_compute; reflexivity).
  transitivity (map qv (map t_w pair_tp)); [rewrite map_map; unfold pair1; cbn [qcla set_tp c_tp]; rewrite map_map; reflexivity|].
  rewrite E. unfold qv. cbn [map]. unfold Q2R. cbn [Qnum Qden].
  apply f_equal2; [|apply f_equal2; [|apply f_equal2; [|reflexivity]]]; (apply f_equal2; [lra|apply f_equal2; [lra|reflexivity]]).
Qed.
Example ex_c54 : forall inv fuel, ensure fuel inv idord pair1 = (pair1, Ok tt) /\ Forall (fun p => List.length (t_w p) = 2%nat) (c_tp pair1) /\ List.length (c_tp pair1) = 3%nat.
Proof.
  intros inv fuel. pose proof pair1_points as P. assert (L : List.length (c_tp pair1) = 3%nat) by (rewrite <- (map_length t_w), P; reflexivity).
  assert (G : forall o : cla R, List.length (c_tp o) = 3%nat -> ensure fuel inv idord o = (o, Ok tt)) by (intros o Ho; apply ensure_ready; intros E; rewrite E in Ho; discriminate).
  split; [exact (G pair1 L)|]. split; [|exact L].
  assert (F : Forall (fun w : list R => List.length w = 2%nat) (map t_w (c_tp pair1))) by (rewrite P; repeat constructor). exact (proj1 (Forall_map _ _ _) F).
Qed.
Lemma pair1_falling : forall i j x y, (i <= j)%nat -> nth_error [[1; 0]; [1; 0]; [1 / 5; 4 / 5]] i = Some x -> nth_error [[1; 0]; [1; 0]; [1 / 5; 4 / 5]] j = Some y ->
  inner y [2; 1] <= inner x [2; 1].
Proof.
  intros i j x y Hij Hx Hy. destruct i as [|[|[|i]]]; cbn in Hx; [injection Hx as <-..|destruct i; discriminate];
    (destruct j as [|[|[|j]]]; cbn in Hy; [injection Hy as <-..|destruct j; discriminate]); solve [exfalso; clear - Hij; lia|unfold inner; lra].
Qed.
Example ex_c54_descending : descending (c_mean pair1) (c_tp pair1).
Proof.
  intros i j p q Hij Hp Hq. apply (map_nth_error t_w) in Hp. apply (map_nth_error t_w) in Hq. rewrite pair1_points in Hp, Hq.
  assert (M : c_mean pair1 = [2; 1]) by apply pair_mean_R. rewrite M. exact (pair1_falling i j _ _ Hij Hp Hq).
Qed.

(** C97: the dendrogram of three assets *)
Example ex_c97_dendrogram : exists h0 h d, hrp_init HRetNone (HCovFrame (labelled abc c3)) = Ok h0 /\ h_clusters h0 = None /\
  hrp_optimize lk3 "single" h0 = (h, Ok d) /\ plot_dendrogram lk3 h0 = (h, Ok (link3, abc)).
Proof.
  destruct ex_c42 as (h0 & h & d & E & Eo & _). exists h0, h, d. split; [exact E|]. injection E as E. split; [subst h0; reflexivity|]. split; [exact Eo|].
  assert (Hn : h_clusters h0 = None) by (subst h0; reflexivity).
  assert (T : b_tickers (h_base h0) = abc) by (subst h0; reflexivity).
  assert (C : h_clusters h = Some link3).
  { unfold hrp_optimize in Eo. destruct (existsb _ _); [|discriminate]. destruct (hrp_inputs h0) as [[cov corr]|]; [|discriminate]. destruct (upper _ _); [discriminate|].
    cbv zeta in Eo. destruct (hrp_weights _ _ _); [|discriminate]. destruct (set_weights _ _) as [b [u|]]; [|discriminate]. injection Eo as <- _. reflexivity. }
  destruct (optimize_tickers _ _ _ _ _ Eo) as [Tk _].
  unfold plot_dendrogram. rewrite Hn, Eo, C, Tk, T. reflexivity.
Qed.

(** C97: two assets with variances 4 and 1 *)
Example ex_c97_correlation : square 2 [[4; 1]; [1; 1]] /\ all_risky 2 [[4; 1]; [1; 1]].
Proof. split; [split; [reflexivity|repeat constructor]|]. intros [|[|i]] H; cbn; [lra|lra|lia]. Qed.
Example ex_c97_deviations : asset_deviations [[4; 1]; [1; 1]] = Ok [sqrt 4; sqrt 1].
Proof. unfold asset_deviations, diagonal. cbn [List.length seq map nth mapM]. rewrite !(proj2 (Rltb_false _ _)) by lra. reflexivity. Qed.
