(** * The CLA plot, the dendrogram and the covariance plot *)
From Coq Require Import ZArith List String Bool Reals Lra Lia.
From Verif Require Import Num Py MFrame MBase MCLA MConvex MEF MHRP MPlot2 SLin SBL SCLA SPlot2 SLabels RBase PyLemmas PBase PCLA1 PCLA2 PCLA3 PLabels.
Import ListNotations.
Local Open Scope R_scope.

Lemma same_inputs_refl : forall o, same_inputs o o.
Proof. intros o. unfold same_inputs. auto. Qed.
Lemma same_inputs_trans : forall a b c, same_inputs a b -> same_inputs b c -> same_inputs a c.
Proof. unfold same_inputs. intros a b c H K. intuition congruence. Qed.

Lemma solve_frame : forall fuel inv ord (o o' : cla R) r, solve fuel inv ord o = (o', r) -> exists tp, o' = set_tp tp o.
Proof.
  intros fuel inv ord o o' r E. unfold solve in E. destruct (init_algo o) as [[f w]|e].
  - destruct (loop _ _ _ _ _ _ _ _ _ _ _ _) as [pts [u|e]].
    + destruct (purge_excess _ _) as [p q]. injection E as <- _. eexists. reflexivity.
    + injection E as <- _. eexists. reflexivity.
  - injection E as <- _. exists (c_tp o). destruct o. reflexivity.
Qed.
Lemma ensure_frame : forall fuel inv ord (o o' : cla R) r, ensure fuel inv ord o = (o', r) ->
  (exists tp, o' = set_tp tp o) /\ (c_tp o <> [] -> o' = o).
Proof.
  intros fuel inv ord o o' r E. destruct (c_tp o) eqn:Et.
  - unfold ensure in E. rewrite Et in E. split; [apply (solve_frame _ _ _ _ _ _ E)|congruence].
  - rewrite ensure_ready in E by congruence. injection E as <- _. split; [exists (c_tp o); destruct o; reflexivity|reflexivity].
Qed.

Lemma max_sharpe_frame : forall fuel inv ord (o o' : cla R) r, cla_max_sharpe fuel inv ord o = (o', r) ->
  exists o1 r1, ensure fuel inv ord o = (o1, r1) /\
    match r with
    | Ok d => exists w, r1 = Ok tt /\ c_tp o1 <> [] /\ o' = set_cweights w o1 /\ d = make_output_of (c_base o') w
    | Err _ => o' = o1
    end.
Proof.
  intros fuel inv ord o o' r E. unfold cla_max_sharpe in E. destruct (ensure fuel inv ord o) as [o1 [u|e]] eqn:Ee; exists o1.
  - exists (Ok u). split; [reflexivity|]. destruct u.
    destruct (rbind _ _) as [x|e] eqn:Ex in E; [|injection E as <- <-; reflexivity].
    injection E as <- <-. cbn [make_output_weights set_cweights c_base b_weights].
    exists (fst x). split; [reflexivity|]. split; [|split; reflexivity].
    intros Ht. rewrite Ht in Ex. cbn in Ex. discriminate.
  - exists (Err e). split; [reflexivity|]. injection E as <- <-. reflexivity.
Qed.
Lemma frontier_frame : forall fuel inv ord k (o o' : cla R) r, cla_frontier fuel inv ord k o = (o', r) ->
  exists o1 r1, ensure fuel inv ord o = (o1, r1) /\
    match r with
    | Ok x => o' = set_frontier x o1 /\ r1 = Ok tt
    | Err _ => o' = o1
    end.
Proof.
  intros fuel inv ord k o o' r E. unfold cla_frontier in E. destruct (ensure fuel inv ord o) as [o1 [u|e]] eqn:Ee; exists o1.
  - exists (Ok u). split; [reflexivity|]. destruct u. destruct (c_tp o1) eqn:Et; [injection E as <- <-; reflexivity|].
    destruct (mapM _ _) as [sg|e]; injection E as <- <-; auto.
  - exists (Err e). split; [reflexivity|]. injection E as <- <-. reflexivity.
Qed.
Lemma ensure_frame_inputs : forall fuel inv ord (o o' : cla R) r, ensure fuel inv ord o = (o', r) ->
  same_inputs o o' /\ b_weights (c_base o') = b_weights (c_base o) /\ (c_tp o <> [] -> c_tp o' = c_tp o) /\ c_frontier o' = c_frontier o.
Proof.
  intros fuel inv ord o o' r E. destruct (ensure_frame _ _ _ _ _ _ E) as [[tp ->] H]. split; [|split; [reflexivity|split; [|reflexivity]]].
  - unfold same_inputs. cbn. auto.
  - intros Hn. rewrite (H Hn). reflexivity.
Qed.

(** ** The plot changes nothing that is there *)
Lemma marker_keeps : forall fuel inv ord (o o' : cla R) r, marker_weights fuel inv ord o = (o', r) ->
  same_inputs o o' /\ (forall w, b_weights (c_base o) = Some w -> o' = o /\ r = Ok tt) /\
  (c_tp o <> [] -> c_tp o' = c_tp o) /\ c_frontier o' = c_frontier o.
Proof.
  intros fuel inv ord o o' r E. unfold marker_weights in E. destruct (b_weights (c_base o)) as [w0|] eqn:Ew.
  - injection E as <- <-. split; [apply same_inputs_refl|]. split; [auto|]. split; reflexivity.
  - assert (exists q, cla_max_sharpe fuel inv ord o = (o', q)) as [q Eq].
    { destruct (cla_max_sharpe fuel inv ord o) as [o1 [d|e]]; injection E as <- _; eexists; reflexivity. }
    destruct (max_sharpe_frame _ _ _ _ _ _ Eq) as (o1 & r1 & Ee & Hq). destruct (ensure_frame_inputs _ _ _ _ _ _ Ee) as (H1 & H2 & H3 & H4).
    split; [|split; [discriminate|]].
    + destruct q as [d|e]; [destruct Hq as (w & _ & _ & -> & _)|subst o']; exact H1.
    + destruct q as [d|e]; [destruct Hq as (w & _ & _ & -> & _)|subst o']; split; assumption.
Qed.
Lemma curve_keeps : forall fuel inv ord k (o o' : cla R) r, curve_values fuel inv ord k o = (o', r) ->
  same_inputs o o' /\ b_weights (c_base o') = b_weights (c_base o) /\ (c_tp o <> [] -> c_tp o' = c_tp o) /\
  (forall v, c_frontier o = Some v -> o' = o /\ r = Ok v) /\ (forall v, r = Ok v -> c_frontier o' = Some v).
Proof.
  intros fuel inv ord k o o' r E. unfold curve_values in E. destruct (c_frontier o) as [v|] eqn:Ef.
  - injection E as <- <-. split; [apply same_inputs_refl|]. repeat split; auto; congruence.
  - destruct (frontier_frame _ _ _ _ _ _ _ E) as (o1 & r1 & Ee & Hq). destruct (ensure_frame_inputs _ _ _ _ _ _ Ee) as (H1 & H2 & H3 & H4).
    destruct r as [x|e]; [destruct Hq as [-> _]|subst o']; (split; [exact H1|]; split; [exact H2|]; split; [exact H3|]; split; [discriminate|]).
    + intros v Ev. injection Ev as <-. reflexivity.
    + discriminate.
Qed.
Theorem plot_keeps : forall fuel inv ord k (o o' : cla R) r, plot_cla fuel inv ord k o = (o', r) ->
  same_inputs o o' /\ (forall w, b_weights (c_base o) = Some w -> b_weights (c_base o') = Some w) /\
  (c_tp o <> [] -> c_tp o' = c_tp o) /\ (forall v, c_frontier o = Some v -> c_frontier o' = Some v).
Proof.
  intros fuel inv ord k o o' r E. unfold plot_cla in E. destruct (marker_weights fuel inv ord o) as [o1 r1] eqn:Em.
  destruct (marker_keeps _ _ _ _ _ _ Em) as (A1 & A2 & A3 & A4).
  assert (A : same_inputs o o1 /\ (forall w, b_weights (c_base o) = Some w -> b_weights (c_base o1) = Some w) /\
    (c_tp o <> [] -> c_tp o1 = c_tp o) /\ (forall v, c_frontier o = Some v -> c_frontier o1 = Some v)).
  { split; [exact A1|]. split; [|split; [exact A3|congruence]]. intros w Hw. destruct (A2 w Hw) as [-> _]. exact Hw. }
  destruct r1 as [u|e]; [|injection E as <- _; exact A]. destruct (cla_performance 0 o1) as [[[mu sg] sh]|e]; [|injection E as <- _; exact A].
  destruct (curve_values fuel inv ord k o1) as [o2 r2] eqn:Ec. destruct (curve_keeps _ _ _ _ _ _ _ Ec) as (B1 & B2 & B3 & B4 & B5).
  assert (o' = o2) as -> by (destruct r2 as [[[? ?] ?]|]; injection E as <- _; reflexivity).
  destruct A as (C1 & C2 & C3 & C4). split; [apply (same_inputs_trans _ _ _ C1 B1)|]. split; [intros w Hw; rewrite B2; auto|]. split.
  - intros Hn. rewrite B3; [auto|]. rewrite C3; assumption.
  - intros v Hv. destruct (B4 v (C4 v Hv)) as [-> _]. auto.
Qed.

(** ** The curve *)
Lemma frontier_after : forall fuel inv ord k (o o1 : cla R) w, ensure fuel inv ord o = (o1, Ok tt) -> c_tp o1 <> [] ->
  snd (cla_frontier fuel inv ord k (set_cweights w o1)) = snd (cla_frontier fuel inv ord k o).
Proof.
  intros fuel inv ord k o o1 w Ee Ht. unfold cla_frontier. rewrite Ee, (ensure_ready _ _ _ (set_cweights w o1) Ht). cbn [set_cweights c_tp c_cov c_mean].
  destruct (c_tp o1); [congruence|]. destruct (mapM _ _); reflexivity.
Qed.
Theorem plot_curve : forall fuel inv ord k (o o' : cla R) p, plot_cla fuel inv ord k o = (o', Ok p) ->
  exists mu sg ws, c_frontier o' = Some (mu, sg, ws) /\ p_mus p = mu /\ p_sigmas p = sg /\
    (c_frontier o = None -> snd (cla_frontier fuel inv ord k o) = Ok (mu, sg, ws)).
Proof.
  intros fuel inv ord k o o' p E. unfold plot_cla in E. destruct (marker_weights fuel inv ord o) as [o1 [u|e]] eqn:Em; [|discriminate].
  destruct (cla_performance 0 o1) as [[[mu sg] sh]|e]; [|discriminate].
  destruct (curve_values fuel inv ord k o1) as [o2 [[[mus sigmas] ws]|e]] eqn:Ec; [|discriminate].
  destruct (asset_deviations (c_cov o2)); [|discriminate]. injection E as <- <-. cbn [p_mus p_sigmas].
  exists mus, sigmas, ws. destruct (curve_keeps _ _ _ _ _ _ _ Ec) as (_ & _ & _ & B4 & B5). split; [auto|]. split; [reflexivity|]. split; [reflexivity|].
  intros Hn. destruct (marker_keeps _ _ _ _ _ _ Em) as (_ & _ & _ & A4). unfold curve_values in Ec. rewrite A4, Hn in Ec.
  assert (S : snd (cla_frontier fuel inv ord k o1) = Ok (mus, sigmas, ws)) by (rewrite Ec; reflexivity). rewrite <- S.
  unfold marker_weights in Em. destruct (b_weights (c_base o)); [injection Em as <-; reflexivity|].
  destruct (cla_max_sharpe fuel inv ord o) as [o3 [d|e]] eqn:Es; [|discriminate]. injection Em as <- _.
  destruct (max_sharpe_frame _ _ _ _ _ _ Es) as (o4 & r4 & Ee & (w & -> & Ht & -> & _)). symmetry. apply frontier_after; assumption.
Qed.

(** ** The marker *)
Lemma perf_triple : forall w mu cov r s sh, portfolio_performance (WtArray w) (MuArray mu) (CovArray cov) 0 = Ok (r, s, sh) ->
  r = Some (inner w mu) /\ s = sqrt (qform cov w).
Proof.
  intros w mu cov r s sh H. unfold portfolio_performance in H. cbn [rbind] in H.
  destruct (portfolio_variance w (cov_values (CovArray cov))) as [v|e] eqn:Ev; [|discriminate]. cbn [rbind] in H.
  destruct (Rltb v 0); [discriminate|]. cbn [mu_values] in H. unfold portfolio_return in H.
  destruct (Nat.eqb _ _); [|discriminate]. cbn [rbind] in H.
  destruct (sharpe_ratio _ _ _ _ _); [|discriminate]. cbn [rbind] in H. injection H as <- <- _.
  split; [rewrite dot_inner; f_equal; ring|]. f_equal.
  unfold portfolio_variance in Ev. cbn [cov_values] in Ev. repeat match type of Ev with context[if ?b then _ else _] => destruct b end; try discriminate.
  injection Ev as <-. apply quad_qform.
Qed.
Theorem plot_marker : forall fuel inv ord k (o o' : cla R) p, plot_cla fuel inv ord k o = (o', Ok p) ->
  exists w, b_weights (c_base o') = Some w /\ p_marker p = (sqrt (qform (c_cov o) w), Some (inner w (c_mean o))) /\
    (b_weights (c_base o) = Some w \/
     b_weights (c_base o) = None /\ snd (cla_max_sharpe fuel inv ord o) = Ok (make_output_of (c_base o') w)).
Proof.
  intros fuel inv ord k o o' p E. pose proof E as E0. unfold plot_cla in E. destruct (marker_weights fuel inv ord o) as [o1 [u|e]] eqn:Em; [|discriminate].
  destruct (cla_performance 0 o1) as [[[mu sg] sh]|e] eqn:Ep; [|discriminate].
  destruct (curve_values fuel inv ord k o1) as [o2 [[[mus sigmas] ws]|e]] eqn:Ec; [|discriminate].
  destruct (asset_deviations (c_cov o2)); [|discriminate]. injection E as <- <-. cbn [p_marker].
  destruct (curve_keeps _ _ _ _ _ _ _ Ec) as ((B1 & B2 & B3 & B4 & B5) & Bw & _). destruct (marker_keeps _ _ _ _ _ _ Em) as ((A1 & A2 & A3 & A4 & A5) & _).
  unfold cla_performance in Ep. destruct (b_weights (c_base o1)) as [w|] eqn:Ew; [|discriminate].
  exists w. split; [congruence|]. apply perf_triple in Ep. destruct Ep as [-> ->]. rewrite A1, A2. split; [reflexivity|].
  unfold marker_weights in Em. destruct (b_weights (c_base o)) as [w0|] eqn:E1; [left; injection Em as ->; congruence|]. right. split; [reflexivity|].
  destruct (cla_max_sharpe fuel inv ord o) as [o3 [d|e]] eqn:Es; [|discriminate]. injection Em as <- _. cbn [snd].
  destruct (max_sharpe_frame _ _ _ _ _ _ Es) as (o4 & r4 & Ee & (w' & -> & Ht & E3 & ->)). f_equal.
  rewrite E3 in Ew. cbn in Ew. injection Ew as ->. unfold make_output_of. rewrite B5. reflexivity.
Qed.

(** ** A second plot shows the same, whatever number of points is asked for *)
Theorem plot_again : forall fuel inv ord k (o o' : cla R) p, plot_cla fuel inv ord k o = (o', Ok p) ->
  forall fuel' inv' ord' k', plot_cla fuel' inv' ord' k' o' = (o', Ok p).
Proof.
  intros fuel inv ord k o o' p E fuel' inv' ord' k'. pose proof E as E0. unfold plot_cla in E. destruct (marker_weights fuel inv ord o) as [o1 [u|e]] eqn:Em; [|discriminate].
  destruct (cla_performance 0 o1) as [[[mu sg] sh]|e] eqn:Ep; [|discriminate].
  destruct (curve_values fuel inv ord k o1) as [o2 [[[mus sigmas] ws]|e]] eqn:Ec; [|discriminate].
  destruct (asset_deviations (c_cov o2)) as [sd|e] eqn:Ea; [|discriminate]. injection E as <- <-.
  destruct (curve_keeps _ _ _ _ _ _ _ Ec) as ((B1 & B2 & B3 & B4 & B5) & Bw & _ & _ & Bf). specialize (Bf _ eq_refl).
  assert (Ep2 : cla_performance 0 o2 = cla_performance 0 o1) by (unfold cla_performance; rewrite Bw, B1, B2; reflexivity).
  unfold plot_cla, marker_weights. rewrite Bw. destruct (b_weights (c_base o1)) as [w|] eqn:Ew; [|unfold cla_performance in Ep; rewrite Ew in Ep; discriminate].
  rewrite Ep2, Ep. unfold curve_values. rewrite Bf, Ea. reflexivity.
Qed.

(** ** Asset markers *)
Lemma mapM_nth : forall {X Y} (f : X -> res Y) l l' i x, mapM f l = Ok l' -> nth_error l i = Some x -> exists y, nth_error l' i = Some y /\ f x = Ok y.
Proof.
  intros X Y f. induction l as [|a l IH]; intros l' i x E H; [destruct i; discriminate|]. cbn [mapM] in E.
  destruct (f a) as [b|] eqn:Ef; [|discriminate]. cbn [rbind] in E. destruct (mapM f l) as [m|] eqn:Em; [|discriminate]. cbn [rbind] in E. injection E as <-.
  destruct i as [|i]; cbn in H |- *; [injection H as ->; eauto|]. eapply IH; eauto.
Qed.
Lemma mapM_len : forall {X Y} (f : X -> res Y) l l', mapM f l = Ok l' -> List.length l' = List.length l.
Proof.
  intros X Y f. induction l as [|a l IH]; intros l' E; cbn [mapM] in E; [injection E as <-; reflexivity|].
  destruct (f a) as [b|] eqn:Ef; [|discriminate]. cbn [rbind] in E. destruct (mapM f l) as [m|] eqn:Em; [|discriminate]. cbn [rbind] in E. injection E as <-.
  cbn. f_equal. auto.
Qed.
Lemma diagonal_nth : forall M i, (i < List.length M)%nat -> nth_error (diagonal M) i = Some (nth i (nth i M []) 0).
Proof.
  intros M i H. unfold diagonal. rewrite nth_error_map, (nth_error_nth' _ 0%nat) by (rewrite seq_length; exact H). cbn [option_map]. rewrite seq_nth by exact H. reflexivity.
Qed.
Lemma deviations_spec : forall cov mean l, asset_deviations cov = Ok l -> List.length mean = List.length cov ->
  List.length (combine l mean) = List.length mean /\
  forall i, (i < List.length mean)%nat -> exists s, nth_error (combine l mean) i = Some (s, nth i mean 0) /\ 0 <= s /\ s * s = nth i (nth i cov []) 0.
Proof.
  intros cov mean l E H. pose proof (mapM_len _ _ _ E) as L. unfold diagonal in L. rewrite map_length, seq_length in L. split.
  - rewrite combine_length. lia.
  - intros i Hi. unfold asset_deviations in E. destruct (mapM_nth _ _ _ i _ E (diagonal_nth cov i ltac:(lia))) as [y [Hy Ey]].
    destruct (Rltb _ 0) eqn:Er in Ey; [discriminate|]. injection Ey as <-. apply Rltb_false in Er.
    eexists. split; [|split; [apply sqrt_pos|apply sqrt_sqrt; lra]].
    rewrite (nth_error_nth' (combine l mean) (0, 0)) by (rewrite combine_length; lia). f_equal. rewrite combine_nth by lia. f_equal.
    apply nth_error_nth. exact Hy.
Qed.
Theorem plot_assets : forall fuel inv ord k (o o' : cla R) p, plot_cla fuel inv ord k o = (o', Ok p) -> List.length (c_mean o) = List.length (c_cov o) ->
  p_names p = b_tickers (c_base o) /\ List.length (p_assets p) = List.length (c_mean o) /\
  forall i, (i < List.length (c_mean o))%nat ->
    exists s, nth_error (p_assets p) i = Some (s, nth i (c_mean o) 0) /\ 0 <= s /\ s * s = nth i (nth i (c_cov o) []) 0.
Proof.
  intros fuel inv ord k o o' p E H. pose proof (plot_keeps _ _ _ _ _ _ _ E) as ((K1 & K2 & K3 & K4 & K5) & _).
  unfold plot_cla in E. destruct (marker_weights fuel inv ord o) as [o1 [u|e]] eqn:Em; [|discriminate].
  destruct (cla_performance 0 o1) as [[[mu sg] sh]|e] eqn:Ep; [|discriminate].
  destruct (curve_values fuel inv ord k o1) as [o2 [[[mus sigmas] ws]|e]] eqn:Ec; [|discriminate].
  destruct (asset_deviations (c_cov o2)) as [sd|e] eqn:Ea; [|discriminate]. injection E as <- <-. cbn [p_assets p_names]. split; [exact K5|].
  rewrite K2 in Ea. rewrite K1. apply deviations_spec; assumption.
Qed.
Theorem ef_plot_assets : forall (o : ef) mu l, ef_assets o = Ok l -> e_mu o = Some mu -> List.length mu = List.length (e_cov o) ->
  List.length l = List.length mu /\
  forall i, (i < List.length mu)%nat -> exists s, nth_error l i = Some (s, nth i mu 0) /\ 0 <= s /\ s * s = nth i (nth i (e_cov o) []) 0.
Proof.
  intros o mu l E Em H. unfold ef_assets in E. destruct (asset_deviations (e_cov o)) as [sd|] eqn:Ea; [|discriminate]. cbn [rbind] in E. rewrite Em in E. injection E as <-.
  apply deviations_spec; assumption.
Qed.

(** ** Dendrogram *)
Theorem dendrogram_known : forall lk h link, h_clusters h = Some link -> List.length (b_tickers (h_base h)) = (List.length link + 1)%nat ->
  plot_dendrogram lk h = (h, Ok (link, b_tickers (h_base h))).
Proof. intros lk h link E L. unfold plot_dendrogram. rewrite E. cbv iota. rewrite E, L, Nat.eqb_refl. reflexivity. Qed.
Lemma optimize_tickers : forall lk m h h' d, hrp_optimize lk m h = (h', Ok d) -> b_tickers (h_base h') = b_tickers (h_base h) /\ h_clusters h' <> None.
Proof.
  intros lk m h h' d E. unfold hrp_optimize in E. destruct (existsb _ _); [|discriminate]. destruct (hrp_inputs h) as [[cov corr]|]; [|discriminate].
  destruct (upper 0 _); [discriminate|]. cbv zeta in E. destruct (hrp_weights _ _ _); [|discriminate].
  destruct (set_weights _ _) as [b [u|e]] eqn:Es; [|discriminate]. injection E as <- _. cbn [h_base h_clusters]. split; [|discriminate].
  cbn [h_base] in Es. unfold set_weights in Es. destruct (mapM _ _); injection Es as <-; [reflexivity|discriminate].
Qed.
Theorem dendrogram_fresh : forall lk h, h_clusters h = None ->
  match hrp_optimize lk "single" h with
  | (h', Err e) => plot_dendrogram lk h = (h', Err e)
  | (h', Ok _) => fst (plot_dendrogram lk h) = h' /\
      forall x, snd (plot_dendrogram lk h) = Ok x -> h_clusters h' = Some (fst x) /\ snd x = b_tickers (h_base h)
  end.
Proof.
  intros lk h E. unfold plot_dendrogram. rewrite E. destruct (hrp_optimize lk "single" h) as [h' [d|e]] eqn:Eo; [|reflexivity].
  destruct (optimize_tickers _ _ _ _ _ Eo) as [T C]. destruct (h_clusters h') as [link|] eqn:Ec; [|congruence].
  destruct (Nat.eqb _ _); cbn [fst snd]; (split; [reflexivity|]); [|discriminate]. intros x Ex. injection Ex as <-. cbn. auto.
Qed.
Theorem dendrogram_again : forall lk h h' x, plot_dendrogram lk h = (h', Ok x) -> forall lk', plot_dendrogram lk' h' = (h', Ok x).
Proof.
  intros lk h h' x E lk'. assert (C : exists link, h_clusters h' = Some link /\ Nat.eqb (List.length (b_tickers (h_base h'))) (List.length link + 1) = true /\ x = (link, b_tickers (h_base h'))).
  { unfold plot_dendrogram in E. destruct (h_clusters h) as [l0|] eqn:E0.
    - cbv iota in E. rewrite E0 in E. destruct (Nat.eqb _ _) eqn:En; [|discriminate]. injection E as <- <-. eauto.
    - destruct (hrp_optimize lk "single" h) as [h1 [d|e]]; [|discriminate]. destruct (h_clusters h1) as [link|] eqn:Ec; [|discriminate].
      destruct (Nat.eqb _ _) eqn:En; [|discriminate]. injection E as <- <-. eauto. }
  destruct C as (link & C & En & ->). apply dendrogram_known; [exact C|]. apply Nat.eqb_eq, En.
Qed.

(** ** Covariance plot *)
Theorem covariance_array_fails : forall m, plot_covariance (LArray m) false true = Err AttributeError.
Proof. reflexivity. Qed.
Theorem covariance_frame : forall f, plot_covariance (LFrame f) false true = Ok (f_rows f, Some (f_index f)).
Proof. reflexivity. Qed.

Lemma map2_nth : forall {X Y Z} (f : X -> Y -> Z) l m i x y, nth_error l i = Some x -> nth_error m i = Some y -> nth_error (map2 f l m) i = Some (f x y).
Proof.
  intros X Y Z f. induction l as [|a l IH]; intros m i x y H K; [destruct i; discriminate|]. destruct m as [|b m]; [destruct i; discriminate|].
  destruct i as [|i]; cbn in *; [congruence|]. apply IH; assumption.
Qed.
Theorem covariance_correlation : forall c show, let n := List.length (f_rows (as_frame c)) in square n (f_rows (as_frame c)) ->
  (forall i, (i < n)%nat -> 0 < nth i (nth i (f_rows (as_frame c)) []) 0) ->
  exists M, plot_covariance c true show = Ok (M, if show then Some (f_index (as_frame c)) else None) /\
    forall i j, (i < n)%nat -> (j < n)%nat -> 
      nth j (nth i M []) 0 * sqrt (nth i (nth i (f_rows (as_frame c)) []) 0) * sqrt (nth j (nth j (f_rows (as_frame c)) []) 0) = nth j (nth i (f_rows (as_frame c)) []) 0.
Proof.
  intros c show n [Hl Hr] Hp. unfold plot_covariance, cov_to_corr. set (F := as_frame c) in *.
  replace (forallb _ (f_rows F)) with true; [|symmetry; apply forallb_forall; intros r H; rewrite Forall_forall in Hr; apply Nat.eqb_eq; apply Hr; exact H].
  replace (forallb _ (diagonal (f_rows F))) with true; [|symmetry; apply forallb_forall; intros r H; apply In_nth_error in H; destruct H as [i H];
    assert (Hi : (i < n)%nat) by (rewrite <- (seq_length n 0), <- (map_length (fun i => nth i (nth i (f_rows F) []) 0)); apply nth_error_Some; fold n in H; unfold diagonal in H; congruence);
    rewrite diagonal_nth in H by exact Hi; injection H as <-; apply Rltb_true, Hp, Hi].
  cbn [rbind f_rows f_index]. eexists. split; [destruct show; reflexivity|].
  intros i j Hi Hj. set (dinv := map (fun x => 1 / sqrt x) (diagonal (f_rows F))).
  assert (D : forall k, (k < n)%nat -> nth_error dinv k = Some (1 / sqrt (nth k (nth k (f_rows F) []) 0))).
  { intros k Hk. unfold dinv. rewrite nth_error_map, diagonal_nth by exact Hk. reflexivity. }
  assert (R1 : nth_error (f_rows F) i = Some (nth i (f_rows F) [])) by (apply nth_error_nth'; exact Hi).
  assert (R2 : nth_error (nth i (f_rows F) []) j = Some (nth j (nth i (f_rows F) []) 0)).
  { apply nth_error_nth'. rewrite Forall_forall in Hr. rewrite Hr; [exact Hj|]. apply nth_In. exact Hi. }
  rewrite (nth_error_nth _ _ _ (map2_nth _ dinv (f_rows F) i _ _ (D i Hi) R1)).
  rewrite (nth_error_nth _ _ _ (map2_nth _ dinv _ j _ _ (D j Hj) R2)).
  pose proof (sqrt_lt_R0 _ (Hp i Hi)). pose proof (sqrt_lt_R0 _ (Hp j Hj)). field. lra.
Qed.

Theorem correlation_frame : forall f show n, square n (f_rows f) -> all_risky n (f_rows f) ->
  exists M, plot_covariance (LFrame f) true show = Ok (M, if show then Some (f_index f) else None) /\ correlations n (f_rows f) M.
Proof. intros f show n [Hl Hr] Hp. subst n. exact (covariance_correlation (LFrame f) show (conj eq_refl Hr) Hp). Qed.
Theorem correlation_array : forall m n, square n m -> all_risky n m ->
  exists M ts, plot_covariance (LArray m) true true = Ok (M, Some ts) /\ positions n ts /\ correlations n m M.
Proof.
  intros m n [Hl Hr] Hp. subst n. destruct (covariance_correlation (LArray m) true (conj eq_refl Hr) Hp) as [M [E H]].
  exists M, (range_labels (List.length m)). split; [exact E|]. split; [apply range_positions|exact H].
Qed.
