(** * Theorems: the CLA plot, asset markers, dendrogram, covariance plot; order of the sampled frontier *)
From Coq Require Import ZArith List String Bool Reals.
From Verif Require Import Num Py MFrame MBase MCLA MConvex MEF MHRP MPlot2 SLin SCLA SPlot2 SLabels SFront PCLA1 PCLAQ PCLAW PPlot2 PPlot2W PFront.
Import ListNotations.
Local Open Scope R_scope.

(** C54: the sampled frontier starts at the first and ends at the last turning point, and returns fall along it *)
Theorem c54_ends : forall fuel inv ord points (o o1 o' : cla R) mu sg ws n p pts, ensure fuel inv ord o = (o1, Ok tt) ->
  Forall (fun p => List.length (t_w p) = n) (c_tp o1) -> c_tp o1 = p :: pts -> pts <> [] -> (2 * List.length (c_tp o1) <= points)%nat ->
  cla_frontier fuel inv ord points o = (o', Ok (mu, sg, ws)) ->
  hd_error ws = Some (t_w p) /\ exists l, ws = l ++ [t_w (last pts p)].
Proof. exact frontier_first_last. Qed.
Print Assumptions c54_ends.
Theorem c54_order : forall fuel inv ord points (o o1 o' : cla R) mu sg ws n, ensure fuel inv ord o = (o1, Ok tt) ->
  Forall (fun p => List.length (t_w p) = n) (c_tp o1) -> descending (c_mean o1) (c_tp o1) ->
  cla_frontier fuel inv ord points o = (o', Ok (mu, sg, ws)) -> nonincreasing mu.
Proof. exact frontier_order. Qed.
Print Assumptions c54_order.

(** C97: the curve is what [efficient_frontier(points)] returns on this object *)
Theorem c97_curve : forall fuel inv ord k (o o' : cla R) p, plot_cla fuel inv ord k o = (o', Ok p) ->
  exists mu sg ws, c_frontier o' = Some (mu, sg, ws) /\ p_mus p = mu /\ p_sigmas p = sg /\
    (c_frontier o = None -> snd (cla_frontier fuel inv ord k o) = Ok (mu, sg, ws)).
Proof. exact plot_curve. Qed.
Print Assumptions c97_curve.
Theorem c97_marker : forall fuel inv ord k (o o' : cla R) p, plot_cla fuel inv ord k o = (o', Ok p) ->
  exists w, b_weights (c_base o') = Some w /\ p_marker p = (sqrt (qform (c_cov o) w), Some (inner w (c_mean o))) /\
    (b_weights (c_base o) = Some w \/
     b_weights (c_base o) = None /\ snd (cla_max_sharpe fuel inv ord o) = Ok (make_output_of (c_base o') w)).
Proof. exact plot_marker. Qed.
Print Assumptions c97_marker.
(** after [min_volatility] the marker called "Max Sharpe Portfolio" is not the portfolio with the best Sharpe ratio *)
Theorem c97_marker_refuted : exists o, long_only_cla [2; 1]%Z [[4; 0]; [0; 1]]%Z = Ok o /\ well_posed o /\ well_labelled o /\
  feasible (c_lb o) (c_ub o) [1 / 3; 2 / 3] /\
  forall k inv points, sound_inverse inv -> complete_inverse inv ->
  exists o1 d o2 p s, cla_min_volatility (10 + k) inv idord o = (o1, Ok d) /\ plot_cla (10 + k) inv idord points o1 = (o2, Ok p) /\
    p_marker p = (s, Some (6 / 5)) /\ (6 / 5) / s < inner [1 / 3; 2 / 3] (c_mean o) / sqrt (qform (c_cov o) [1 / 3; 2 / 3]).
Proof. exact marker_not_best. Qed.
Print Assumptions c97_marker_refuted.
Theorem c97_keeps : forall fuel inv ord k (o o' : cla R) r, plot_cla fuel inv ord k o = (o', r) ->
  same_inputs o o' /\ (forall w, b_weights (c_base o) = Some w -> b_weights (c_base o') = Some w) /\
  (c_tp o <> [] -> c_tp o' = c_tp o) /\ (forall v, c_frontier o = Some v -> c_frontier o' = Some v).
Proof. exact plot_keeps. Qed.
Print Assumptions c97_keeps.
(** the number of points of a second plot is ignored *)
Theorem c97_second_plot : forall fuel inv ord k (o o' : cla R) p, plot_cla fuel inv ord k o = (o', Ok p) ->
  forall fuel' inv' ord' k', plot_cla fuel' inv' ord' k' o' = (o', Ok p).
Proof. exact plot_again. Qed.
Print Assumptions c97_second_plot.
Theorem c97_assets : forall fuel inv ord k (o o' : cla R) p, plot_cla fuel inv ord k o = (o', Ok p) -> List.length (c_mean o) = List.length (c_cov o) ->
  p_names p = b_tickers (c_base o) /\ List.length (p_assets p) = List.length (c_mean o) /\
  forall i, (i < List.length (c_mean o))%nat ->
    exists s, nth_error (p_assets p) i = Some (s, nth i (c_mean o) 0) /\ 0 <= s /\ s * s = nth i (nth i (c_cov o) []) 0.
Proof. exact plot_assets. Qed.
Print Assumptions c97_assets.
Theorem c97_frontier_assets : forall (o : ef) mu l, ef_assets o = Ok l -> e_mu o = Some mu -> List.length mu = List.length (e_cov o) ->
  List.length l = List.length mu /\
  forall i, (i < List.length mu)%nat -> exists s, nth_error l i = Some (s, nth i mu 0) /\ 0 <= s /\ s * s = nth i (nth i (e_cov o) []) 0.
Proof. exact ef_plot_assets. Qed.
Print Assumptions c97_frontier_assets.
Theorem c97_dendrogram : forall lk h link, h_clusters h = Some link -> List.length (b_tickers (h_base h)) = (List.length link + 1)%nat ->
  plot_dendrogram lk h = (h, Ok (link, b_tickers (h_base h))).
Proof. exact dendrogram_known. Qed.
Print Assumptions c97_dendrogram.
Theorem c97_dendrogram_optimizes : forall lk h, h_clusters h = None ->
  match hrp_optimize lk "single" h with
  | (h', Err e) => plot_dendrogram lk h = (h', Err e)
  | (h', Ok _) => fst (plot_dendrogram lk h) = h' /\
      forall x, snd (plot_dendrogram lk h) = Ok x -> h_clusters h' = Some (fst x) /\ snd x = b_tickers (h_base h)
  end.
Proof. exact dendrogram_fresh. Qed.
Print Assumptions c97_dendrogram_optimizes.
Theorem c97_dendrogram_again : forall lk h h' x, plot_dendrogram lk h = (h', Ok x) -> forall lk', plot_dendrogram lk' h' = (h', Ok x).
Proof. exact dendrogram_again. Qed.
Print Assumptions c97_dendrogram_again.
Theorem c97_covariance : forall f, plot_covariance (LFrame f) false true = Ok (f_rows f, Some (f_index f)).
Proof. exact covariance_frame. Qed.
Print Assumptions c97_covariance.
Theorem c97_correlation : forall f show n, square n (f_rows f) -> all_risky n (f_rows f) ->
  exists M, plot_covariance (LFrame f) true show = Ok (M, if show then Some (f_index f) else None) /\ correlations n (f_rows f) M.
Proof. exact correlation_frame. Qed.
Print Assumptions c97_correlation.
Theorem c97_correlation_array : forall m n, square n m -> all_risky n m ->
  exists M ts, plot_covariance (LArray m) true true = Ok (M, Some ts) /\ positions n ts /\ correlations n m M.
Proof. exact correlation_array. Qed.
Print Assumptions c97_correlation_array.
(** an array is a documented argument, but with the default arguments it is refused *)
Theorem c97_covariance_array_refuted : forall m, plot_covariance (LArray m) false true = Err AttributeError.
Proof. exact covariance_array_fails. Qed.
Print Assumptions c97_covariance_array_refuted.
