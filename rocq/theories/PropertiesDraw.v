(** * Theorems: plot_efficient_frontier for any object (C103) *)
From Coq Require Import ZArith List String Bool Reals.
From Verif Require Import Num Py MBase MCLA MConvex MEF MDown MCalls MPlot MPlot3 SLin SCalls SPlot SPlot3 PPlot PPlot3 PCalls2.
Import ListNotations.
Local Open Scope R_scope.

(** C103: anything but a CLA or an EfficientFrontier is refused *)
Theorem c103_other : forall fuel inv ord sv pinv name range points sa st i io w,
  plot_efficient_frontier fuel inv ord sv pinv OptOther name range points sa st i io w = (w, OptOther, Err NotImplementedError).
Proof. exact plot_other. Qed.
Print Assumptions c103_other.
(** plotly is given the same curve and markers as matplotlib, but no labels and no file *)
Theorem c103_engine : forall fuel inv ord sv pinv opt name range points sa st io io' w w' opt' d,
  plot_efficient_frontier fuel inv ord sv pinv opt name range points sa st false io w = (w', opt', Ok d) ->
  exists d', plot_efficient_frontier fuel inv ord sv pinv opt name range points sa st true io' w = (w', opt', Ok d') /\
    same_picture d d' /\ d_names d' = [] /\ d_calls d' = [].
Proof. exact plot_engine. Qed.
Print Assumptions c103_engine.
Theorem c103_engine_back : forall fuel inv ord sv pinv opt name range points sa io io' w w' opt' d,
  plot_efficient_frontier fuel inv ord sv pinv opt name range points sa false true io w = (w', opt', Ok d) ->
  exists d', plot_efficient_frontier fuel inv ord sv pinv opt name range points sa false false io' w = (w', opt', Ok d') /\ same_picture d d'.
Proof. exact plot_engine_back. Qed.
Print Assumptions c103_engine_back.
Theorem c103_saved : forall fuel inv ord sv pinv opt name range points sa st io w w' opt' d,
  plot_efficient_frontier fuel inv ord sv pinv opt name range points sa st false io w = (w', opt', Ok d) ->
  (forall f, io_filename io = Some f -> f <> ""%string -> files (d_calls d) = [(f, io_dpi io)]) /\
  (io_filename io = None \/ io_filename io = Some ""%string -> files (d_calls d) = []) /\
  (In ShowFig (d_calls d) <-> io_showfig io = true).
Proof. exact plot_saves. Qed.
Print Assumptions c103_saved.
(** the documented [filename] is ignored by interactive plots *)
Theorem c103_saved_refuted : forall fuel inv ord sv pinv opt name range points sa st io w w' opt' d,
  plot_efficient_frontier fuel inv ord sv pinv opt name range points sa st true io w = (w', opt', Ok d) -> d_calls d = [].
Proof. exact plot_interactive_unsaved. Qed.
Print Assumptions c103_saved_refuted.
Theorem c103_names : forall fuel inv ord sv pinv opt name range points io w w' opt' d,
  plot_efficient_frontier fuel inv ord sv pinv opt name range points true true false io w = (w', opt', Ok d) ->
  List.length (d_names d) = List.length (labels_of opt) /\
  forall i t, nth_error (labels_of opt) i = Some t -> exists p, nth_error (d_assets d) i = Some p /\ nth_error (d_names d) i = Some (t, p).
Proof. exact plot_names. Qed.
Print Assumptions c103_names.
Theorem c103_hidden : forall fuel inv ord sv pinv opt name range points st i io w w' opt' d,
  plot_efficient_frontier fuel inv ord sv pinv opt name range points false st i io w = (w', opt', Ok d) -> d_assets d = [] /\ d_names d = [].
Proof. exact plot_hidden. Qed.
Print Assumptions c103_hidden.
Theorem c103_assets : forall fuel inv ord sv pinv o mu name range points st i io w w' opt' d,
  plot_efficient_frontier fuel inv ord sv pinv (OptEF o) name range points true st i io w = (w', opt', Ok d) ->
  e_mu o = Some mu -> List.length mu = List.length (e_cov o) -> asset_at mu (e_cov o) (d_assets d).
Proof. exact plot_frontier_assets. Qed.
Print Assumptions c103_assets.
Theorem c103_cla_assets : forall fuel inv ord sv pinv o name range points st i io w w' opt' d,
  plot_efficient_frontier fuel inv ord sv pinv (OptCLA o) name range points true st i io w = (w', opt', Ok d) ->
  List.length (c_mean o) = List.length (c_cov o) -> asset_at (c_mean o) (c_cov o) (d_assets d).
Proof. exact plot_cla_assets. Qed.
Print Assumptions c103_cla_assets.
(** an optimizer of a downside class is accepted, but all its assets are drawn without any risk *)
Theorem c103_assets_refuted : forall fuel inv ord sv pinv k o mu name range points st i io w w' opt' d, constructed k o -> e_mu o = Some mu ->
  plot_efficient_frontier fuel inv ord sv pinv (OptDown k o) name range points true st i io w = (w', opt', Ok d) ->
  d_assets d = map (fun m => (0, m)) mu.
Proof. exact plot_constructed_assets. Qed.
Print Assumptions c103_assets_refuted.
Theorem c103_default_refuted : forall fuel inv ord sv pinv k o name points sa st i io w,
  plot_efficient_frontier fuel inv ord sv pinv (OptDown k o) name None points sa st i io w = (w, OptDown k o, Err NotImplementedError).
Proof. exact plot_downside_default. Qed.
Print Assumptions c103_default_refuted.
(** EfficientCVaR and EfficientCDaR: no frontier is ever drawn, and a parameter that works ends the plot with a ValueError *)
Theorem c103_tail_refuted : forall fuel inv ord sv pinv k o name range points sa st i io w w' opt' d, (forall s, k <> DSemi s) ->
  plot_efficient_frontier fuel inv ord sv pinv (OptDown k o) name range points sa st i io w = (w', opt', Ok d) -> d_curve d = [].
Proof. exact plot_tail_empty. Qed.
Print Assumptions c103_tail_refuted.
Theorem c103_tail_error : forall fuel inv ord sv pinv k o name v vs points sa st i io w w1 o1, (forall s, k <> DSemi s) ->
  attempt (g_methods sv k) name v w o = (w1, o1, Ok tt) ->
  plot_efficient_frontier fuel inv ord sv pinv (OptDown k o) name (Some (v :: vs)) points sa st i io w = (w1, OptDown k o1, Err ValueError).
Proof. exact plot_tail_fails. Qed.
Print Assumptions c103_tail_error.
Theorem c103_curve : forall fuel inv ord sv pinv o name vs points sa st i io w w' opt' d,
  plot_efficient_frontier fuel inv ord sv pinv (OptEF o) name (Some vs) points sa st i io w = (w', opt', Ok d) ->
  let h := history (try_once (ef_methods sv pinv) name) vs (w, o) in
  Forall (fun x => skipped x \/ kept x) h /\
  Forall2 (fun x p => exists r, ef_performance (2 / 100) (snd (v_after x)) = Ok (snd p, fst p, r)) (shown h) (d_curve d).
Proof. exact plot_curve_frontier. Qed.
Print Assumptions c103_curve.
Theorem c103_curve_semi : forall fuel inv ord sv pinv k o name vs points sa st i io w w' opt' d,
  plot_efficient_frontier fuel inv ord sv pinv (OptDown (DSemi k) o) name (Some vs) points sa st i io w = (w', opt', Ok d) ->
  let h := history (try_once (g_methods sv (DSemi k)) name) vs (w, o) in
  Forall (fun x => skipped x \/ kept x) h /\
  Forall2 (fun x p => exists m r, snd p = Some m /\ semi_performance k (snd (v_after x)) (2 / 100) = Ok (m, fst p, r)) (shown h) (d_curve d).
Proof. exact plot_curve_semi. Qed.
Print Assumptions c103_curve_semi.
(** the default range consists of returns, even if the parameter is a risk or a risk aversion *)
Theorem c103_default_range : forall fuel inv ord sv pinv o points w, (0 < points)%nat ->
  (exists w1 vs lo hi sg sr wm om d wx ox, min_volatility sv w o = (wm, om, Ok d) /\ ef_performance (2 / 100) om = Ok (Some lo, sg, sr) /\
     max_return sv wm o = (wx, ox, Ok hi) /\ List.length vs = points /\ evenly_spaced lo (hi - 1 / 10000) vs /\
     forall name sa st i io, plot_efficient_frontier fuel inv ord sv pinv (OptEF o) name None points sa st i io w =
                             plot_efficient_frontier fuel inv ord sv pinv (OptEF o) name (Some vs) points sa st i io w1) \/
  (exists w1 e, forall name sa st i io, plot_efficient_frontier fuel inv ord sv pinv (OptEF o) name None points sa st i io w = (w1, OptEF o, Err e)).
Proof. exact plot_default_range. Qed.
Print Assumptions c103_default_range.
Theorem c103_cla_ignores : forall fuel inv ord sv pinv o name name' range range' points sa st i io w,
  plot_efficient_frontier fuel inv ord sv pinv (OptCLA o) name range points sa st i io w =
  plot_efficient_frontier fuel inv ord sv pinv (OptCLA o) name' range' points sa st i io w.
Proof. exact plot_cla_ignores. Qed.
Print Assumptions c103_cla_ignores.
(** the method behind each parameter name *)
Theorem c103_parameters : forall sv pinv v w o,
  same_effect (attempt (ef_methods sv pinv) "utility" v w o) (max_quadratic_utility sv v false w o) /\
  same_effect (attempt (ef_methods sv pinv) "risk" v w o) (efficient_risk sv pinv (NFloat v) false w o) /\
  same_effect (attempt (ef_methods sv pinv) "return" v w o) (efficient_return sv (NFloat v) false w o) /\
  (forall name, name <> "utility"%string -> name <> "risk"%string -> name <> "return"%string ->
     attempt (ef_methods sv pinv) name v w o = (w, o, Err NotImplementedError)).
Proof. exact plot_parameters. Qed.
Print Assumptions c103_parameters.
Theorem c103_parameters_downside : forall sv ns k v w o,
  attempt (g_methods sv k) "utility" v w o = g_run sv ns k (GUtility v false) w o /\
  attempt (g_methods sv k) "risk" v w o = g_run sv ns k (GRisk v false) w o /\
  attempt (g_methods sv k) "return" v w o = g_run sv ns k (GReturn v false) w o /\
  (forall name, name <> "utility"%string -> name <> "risk"%string -> name <> "return"%string ->
     attempt (g_methods sv k) name v w o = (w, o, Err NotImplementedError)).
Proof. exact plot_parameters_downside. Qed.
Print Assumptions c103_parameters_downside.
(** a CLA object: the frontier as (risk, return) pairs, and a marker at the weights it holds afterwards *)
Theorem c103_cla_picture : forall fuel inv ord sv pinv o name range points sa st i io w w' opt' d,
  plot_efficient_frontier fuel inv ord sv pinv (OptCLA o) name range points sa st i io w = (w', opt', Ok d) ->
  exists o' mus sigmas fr ws, opt' = OptCLA o' /\ c_frontier o' = Some (mus, sigmas, fr) /\
    (c_frontier o = None -> snd (cla_frontier fuel inv ord points o) = Ok (mus, sigmas, fr)) /\
    d_curve d = combine sigmas (map Some mus) /\
    b_weights (c_base o') = Some ws /\ d_marker d = Some (sqrt (qform (c_cov o) ws), Some (inner ws (c_mean o))) /\
    (b_weights (c_base o) = Some ws \/
     b_weights (c_base o) = None /\ snd (cla_max_sharpe fuel inv ord o) = Ok (make_output_of (c_base o') ws)).
Proof. exact plot_cla_picture. Qed.
Print Assumptions c103_cla_picture.
