(** * Properties of the objective functions and the frontier plot (C76-C78, C88) *)
From Coq Require Import ZArith String List Bool Reals.
From Verif Require Import Num Py MBase MConvex MEF MPlot SLin SHRP SObj SPlot Sums PObj PPlot.
Import ListNotations.
Local Open Scope R_scope.

(** C76.  [as_function ps e] is the value of the objective as a function of the weights. *)
Theorem c76_variance : forall n cov ps, psd n cov -> let f := as_function ps (fun w => portfolio_variance_e w cov) in
  convex_on n f /\ nonneg_on n f.
Proof. exact variance_convex. Qed.
Print Assumptions c76_variance.
Theorem c76_l2 : forall n gamma ps, 0 <= gamma -> let f := as_function ps (fun w => L2_reg_e w gamma) in convex_on n f /\ nonneg_on n f.
Proof. exact L2_convex. Qed.
Print Assumptions c76_l2.
Theorem c76_cost : forall n prev k ps, 0 <= k -> length prev = n -> let f := as_function ps (fun w => transaction_cost_e w prev k) in
  convex_on n f /\ nonneg_on n f.
Proof. exact cost_convex. Qed.
Print Assumptions c76_cost.
Theorem c76_ex_ante : forall n cov b ps, psd n cov -> length b = n -> let f := as_function ps (fun w => ex_ante_tracking_error_e w cov b) in
  convex_on n f /\ nonneg_on n f.
Proof. exact ex_ante_convex. Qed.
Print Assumptions c76_ex_ante.
Theorem c76_ex_post : forall n hist b ps, length hist = length b -> (0 < length b)%nat -> let f := as_function ps (fun w => ex_post_tracking_error_e w hist b) in
  convex_on n f /\ nonneg_on n f.
Proof. exact ex_post_convex. Qed.
Print Assumptions c76_ex_post.
Theorem c76_utility : forall n mu cov ps p, psd n cov -> 0 <= nth p ps 0 ->
  concave_on n (as_function ps (fun w => quadratic_utility_e w mu cov p false)) /\
  convex_on n (as_function ps (fun w => quadratic_utility_e w mu cov p true)).
Proof. exact utility_concave. Qed.
Print Assumptions c76_utility.
Theorem c76_signs : forall mu cov ps p x,
  as_function ps (fun w => portfolio_return_e w mu true) x = - as_function ps (fun w => portfolio_return_e w mu false) x /\
  as_function ps (fun w => portfolio_return_e w mu false) x = inner mu x /\
  as_function ps (fun w => quadratic_utility_e w mu cov p true) x = - as_function ps (fun w => quadratic_utility_e w mu cov p false) x /\
  as_function ps (fun w => quadratic_utility_e w mu cov p false) x = inner mu x - 1 / 2 * nth p ps 0 * qform cov x.
Proof. exact signs. Qed.
Print Assumptions c76_signs.
Theorem c76_values : forall s ps we w, eval s ps we = w ->
  (forall cov, evals s ps (portfolio_variance_e we cov) = qform cov w) /\
  (forall gamma, evals s ps (L2_reg_e we gamma) = gamma * inner w w) /\
  (forall prev k, length prev = length w -> evals s ps (transaction_cost_e we prev k) = k * total (map Rabs (differences w prev))) /\
  (forall cov b, length b = length w -> evals s ps (ex_ante_tracking_error_e we cov b) = qform cov (differences w b)).
Proof. exact values. Qed.
Print Assumptions c76_values.

(** C77 *)
Theorem c77_periods_times_variance : forall hist b ps w, length hist = length b -> (0 < length b)%nat ->
  as_function ps (fun x => ex_post_tracking_error_e x hist b) w = INR (length b) * variance_of (excess_series hist b w).
Proof. exact ex_post_value_function. Qed.
Print Assumptions c77_periods_times_variance.
Theorem c77_constant_shift : forall hist b ps w c, length hist = length b -> (0 < length b)%nat ->
  as_function ps (fun x => ex_post_tracking_error_e x hist (map (fun r => r + c) b)) w = as_function ps (fun x => ex_post_tracking_error_e x hist b) w.
Proof. exact ex_post_shift. Qed.
Print Assumptions c77_constant_shift.

(** C78.  Any optimizer: the plot succeeds exactly if every parameter ends well or with
    OptimizationError or ValueError and the performance is available after those that are not skipped;
    then it shows those performances, one per parameter that is not skipped. *)
Theorem c78_points : forall (St : Type) (methods : string -> option (R -> M St unit)) performance name vs w s ps,
  let h := history (try_once methods name) vs (w, s) in
  (exists w' s', plot_loop methods performance name vs w s = (w', s', Ok ps)) <->
  Forall (fun x => skipped x \/ kept x) h /\ Forall2 (fun x p => performance (snd (v_after x)) = Ok p) (shown h) ps.
Proof. exact plot_points. Qed.
Print Assumptions c78_points.
(** EfficientFrontier: after the points [qs ++ [q]] a ValueError shows [q] again *)
Theorem c78_stale_point : forall sv pinv name vs v vs' w o w' o' ps w1 o1 w2 o2 qs q,
  plot_ef sv pinv name vs w o = (w1, o1, Ok (qs ++ [q])) ->
  attempt (ef_methods sv pinv) name v w1 o1 = (w2, o2, Err ValueError) ->
  plot_ef sv pinv name (vs ++ v :: vs') w o = (w', o', Ok ps) ->
  exists rest, ps = qs ++ [q; q] ++ rest /\ plot_ef sv pinv name vs' w2 o2 = (w', o', Ok rest).
Proof. exact plot_stale. Qed.
Print Assumptions c78_stale_point.
Theorem c78_stale_first_point : forall sv pinv name v vs w o w1 o1 w' o' ps,
  attempt (ef_methods sv pinv) name v w o = (w1, o1, Err ValueError) ->
  plot_ef sv pinv name (v :: vs) w o = (w', o', Ok ps) -> exists p rest, ef_point o = Ok p /\ ps = p :: rest.
Proof. exact plot_stale_first. Qed.
Print Assumptions c78_stale_first_point.
(** nothing solved before: the ValueError of the performance comes out of the plot *)
Theorem c78_first_failure : forall sv pinv name v vs w o w1 o1, e_weights o = None ->
  attempt (ef_methods sv pinv) name v w o = (w1, o1, Err ValueError) ->
  plot_ef sv pinv name (v :: vs) w o = (w1, o1, Err ValueError).
Proof. exact plot_first_failure. Qed.
Print Assumptions c78_first_failure.
Theorem c78_skip : forall sv pinv name vs v vs' w o w1 o1 w2 o2 qs,
  plot_ef sv pinv name vs w o = (w1, o1, Ok qs) ->
  attempt (ef_methods sv pinv) name v w1 o1 = (w2, o2, Err OptimizationError) ->
  ef_point o2 = ef_point o1 /\
  plot_ef sv pinv name (vs ++ v :: vs') w o =
    match plot_ef sv pinv name vs' w2 o2 with (w', o', Ok rest) => (w', o', Ok (qs ++ rest)) | (w', o', Err e) => (w', o', Err e) end.
Proof. exact plot_skip. Qed.
Print Assumptions c78_skip.
(** an unknown parameter name is only noticed if there is something to plot *)
Theorem c78_unknown_parameter : forall (St : Type) (methods : string -> option (R -> M St unit)) performance name vs w s, methods name = None ->
  plot_loop methods performance name vs w s = (w, s, match vs with [] => Ok [] | _ => Err NotImplementedError end).
Proof. exact plot_unknown. Qed.
Print Assumptions c78_unknown_parameter.
(** the default range leaves the object alone and runs evenly from the return of the minimum volatility
    portfolio to the greatest return less 0.0001 *)
Theorem c78_default_range : forall sv points w o w' o' vs, default_range sv points w o = (w', o', Ok vs) -> (0 < points)%nat ->
  o' = o /\ length vs = points /\
  exists w1 o1 d lo sg sr w2 o2 hi, min_volatility sv w o = (w1, o1, Ok d) /\ ef_performance (2 / 100) o1 = Ok (Some lo, sg, sr) /\
    max_return sv w1 o = (w2, o2, Ok hi) /\ evenly_spaced lo (hi - 1 / 10000) vs.
Proof. exact default_range_spec. Qed.
Print Assumptions c78_default_range.

(** C88 *)
Theorem c88_leverage : forall w mu m neg c, 0 < c -> sharpe_ratio (vscale c w) mu m 0 neg = sharpe_ratio w mu m 0 neg.
Proof. exact sharpe_leverage. Qed.
Print Assumptions c88_leverage.
Theorem c88_horizon : forall w mu m rf neg f s, 0 < f -> sharpe_ratio w mu m rf neg = Ok s ->
  sharpe_ratio w (vscale f mu) (map (vscale f) m) (f * rf) neg = Ok (sqrt f * s).
Proof. exact sharpe_horizon. Qed.
Print Assumptions c88_horizon.
Theorem c88_order : forall w1 w2 mu m rf s1 s2, sharpe_ratio w1 mu m rf false = Ok s1 -> sharpe_ratio w2 mu m rf false = Ok s2 ->
  inner w2 mu <= inner w1 mu -> qform m w1 <= qform m w2 -> rf <= inner w1 mu -> s2 <= s1.
Proof. exact sharpe_order. Qed.
Print Assumptions c88_order.
