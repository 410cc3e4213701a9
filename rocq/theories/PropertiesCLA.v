(** * Properties of the critical line algorithm (C18, C47-C55, C89-C91) *)
From Coq Require Import ZArith String List Bool Reals.
From Verif Require Import Num Py MBase MCLA SLin SBL SCLA PCLA1 PCLA2 PCLA3 PCLA4 PCLA9 PCLAF PCLAW PCLAI.
Import ListNotations.
Local Open Scope R_scope.

(** C18 for CLA: lower bounds, upper bounds and dtype as read from the three formats *)
Theorem c18_cla_formats_agree : forall (ps : list (pynum R * pynum R)), length ps <> 2%nat -> ps <> [] ->
  let n := length ps in
  let lo := map (fun p => pval (fst p)) ps in let hi := map (fun p => pval (snd p)) ps in
  let isint := forallb (fun p => is_pint (fst p)) ps in
  read_cla_bounds n (CSeq (map (fun p => [fst p; snd p]) ps)) = Ok (lo, hi, isint) /\
  read_cla_bounds n (CSeq [map fst ps; map snd ps]) = Ok (lo, hi, isint) /\
  (forall l u, Forall (fun p => p = (l, u)) ps -> read_cla_bounds n (CPair l u) = Ok (lo, hi, false)).
Proof. exact cla_formats. Qed.
Print Assumptions c18_cla_formats_agree.
Theorem c18_cla_two_assets_refuted : forall l0 l1 u0 u1 : pynum R,
  read_cla_bounds 2 (CSeq [[l0; l1]; [u0; u1]]) = Ok ([pval l0; pval u0], [pval l1; pval u1], is_pint l0 && (is_pint u0 && true)).
Proof. exact cla_formats_two. Qed.
Print Assumptions c18_cla_two_assets_refuted.

(** C47 *)
Theorem c47_start : forall fuel inv ord (o : cla R), c_int o = false -> boxes (c_n o) (c_lb o) (c_ub o) ->
  total (c_lb o) < 1 -> 1 <= total (c_ub o) ->
  exists a w rest, c_tp (fst (solve fuel inv ord o)) = mkTP w None None [a] :: rest /\ (a < c_n o)%nat /\ length w = c_n o /\
    max_return (c_mean o) (c_lb o) (c_ub o) w /\ at_bounds_except a (c_lb o) (c_ub o) w.
Proof. exact cla_start. Qed.
Print Assumptions c47_start.

(** C48 *)
Theorem c48_boundary : forall fuel inv ord (o : cla R) c, c_tp o = [] -> boxes (c_n o) (c_lb o) (c_ub o) ->
  1 <= total (c_lb o) \/ ((c_int o = false \/ Forall (fun x => 0 <= x) (c_ub o)) /\ total (c_ub o) < 1) ->
  do_call fuel inv ord c o = (o, Err IndexError).
Proof. exact cla_boundary. Qed.
Print Assumptions c48_boundary.

(** C49: [inv] and [ord] are arbitrary functions *)
Theorem c49_kept_points : forall fuel inv ord (o o' : cla R), length (c_ub o) = length (c_lb o) -> solve fuel inv ord o = (o', Ok tt) ->
  (2 <= length (c_tp o'))%nat /\ Forall (fun p => nearly_feasible tol9 (c_lb o) (c_ub o) (t_w p)) (c_tp o').
Proof. exact solve_feasible. Qed.
Print Assumptions c49_kept_points.
Theorem c49_all_calls : forall fuel inv ord cs (o : cla R), well_labelled o -> length (c_ub o) = length (c_lb o) ->
  c_tp o = [] \/ all_feasible o -> snd (ensure fuel inv ord o) = Ok tt ->
  forall r ws, In r (snd (do_calls fuel inv ord cs o)) -> r = Ok ws -> Forall (nearly_feasible tol9 (c_lb o) (c_ub o)) ws.
Proof. exact calls_feasible. Qed.
Print Assumptions c49_all_calls.

(** C50 *)
Theorem c50_stationary : forall inv ord (mean : list R) cov f wl P FB mF wB l wF g,
  sound_inverse inv -> set_order ord -> square (length mean) cov -> free_set (length mean) f -> length wl = length mean ->
  matrices inv ord mean cov f wl = Ok (P, FB, mF, wB) -> compute_w P FB mF wB l = Ok (wF, g) ->
  let w := put_all false f wF wl in
  agrees_off f w wl /\ total w = 1 /\ stationary mean cov f l g w.
Proof. exact weights_stationary. Qed.
Print Assumptions c50_stationary.
Theorem c50_lambda_reaches_bound : forall inv ord (mean : list R) cov f wl P FB mF wB j bi l b wF g,
  sound_inverse inv -> free_set (length mean) f -> length wl = length mean ->
  matrices inv ord mean cov f wl = Ok (P, FB, mF, wB) -> compute_lambda P FB mF wB j bi = Some (l, b) ->
  compute_w P FB mF wB l = Ok (wF, g) ->
  nth j wF 0 = b /\ match bi with BothBounds lo hi => b = lo \/ b = hi | OneBound b' => b = b' end.
Proof. exact lambda_hits_bound. Qed.
Print Assumptions c50_lambda_reaches_bound.

(** C51 *)
Theorem c51_purge : forall mean pts,
  match pts with
  | p :: q :: l => exists l', purge_excess mean pts = (p :: l', Ok tt) /\ pruned mean (q :: l) l' /\ descending mean l'
  | _ => purge_excess mean pts = (pts, Err IndexError)
  end.
Proof. exact purge_excess_spec. Qed.
Print Assumptions c51_purge.
Theorem c51_run : forall fuel inv ord (o o' : cla R), length (c_ub o) = length (c_lb o) -> solve fuel inv ord o = (o', Ok tt) ->
  descending (c_mean o) (tl (c_tp o')).
Proof. exact solve_descending. Qed.
Print Assumptions c51_run.

(** C52 *)
Theorem c52_least_turning_point : forall fuel inv ord (o o' : cla R) d, cla_min_volatility fuel inv ord o = (o', Ok d) ->
  exists w, b_weights (c_base o') = Some w /\ d = make_output_of (c_base o') w /\ In w (map t_w (c_tp o')) /\
    forall p, In p (c_tp o') -> qform (c_cov o') w <= qform (c_cov o') (t_w p).
Proof. exact min_vol_least. Qed.
Print Assumptions c52_least_turning_point.

(** C53: [m] is the common expected return *)
Theorem c53_equal_returns : forall fuel inv ord (o : cla R) m, set_order ord -> (2 <= c_n o)%nat -> Forall (eq m) (c_mean o) -> c_tp o = [] ->
  c_int o = false -> boxes (c_n o) (c_lb o) (c_ub o) -> total (c_lb o) < 1 -> 1 <= total (c_ub o) -> NoDup (b_tickers (c_base o)) ->
  length (b_tickers (c_base o)) = c_n o ->
  forall c, exists o' e a w, do_call (S fuel) inv ord c o = (o', Err e) /\ ((forall M, exists P, inv M = Ok P) -> e = TypeError) /\
    at_bounds_except a (c_lb o) (c_ub o) w /\ feasible (c_lb o) (c_ub o) w /\
    (forall fuel' inv' ord', snd (do_call fuel' inv' ord' CallMinVol o') = Ok [w] /\ snd (do_call fuel' inv' ord' CallSharpe o') = Err ValueError).
Proof. exact equal_returns. Qed.
Print Assumptions c53_equal_returns.

(** C54 *)
Theorem c54_frontier : forall fuel inv ord points (o o1 o' : cla R) mu sg ws n, ensure fuel inv ord o = (o1, Ok tt) ->
  Forall (fun p => length (t_w p) = n) (c_tp o1) -> (2 <= length (c_tp o1))%nat ->
  cla_frontier fuel inv ord points o = (o', Ok (mu, sg, ws)) ->
  length ws = (if (points <? length (c_tp o1))%nat then 0 else (length (c_tp o1) - 1) * (points / length (c_tp o1) - 1) + 1)%nat /\
  length mu = length ws /\ length sg = length ws /\
  mu = map (fun w => inner w (c_mean o1)) ws /\ Forall2 (fun w s => s = sqrt (qform (c_cov o1) w)) ws sg /\
  forall w, In w ws -> exists i p q, nth_error (c_tp o1) i = Some p /\ nth_error (c_tp o1) (S i) = Some q /\ on_segment w (t_w p) (t_w q).
Proof. exact frontier_spec. Qed.
Print Assumptions c54_frontier.

(** C55 *)
Theorem c55_bracket : forall obj a b x v, a <= b -> golden_section obj a b = Ok (x, v) -> a <= x <= b /\ obj x = Ok v.
Proof. exact golden_section_in. Qed.
Print Assumptions c55_bracket.
Theorem c55_terminates : forall obj a b, a <= b -> (forall x, a <= x <= b -> exists v, obj x = Ok v) ->
  exists r, golden_section obj a b = Ok r.
Proof. exact golden_section_total. Qed.
Print Assumptions c55_terminates.

(** C90 *)
Theorem c90_bound_points_dropped : forall fuel inv ord (o : cla R) f w pts r, sound_inverse inv -> set_order ord -> square (c_n o) (c_cov o) -> c_int o = false ->
  boxes (c_n o) (c_lb o) (c_ub o) -> total (c_lb o) < 1 -> 1 <= total (c_ub o) ->
  init_algo o = Ok (f, w) -> raw_points fuel inv ord o f w = (pts, r) ->
  forall p q, consecutive p q pts ->
    (length (t_f p) <= length (t_f q))%nat /\ total (t_w q) = 1 \/
    exists i, In i (t_f p) /\ ~ In i (t_f q) /\ (nth i (t_w q) 0 = nth i (c_lb o) 0 \/ nth i (t_w q) 0 = nth i (c_ub o) 0) /\
      total (t_w q) = 1 + (nth i (t_w q) 0 - nth i (t_w p) 0) /\
      (tol9 < Rabs (nth i (t_w q) 0 - nth i (t_w p) 0) -> ~ In q (purge_num_err (c_lb o) (c_ub o) tol9 pts)).
Proof. exact bound_dropped. Qed.
Print Assumptions c90_bound_points_dropped.

(** C91 *)
Theorem c91_terminates : forall fuel inv ord (o : cla R), sound_inverse inv -> complete_inverse inv -> set_order ord -> well_posed o ->
  general_position o -> (3 ^ c_n o <= fuel)%nat -> exists o', solve fuel inv ord o = (o', Ok tt).
Proof. exact solve_total. Qed.
Print Assumptions c91_terminates.
Theorem c91_kept_points_optimal : forall fuel inv ord (o o' : cla R), sound_inverse inv -> set_order ord -> well_posed o ->
  untied (c_mean o) (c_cov o) (c_lb o) (c_ub o) -> solve fuel inv ord o = (o', Ok tt) ->
  forall p, In p (c_tp o') -> total (t_w p) = 1 ->
  match t_l p with
  | None => max_return (c_mean o) (c_lb o) (c_ub o) (t_w p)
  | Some lam => 0 <= lam /\ optimal_at (c_mean o) (c_cov o) (c_lb o) (c_ub o) lam (t_w p) /\
      free_set (c_n o) (t_f p) /\ exists g, stationary (c_mean o) (c_cov o) (t_f p) lam g (t_w p)
  end.
Proof. exact kept_optimal. Qed.
Print Assumptions c91_kept_points_optimal.
Theorem c91_segments_optimal : forall fuel inv ord (o o' : cla R), sound_inverse inv -> set_order ord -> well_posed o ->
  untied (c_mean o) (c_cov o) (c_lb o) (c_ub o) -> solve fuel inv ord o = (o', Ok tt) ->
  forall p q l1 l2 t, In p (c_tp o') -> In q (c_tp o') -> t_l p = Some l1 -> t_l q = Some l2 -> total (t_w p) = 1 -> total (t_w q) = 1 ->
  incl (t_f p) (t_f q) -> agrees_off (t_f p) (t_w q) (t_w p) -> 0 <= t <= 1 ->
  optimal_at (c_mean o) (c_cov o) (c_lb o) (c_ub o) (t * l1 + (1 - t) * l2) (blend t (t_w p) (t_w q)).
Proof. exact kept_segment. Qed.
Print Assumptions c91_segments_optimal.
Theorem c91_min_volatility : forall fuel inv ord (o : cla R), sound_inverse inv -> complete_inverse inv -> set_order ord -> well_posed o -> well_labelled o ->
  general_position o -> (3 ^ c_n o <= fuel)%nat ->
  exists o' d, cla_min_volatility fuel inv ord o = (o', Ok d) /\ nearly_feasible tol9 (c_lb o) (c_ub o) (dvalues d) /\
    forall v, feasible (c_lb o) (c_ub o) v -> qform (c_cov o) (dvalues d) <= qform (c_cov o) v.
Proof. exact min_vol_total. Qed.
Print Assumptions c91_min_volatility.

(** the maximum Sharpe search also succeeds whenever the turning points were found *)
Theorem c91_max_sharpe_succeeds : forall fuel inv ord (o o1 : cla R), length (c_lb o) = c_n o -> length (c_ub o) = c_n o -> c_tp o = [] -> pos_def (c_n o) (c_cov o) ->
  solve fuel inv ord o = (o1, Ok tt) -> exists o' d, cla_max_sharpe fuel inv ord o = (o', Ok d).
Proof. exact max_sharpe_total. Qed.
Print Assumptions c91_max_sharpe_succeeds.
(** without general position the minimum can be missed: variance 11 instead of 4 *)
Theorem c91_tie_refuted : exists o, long_only_cla [7; 6; 3]%Z [[11; 4; 12]; [4; 4; 8]; [12; 8; 23]]%Z = Ok o /\ well_posed o /\ well_labelled o /\
  feasible (c_lb o) (c_ub o) [0; 1; 0] /\ qform (c_cov o) [0; 1; 0] = 4 /\ qform (c_cov o) [1; 0; 0] = 11 /\
  forall k inv, sound_inverse inv -> complete_inverse inv -> snd (do_call (10 + k) inv idord CallMinVol o) = Ok [[1; 0; 0]].
Proof. exact tie_misses_minimum. Qed.
Print Assumptions c91_tie_refuted.
(** C90: the Sharpe ratio of max_sharpe() is more than 5 percent below that of a feasible portfolio *)
Theorem c90_sharpe_suffers : exists o, long_only_cla [4; 3; 6; 1]%Z [[41; 14; 0; 20]; [14; 12; 12; 0]; [0; 12; 65; -20]; [20; 0; -20; 20]]%Z = Ok o /\ well_posed o /\ well_labelled o /\
  feasible (c_lb o) (c_ub o) stale_best /\
  forall k inv, sound_inverse inv -> complete_inverse inv ->
  exists w, snd (do_call (10 + k) inv idord CallSharpe o) = Ok [w] /\ 105 / 100 * sharpe (c_mean o) (c_cov o) w < sharpe (c_mean o) (c_cov o) stale_best.
Proof. exact dropped_point_costs. Qed.
Print Assumptions c90_sharpe_suffers.
(** C49 fails after a failed run: the next call hands out weights that sum to zero *)
Theorem c49_after_failure_refuted : exists o, long_only_cla [2; 5; 2]%Z [[3; 4; 2]; [4; 9; 4]; [2; 4; 9]]%Z = Ok o /\ well_posed o /\ well_labelled o /\
  forall k inv c, sound_inverse inv -> complete_inverse inv ->
  exists o', do_call (10 + k) inv idord c o = (o', Err TypeError) /\
    (forall fuel inv' ord, snd (do_call fuel inv' ord CallMinVol o') = Ok [[0; 0; 0]]) /\ ~ nearly_feasible tol9 (c_lb o) (c_ub o) [0; 0; 0].
Proof. exact failed_then_infeasible. Qed.
Print Assumptions c49_after_failure_refuted.
(** C53: the second call returns a portfolio with four times the smallest variance *)
Theorem c53_wrong_answer : exists o, long_only_cla [1; 1]%Z [[1; 0]; [0; 4]]%Z = Ok o /\ well_posed o /\ well_labelled o /\
  forall k inv c, sound_inverse inv -> complete_inverse inv ->
  exists o', do_call (10 + k) inv idord c o = (o', Err TypeError) /\
    (forall fuel inv' ord, snd (do_call fuel inv' ord CallMinVol o') = Ok [[0; 1]]) /\
    feasible (c_lb o) (c_ub o) [1; 0] /\ qform (c_cov o) [1; 0] < qform (c_cov o) [0; 1].
Proof. exact poisoned_min_volatility. Qed.
Print Assumptions c53_wrong_answer.

(** C89 *)
Theorem c89_start_fails : forall fuel inv ord (o : cla R) c, c_tp o = [] -> boxes (c_n o) (c_lb o) (c_ub o) ->
  c_int o = true -> Forall (fun x => x = 0) (c_lb o) -> Forall (fun x => 0 <= x < 1) (c_ub o) -> do_call fuel inv ord c o = (o, Err IndexError).
Proof. exact int_calls_fail. Qed.
Print Assumptions c89_start_fails.
Theorem c89_integer_points : forall fuel inv ord (o : cla R), c_int o = true -> Forall integral (c_lb o) -> c_tp o = [] ->
  Forall (fun p => Forall integral (t_w p)) (c_tp (fst (solve fuel inv ord o))).
Proof. exact solve_integral. Qed.
Print Assumptions c89_integer_points.
Theorem c89_min_volatility : forall mu cov b fuel inv ord (o o' : cla R) ws, cla_init mu cov b = Ok o -> c_int o = true -> boxes (c_n o) (c_lb o) (c_ub o) ->
  Forall (fun x => 0 <= x) (c_lb o) -> Forall (fun x => x <= 1) (c_ub o) -> well_labelled o -> do_call fuel inv ord CallMinVol o = (o', Ok ws) ->
  exists a, (a < c_n o)%nat /\ ws = [list_set a 1 (repeat 0 (c_n o))].
Proof. exact int_min_volatility. Qed.
Print Assumptions c89_min_volatility.
Theorem c89_misses_minimum : exists o,
  cla_init (Some (None, [2; 1])) [[1; 0]; [0; 1]] (CSeq [[PInt 0; PInt 1]; [PInt 0; PInt 1]]) = Ok o /\
  feasible (c_lb o) (c_ub o) [1 / 2; 1 / 2] /\ qform (c_cov o) [1 / 2; 1 / 2] = 1 / 2 /\ qform (c_cov o) [1; 0] = 1 /\
  forall k inv, sound_inverse inv -> complete_inverse inv -> snd (do_call (10 + k) inv idord CallMinVol o) = Ok [[1; 0]].
Proof. exact int_misses_minimum. Qed.
Print Assumptions c89_misses_minimum.
