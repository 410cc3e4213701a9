(** * Properties C109 and C110: CLA.max_sharpe and the figures CLA reports *)
From Coq Require Import List Reals.
From Verif Require Import Num Py MBase MCLA SLin SBL SCLA SGold PGold PGold3 PGold4 PGold5.
Import ListNotations.
Local Open Scope R_scope.

(** C109: the line search, for any function with a single peak *)
Theorem c109_line_search : forall obj h x v, (forall t, 0 <= t <= 1 -> obj t = Ok (h t)) -> peaked 0 1 h ->
  golden_section obj 0 1 = Ok (x, v) -> v = h x /\ best_within acc8 0 1 h x.
Proof. exact golden_best. Qed.
Print Assumptions c109_line_search.
(** whatever turning points the object holds *)
Theorem c109_best_segment : forall n fuel inv ord (o o' : cla R) d, cla_max_sharpe fuel inv ord o = (o', Ok d) ->
  pos_def n (c_cov o') -> symmetric n (c_cov o') -> Forall (fun p => length (t_w p) = n /\ 1 / 2 <= total (t_w p)) (c_tp o') ->
  (forall p q, consecutive p q (c_tp o') -> rising (c_mean o') (c_cov o') (t_w p) (t_w q)) ->
  exists w, b_weights (c_base o') = Some w /\ d = make_output_of (c_base o') w /\
    (exists p q t, consecutive p q (c_tp o') /\ 0 <= t <= 1 /\ w = blend t (t_w p) (t_w q) /\
       best_within acc8 0 1 (fun t => ratio (c_mean o') (c_cov o') (blend t (t_w p) (t_w q))) t) /\
    forall p q, consecutive p q (c_tp o') -> exists t, 0 <= t <= 1 /\ ratio (c_mean o') (c_cov o') (blend t (t_w p) (t_w q)) <= ratio (c_mean o') (c_cov o') w /\
      best_within acc8 0 1 (fun t => ratio (c_mean o') (c_cov o') (blend t (t_w p) (t_w q))) t.
Proof. exact max_sharpe_best. Qed.
Print Assumptions c109_best_segment.
(** on a well posed problem the segments need no further condition *)
Theorem c109_well_posed : forall fuel inv ord (o o' : cla R) d, sound_inverse inv -> set_order ord -> well_posed o -> well_labelled o ->
  untied (c_mean o) (c_cov o) (c_lb o) (c_ub o) -> cla_max_sharpe fuel inv ord o = (o', Ok d) -> Forall (fun p => total (t_w p) = 1) (c_tp o') ->
  feasible (c_lb o) (c_ub o) (dvalues d) /\
  forall p q, consecutive p q (c_tp o') -> exists t, 0 <= t <= 1 /\ ratio (c_mean o) (c_cov o) (blend t (t_w p) (t_w q)) <= ratio (c_mean o) (c_cov o) (dvalues d) /\
    best_within acc8 0 1 (fun t => ratio (c_mean o) (c_cov o) (blend t (t_w p) (t_w q))) t.
Proof. exact max_sharpe_segments. Qed.
Print Assumptions c109_well_posed.
(** and when no turning point was discarded the result competes with all portfolios *)
Theorem c109_all_portfolios : forall fuel inv ord (o o' : cla R) d, sound_inverse inv -> set_order ord -> well_posed o -> well_labelled o ->
  untied (c_mean o) (c_cov o) (c_lb o) (c_ub o) -> untied_end (c_mean o) (c_cov o) (c_lb o) (c_ub o) ->
  cla_max_sharpe fuel inv ord o = (o', Ok d) -> Forall (fun p => total (t_w p) = 1) (c_tp o') -> unbroken (c_tp o') ->
  (exists u, feasible (c_lb o) (c_ub o) u /\ 0 <= inner u (c_mean o)) ->
  feasible (c_lb o) (c_ub o) (dvalues d) /\
  forall v, feasible (c_lb o) (c_ub o) v -> exists u u', feasible (c_lb o) (c_ub o) u /\ feasible (c_lb o) (c_ub o) u' /\
    ratio (c_mean o) (c_cov o) v <= ratio (c_mean o) (c_cov o) u /\ nearly_same (c_lb o) (c_ub o) u u' /\
    ratio (c_mean o) (c_cov o) u' <= ratio (c_mean o) (c_cov o) (dvalues d).
Proof. exact max_sharpe_all. Qed.
Print Assumptions c109_all_portfolios.

(** C110 *)
Theorem c110_performance : forall fuel inv ord c (o o' : cla R) w rf, do_call fuel inv ord c o = (o', Ok [w]) -> c = CallMinVol \/ c = CallSharpe ->
  well_labelled o -> length (c_lb o) = c_n o -> length (c_ub o) = c_n o -> c_tp o = [] \/ all_feasible o -> pos_def (c_n o) (c_cov o) ->
  0 < qform (c_cov o) w /\
  cla_performance rf o' = Ok (Some (inner w (c_mean o)), sqrt (qform (c_cov o) w), Some ((inner w (c_mean o) - rf) / sqrt (qform (c_cov o) w))).
Proof. exact performance_of_result. Qed.
Print Assumptions c110_performance.
Theorem c110_weights_kept : forall fuel inv ord c (o o' : cla R) r, do_call fuel inv ord c o = (o', r) ->
  (exists e, r = Err e) \/ (exists k, c = CallFrontier k) -> b_weights (c_base o') = b_weights (c_base o).
Proof. exact weights_kept. Qed.
Print Assumptions c110_weights_kept.
Theorem c110_no_weights : forall (o : cla R) rf, b_weights (c_base o) = None -> cla_performance rf o = Err ValueError.
Proof. exact no_weights_no_figures. Qed.
Print Assumptions c110_no_weights.
Theorem c110_set_weights : forall (o : cla R) d, cla_set_weights o d = (o, Err NotImplementedError).
Proof. exact set_weights_refuses. Qed.
Print Assumptions c110_set_weights.
