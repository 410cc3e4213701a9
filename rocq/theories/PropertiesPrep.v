(** * Properties of the preparation of an optimizer (C18, C21, C102) *)
From Coq Require Import List String Reals.
From Verif Require Import Py SLin SBase MBase MConvex MEF SConvex SPrep PPrep PReach.
Import ListNotations.
Local Open Scope R_scope.

(** C18: a missing bound of a pair is no bound; in a pair of arrays or scalars it is -1 or 1 *)
Theorem c18_missing_pairs : forall mi ci w0 w1 o is_list (ps : list (option R * option R)),
  ef_init mi (CIn ci) (BSeq is_list (map (fun p => [fst p; snd p]) ps)) w0 = (w1, Ok o) -> List.length ps = e_n o ->
  forall s params, List.length (s (e_w o)) = e_n o ->
    (Forall (fun ic => sat s params (snd ic)) (e_cons o) <-> Forall2 (fun p x => above (fst p) x /\ below (snd p) x) ps (s (e_w o))).
Proof. exact missing_pairs. Qed.
Print Assumptions c18_missing_pairs.
Theorem c18_missing_arrays : forall mi ci w0 w1 o (ps : list (option R * option R)),
  ef_init mi (CIn ci) (BSeq true [map fst ps; map snd ps]) w0 = (w1, Ok o) -> e_n o <> 2%nat ->
  forall s params, List.length (s (e_w o)) = e_n o ->
    (Forall (fun ic => sat s params (snd ic)) (e_cons o) <-> Forall2 (fun p x => bound_or (-1) (fst p) <= x <= bound_or 1 (snd p)) ps (s (e_w o))).
Proof. exact missing_arrays. Qed.
Print Assumptions c18_missing_arrays.
Theorem c18_missing_scalars : forall mi ci w0 w1 o l u, ef_init mi (CIn ci) (BPair l u) w0 = (w1, Ok o) ->
  forall s params, List.length (s (e_w o)) = e_n o ->
    (Forall (fun ic => sat s params (snd ic)) (e_cons o) <-> Forall (fun x => bound_or (-1) l <= x <= bound_or 1 u) (s (e_w o))).
Proof. exact missing_scalars. Qed.
Print Assumptions c18_missing_scalars.
(** two assets and no lower bound: rejected with an IndexError *)
Theorem c18_missing_two_assets_refuted : forall a b m1 m2 m3 m4 u w0, exists w1,
  ef_init (MIn (MuArray [a; b])) (CIn (CovArray [[m1; m2]; [m3; m4]])) (BPair None u) w0 = (w1, Err IndexError).
Proof. exact missing_two_assets. Qed.
Print Assumptions c18_missing_two_assets_refuted.

(** C21: a parameter of the user with a reserved name is an error, never overwritten *)
Theorem c21_name_clash_utility : forall sv ra mn w o, 0 < ra -> clashes w o "risk_aversion" -> max_quadratic_utility sv ra mn w o = (w, o, Err InstantiationError).
Proof. exact clash_utility. Qed.
Print Assumptions c21_name_clash_utility.
Theorem c21_name_clash_risk : forall sv pinv tg t mn w o, target_of tg = Some t -> 0 <= t ->
  (0 < e_n o)%nat -> psd (e_n o) (e_cov o) -> symmetric (e_n o) (e_cov o) -> right_inverse (e_n o) (e_cov o) (pinv (e_cov o)) ->
  (exists x, List.length x = e_n o /\ total x = 1 /\ qform (e_cov o) x <= t * t) -> clashes w o "target_variance" ->
  efficient_risk sv pinv tg mn w o = (w, o, Err InstantiationError).
Proof. exact clash_risk_reachable. Qed.
Print Assumptions c21_name_clash_risk.
Theorem c21_name_clash_return : forall sv t v mn w o, e_maxret o = Some v -> v <> 0 -> t <= v -> clashes w o "target_return" ->
  efficient_return sv (NFloat t) mn w o = (w, o, Err InstantiationError).
Proof. exact clash_return. Qed.
Print Assumptions c21_name_clash_return.

(** C102: everything added takes effect *)
Theorem c102_prepared : forall steps w o u, open_ef w o u -> Forall (sensible (e_w o) (List.length (w_params w))) steps ->
  exists w2 o2 u2, forM steps prepare w o = (w2, o2, Ok tt) /\ open_ef w2 o2 u2 /\
    w_sizes w2 = w_sizes w /\ w_params w2 = w_params w /\
    e_w o2 = e_w o /\ e_lb o2 = e_lb o /\ e_ub o2 = e_ub o /\ e_cov o2 = e_cov o /\ e_mu o2 = e_mu o /\ e_base o2 = e_base o /\
    (forall s ps, penalty s ps (e_add o2) = penalty s ps (e_add o) + total (map (extra_cost (e_w o) s ps) steps)) /\
    (forall s ps, List.length (s (e_w o)) = e_n o ->
      (Forall (fun ic => sat s ps (snd ic)) u2 <->
       Forall (fun ic => sat s ps (snd ic)) u /\ Forall (demanded (b_tickers (e_base o)) (e_w o) s ps) steps)).
Proof. exact prepared. Qed.
Print Assumptions c102_prepared.
Theorem c102_min_volatility : forall m c b w0 w1 o steps w2 o2, ef_init (MIn m) (CIn c) b w0 = (w1, Ok o) ->
  square (List.length (cov_values c)) (cov_values c) -> List.length (cov_values c) = e_n o ->
  Forall (sensible (e_w o) (List.length (w_params w1))) steps -> forM steps prepare w1 o = (w2, o2, Ok tt) ->
  forall sv w3 o3 d, exact_solver sv -> min_volatility sv w2 o2 = (w3, o3, Ok d) ->
  best_prepared (b_tickers (e_base o)) (e_w o) (w_sizes w1) (par_values w0) (e_lb o) (e_ub o) 1 steps (fun _ => True) (qform (cov_values c)) (e_weights o3) d.
Proof. exact e2e_min_volatility. Qed.
Print Assumptions c102_min_volatility.
Theorem c102_utility : forall m c b w0 w1 o steps w2 o2, ef_init (MIn m) (CIn c) b w0 = (w1, Ok o) ->
  square (List.length (cov_values c)) (cov_values c) -> List.length (cov_values c) = e_n o ->
  Forall (sensible (e_w o) (List.length (w_params w1))) steps -> forM steps prepare w1 o = (w2, o2, Ok tt) ->
  forall sv mu ra mn w3 o3 d, exact_solver sv -> mu_values m = Some mu -> Forall (fun q => p_name q <> "risk_aversion"%string) (w_params w0) ->
  max_quadratic_utility sv ra mn w2 o2 = (w3, o3, Ok d) ->
  exists lb ub, bounds_in_force mn o lb ub /\ best_prepared (b_tickers (e_base o)) (e_w o) (w_sizes w1) (par_values w0) lb ub (if mn then 0 else 1) steps (fun _ => True)
    (fun x => - (inner mu x - ra / 2 * qform (cov_values c) x)) (e_weights o3) d.
Proof. exact e2e_utility. Qed.
Print Assumptions c102_utility.
Theorem c102_efficient_risk : forall m c b w0 w1 o steps w2 o2, ef_init (MIn m) (CIn c) b w0 = (w1, Ok o) ->
  square (List.length (cov_values c)) (cov_values c) -> List.length (cov_values c) = e_n o ->
  Forall (sensible (e_w o) (List.length (w_params w1))) steps -> forM steps prepare w1 o = (w2, o2, Ok tt) ->
  forall sv pinv mu tg mn w3 o3 d, exact_solver sv -> mu_values m = Some mu -> Forall (fun q => p_name q <> "target_variance"%string) (w_params w0) ->
  efficient_risk sv pinv tg mn w2 o2 = (w3, o3, Ok d) ->
  exists t lb ub, target_of tg = Some t /\ 0 <= t /\ bounds_in_force mn o lb ub /\ best_prepared (b_tickers (e_base o)) (e_w o) (w_sizes w1) (par_values w0) lb ub (if mn then 0 else 1) steps
    (fun x => qform (cov_values c) x <= t * t) (fun x => - inner mu x) (e_weights o3) d.
Proof. exact e2e_efficient_risk. Qed.
Print Assumptions c102_efficient_risk.
Theorem c102_efficient_return : forall m c b w0 w1 o steps w2 o2, ef_init (MIn m) (CIn c) b w0 = (w1, Ok o) ->
  square (List.length (cov_values c)) (cov_values c) -> List.length (cov_values c) = e_n o ->
  Forall (sensible (e_w o) (List.length (w_params w1))) steps -> forM steps prepare w1 o = (w2, o2, Ok tt) ->
  forall sv mu tg mn w3 o3 d, exact_solver sv -> mu_values m = Some mu -> Forall (fun q => p_name q <> "target_return"%string) (w_params w0) ->
  efficient_return sv tg mn w2 o2 = (w3, o3, Ok d) ->
  exists t lb ub, tg = NFloat t /\ bounds_in_force mn o lb ub /\ best_prepared (b_tickers (e_base o)) (e_w o) (w_sizes w1) (par_values w0) lb ub (if mn then 0 else 1) steps
    (fun x => t <= inner mu x) (qform (cov_values c)) (e_weights o3) d.
Proof. exact e2e_efficient_return. Qed.
Print Assumptions c102_efficient_return.
Theorem c102_not_callable : forall w o, add_constraint CNotCallable w o = (w, o, Err TypeError).
Proof. exact not_callable. Qed.
Print Assumptions c102_not_callable.
