(** * Properties of the convex optimizers *)
From Coq Require Import ZArith List String Bool Reals.
From Verif Require Import Num Py MBase MConvex MEF SLin SBase SConvex PConvex PEF PEF2 PEF3 PEF4 PEFW.
Import ListNotations.
Local Open Scope R_scope.

(** C18: the three formats of weight_bounds give the same object, whose constraints are exactly the
    bounds; two assets are the exception, where a pair of arrays is read as two per-asset pairs *)
Theorem c18_formats_agree : forall m c w0 (ps : list (R * R)),
  init_shape_ok m c -> List.length (init_tickers m c) = List.length ps ->
  (0 < List.length ps)%nat -> List.length ps <> 2%nat ->
  let r := ef_init (MIn m) (CIn c) (BSeq true (map (fun p => [Some (fst p); Some (snd p)]) ps)) w0 in
  ef_init (MIn m) (CIn c) (BSeq true [map (fun p => Some (fst p)) ps; map (fun p => Some (snd p)) ps]) w0 = r /\
  (forall l u, ps = repeat (l, u) (List.length ps) ->
     ef_init (MIn m) (CIn c) (BPair (Some l) (Some u)) w0 = r) /\
  exists w1 o, r = (w1, Ok o) /\
    forall s params, List.length (s (e_w o)) = List.length ps ->
      (Forall (fun ic => sat s params (snd ic)) (e_cons o) <->
       Forall2 (fun p x => fst p <= x <= snd p) ps (s (e_w o))).
Proof. exact bounds_formats. Qed.
Print Assumptions c18_formats_agree.

Theorem c18_two_assets_refuted : forall m c w0 l0 l1 u0 u1,
  init_shape_ok m c -> List.length (init_tickers m c) = 2%nat ->
  exists w1 o, ef_init (MIn m) (CIn c) (BSeq true [[Some l0; Some l1]; [Some u0; Some u1]]) w0 = (w1, Ok o) /\
    forall s params x0 x1, s (e_w o) = [x0; x1] ->
      (Forall (fun ic => sat s params (snd ic)) (e_cons o) <-> l0 <= x0 <= l1 /\ u0 <= x1 <= u1).
Proof. exact bounds_two_assets. Qed.
Print Assumptions c18_two_assets_refuted.

(** C19: sector constraints *)
Theorem c19_sectors : forall mapper lower upper w o, e_opt o = None ->
  exists w' new, add_sector_constraints mapper lower upper w o = (w', set_cons (e_cons o ++ new) o, Ok tt) /\
    forall s ps, List.length (s (e_w o)) = e_n o ->
      (Forall (fun ic => sat s ps (snd ic)) new <->
       (forall sec u, In (sec, u) upper -> sector_weight mapper sec (b_tickers (e_base o)) (s (e_w o)) <= u) /\
       (forall sec l, In (sec, l) lower -> l <= sector_weight mapper sec (b_tickers (e_base o)) (s (e_w o)))).
Proof. exact add_sector_ok. Qed.
Print Assumptions c19_sectors.

(** C20: once a convex solve was attempted (and not rejected before), nothing can be added any more, whatever calls follow *)
Theorem c20_frozen : forall sv ns pinv c w o w1 o1 r cs w2 o2,
  run sv ns pinv c w o = (w1, o1, r) ->
  (attempts c /\ (r = Ok tt \/ r = Err OptimizationError)) \/ ((exists t mn, c = KReturn t mn) /\ r = Ok tt) ->
  run_all sv ns pinv cs w1 o1 = (w2, o2) ->
  (forall f, add_objective f w2 o2 = (w2, o2, Err InstantiationError)) /\
  (forall f, add_constraint (CFun f) w2 o2 = (w2, o2, Err InstantiationError)) /\
  (forall mapper lower upper, lower ++ upper <> [] ->
     add_sector_constraints mapper lower upper w2 o2 = (w2, o2, Err InstantiationError)).
Proof. exact frozen_forever. Qed.
Print Assumptions c20_frozen.

(** C21: re-optimisation equals a fresh optimisation, after any earlier targets *)
Theorem c21_efficient_risk : forall sv w0 o0 u m, open_ef w0 o0 u -> e_mu o0 = Some m ->
  forall pinv mn ts w1 o1 t wf of rf wh oh rh, unused_name w0 o0 "target_variance" ->
  after (fun t => efficient_risk sv pinv t mn) ts w0 o0 = (w1, o1) ->
  efficient_risk sv pinv t mn w0 o0 = (wf, of, rf) -> efficient_risk sv pinv t mn w1 o1 = (wh, oh, rh) ->
  rh = rf /\ (forall d, rf = Ok d -> e_weights oh = e_weights of).
Proof. exact risk_reopt. Qed.
Print Assumptions c21_efficient_risk.

Theorem c21_max_quadratic_utility : forall sv w0 o0 u m, open_ef w0 o0 u -> e_mu o0 = Some m ->
  forall mn ts w1 o1 t wf of rf wh oh rh, unused_name w0 o0 "risk_aversion" ->
  after (fun t => max_quadratic_utility sv t mn) ts w0 o0 = (w1, o1) ->
  max_quadratic_utility sv t mn w0 o0 = (wf, of, rf) -> max_quadratic_utility sv t mn w1 o1 = (wh, oh, rh) ->
  rh = rf /\ (forall d, rf = Ok d -> e_weights oh = e_weights of).
Proof. exact util_reopt. Qed.
Print Assumptions c21_max_quadratic_utility.

(** for efficient_return the largest return must not be exactly zero, see C22 *)
Theorem c21_efficient_return : forall sv w0 o0 u m, open_ef w0 o0 u -> e_mu o0 = Some m ->
  forall mn ts w1 o1 t wf of rf wh oh rh, unused_name w0 o0 "target_return" ->
  e_maxret o0 = None -> (forall w' o', on_copy (max_return sv) w0 o0 <> (w', o', Ok 0)) ->
  after (fun t => efficient_return sv t mn) ts w0 o0 = (w1, o1) ->
  efficient_return sv t mn w0 o0 = (wf, of, rf) -> efficient_return sv t mn w1 o1 = (wh, oh, rh) ->
  rh = rf /\ (forall d, rf = Ok d -> e_weights oh = e_weights of).
Proof. exact return_reopt. Qed.
Print Assumptions c21_efficient_return.

(** C22: if the largest return of a fully invested portfolio is zero, every call after the first fails *)
Theorem c22_zero_return_stuck : forall sv w0 o0 u m, open_ef w0 o0 u -> e_mu o0 = Some m ->
  forall mn t w1 o1 d, exact_solver sv -> unused_name w0 o0 "target_return" -> e_maxret o0 = None ->
  (exists s, admissible w0 o0 u (e_lb o0) (e_ub o0) 1 s /\ inner m (s (e_w o0)) = 0) ->
  (forall s, admissible w0 o0 u (e_lb o0) (e_ub o0) 1 s -> inner m (s (e_w o0)) <= 0) ->
  efficient_return sv (NFloat t) mn w0 o0 = (w1, o1, Ok d) ->
  forall ts w2 o2, after (fun t => efficient_return sv (NFloat t) mn) ts w1 o1 = (w2, o2) ->
  forall t' mn', exists w3, efficient_return sv (NFloat t') mn' w2 o2 = (w3, o2, Err InstantiationError).
Proof. exact zero_max_return_stuck. Qed.
Print Assumptions c22_zero_return_stuck.

(** such an object exists: returns (0, -0.1), long only, target -0.05 *)
Theorem c22_zero_return_refuted : exists sv o w1 o1 d, exact_solver sv /\
  ef_init (MIn (MuArray [0; -1/10])) (CIn (CovArray [[1; 0]; [0; 1]])) (BPair (Some 0) (Some 1)) empty_world = (two_world, Ok o) /\
  efficient_return sv (NFloat (-1/20)) false two_world o = (w1, o1, Ok d) /\
  forall t mn, exists w2, efficient_return sv (NFloat t) mn w1 o1 = (w2, o1, Err InstantiationError).
Proof. exact zero_return_example. Qed.
Print Assumptions c22_zero_return_refuted.

(** C23: min_volatility on a solved object fails, keeps the weights, and blocks re-optimisation *)
Theorem c23_risk_then_minvol : forall sv w0 o0 u m, open_ef w0 o0 u -> e_mu o0 = Some m ->
  forall pinv mn t w1 o1 d w2 o2 r t' w3 o3 r', unused_name w0 o0 "target_variance" ->
  efficient_risk sv pinv t mn w0 o0 = (w1, o1, Ok d) ->
  min_volatility sv w1 o1 = (w2, o2, r) ->
  efficient_risk sv pinv t' mn w2 o2 = (w3, o3, r') ->
  r = Err InstantiationError /\ e_weights o2 = e_weights o1 /\
  (r' = Err InstantiationError \/ r' = Err ValueError) /\
  (r' = Err ValueError -> exists w' o', efficient_risk sv pinv t' mn w0 o0 = (w', o', Err ValueError)) /\
  e_weights o3 = e_weights o1.
Proof. exact risk_then_minvol. Qed.
Print Assumptions c23_risk_then_minvol.

Theorem c23_return_then_minvol : forall sv w0 o0 u m, open_ef w0 o0 u -> e_mu o0 = Some m ->
  forall mn t w1 o1 d w2 o2 r t' w3 o3 r', unused_name w0 o0 "target_return" ->
  e_maxret o0 = None ->
  efficient_return sv (NFloat t) mn w0 o0 = (w1, o1, Ok d) ->
  min_volatility sv w1 o1 = (w2, o2, r) ->
  efficient_return sv (NFloat t') mn w2 o2 = (w3, o3, r') ->
  r = Err InstantiationError /\ e_weights o2 = e_weights o1 /\
  (r' = Err InstantiationError \/ r' = Err ValueError) /\
  (r' = Err ValueError -> exists w' o', efficient_return sv (NFloat t') mn w0 o0 = (w', o', Err ValueError)) /\
  e_weights o3 = e_weights o1.
Proof. exact return_then_minvol. Qed.
Print Assumptions c23_return_then_minvol.

(** C24: an exception leaves the weights alone.  [FloatSpecial] is not an exception of the real code: there max_sharpe goes on with infinities *)
Theorem c24_errors_keep_weights : forall sv ns pinv c w o w' o' e,
  run sv ns pinv c w o = (w', o', Err e) -> e <> FloatSpecial -> e_weights o' = e_weights o.
Proof. exact safe_run. Qed.
Print Assumptions c24_errors_keep_weights.

(** C25 *)
Theorem c25_min_volatility : forall sv w o u w' o' d, exact_solver sv -> open_ef w o u ->
  min_volatility sv w o = (w', o', Ok d) ->
  best_portfolio w o u (e_lb o) (e_ub o) 1 (fun _ => True) (qform (e_cov o)) (e_weights o') d.
Proof. exact min_volatility_best. Qed.
Print Assumptions c25_min_volatility.

(** C26 *)
Theorem c26_efficient_risk : forall sv pinv w o u m tg mn w' o' d, exact_solver sv -> open_ef w o u ->
  e_mu o = Some m -> fresh_name w o "target_variance" ->
  efficient_risk sv pinv tg mn w o = (w', o', Ok d) ->
  exists t lb ub, target_of tg = Some t /\ 0 <= t /\ bounds_in_force mn o lb ub /\
    best_portfolio w o u lb ub (if mn then 0 else 1) (fun x => qform (e_cov o) x <= t * t)
      (fun x => - inner m x) (e_weights o') d.
Proof. exact efficient_risk_best. Qed.
Print Assumptions c26_efficient_risk.

Theorem c26_bad_target : forall sv pinv tg mn w o,
  (target_of tg = None \/ exists t, target_of tg = Some t /\ t < 0) ->
  efficient_risk sv pinv tg mn w o = (w, o, Err ValueError).
Proof. exact risk_bad_target. Qed.
Print Assumptions c26_bad_target.

(** C27: a target below the global minimum is rejected, and no fully invested portfolio reaches it *)
Theorem c27_check_sound : forall sv pinv tg t mn w o u m w' o' r, open_ef w o u -> e_mu o = Some m ->
  target_of tg = Some t -> 0 <= t -> (0 < e_n o)%nat ->
  psd (e_n o) (e_cov o) -> symmetric (e_n o) (e_cov o) -> right_inverse (e_n o) (e_cov o) (pinv (e_cov o)) ->
  t * t < 1 / total (map total (pinv (e_cov o))) ->
  efficient_risk sv pinv tg mn w o = (w', o', r) ->
  r = Err ValueError /\ w' = w /\ o' = o /\
  forall x, List.length x = e_n o -> total x = 1 -> t < sqrt (qform (e_cov o) x).
Proof. exact risk_check. Qed.
Print Assumptions c27_check_sound.

(** market neutral portfolios of that volatility exist, and are rejected *)
Theorem c27_market_neutral_refuted : forall sv pinv, right_inverse 2 [[1; 0]; [0; 1]] (pinv [[1; 0]; [0; 1]]) ->
  exists o, ef_init (MIn (MuArray [1/10; 1/5])) (CIn (CovArray [[1; 0]; [0; 1]])) (BPair (Some (-1)) (Some 1)) empty_world
              = (two_world, Ok o) /\
    efficient_risk sv pinv (NFloat (1/2)) true two_world o = (two_world, o, Err ValueError) /\
    exists s, admissible two_world o [] (e_lb o) (e_ub o) 0 s /\ s (e_w o) = [-1/4; 1/4] /\
      sqrt (qform (e_cov o) (s (e_w o))) <= 1/2.
Proof. exact risk_check_neutral. Qed.
Print Assumptions c27_market_neutral_refuted.

(** C28 *)
Theorem c28_efficient_return : forall sv w o u m tg mn w' o' d, exact_solver sv -> open_ef w o u ->
  e_mu o = Some m -> fresh_name w o "target_return" ->
  efficient_return sv tg mn w o = (w', o', Ok d) ->
  exists t lb ub, tg = NFloat t /\ bounds_in_force mn o lb ub /\
    best_portfolio w o u lb ub (if mn then 0 else 1) (fun x => t <= inner m x)
      (qform (e_cov o)) (e_weights o') d.
Proof. exact efficient_return_best. Qed.
Print Assumptions c28_efficient_return.

(** a target no fully invested portfolio reaches is rejected *)
Theorem c28_too_high : forall sv w o u m t mn w' o' r v w1 o1, exact_solver sv -> open_ef w o u ->
  e_mu o = Some m -> e_maxret o = None ->
  on_copy (max_return sv) w o = (w1, o1, Ok v) ->
  (forall s, admissible w o u (e_lb o) (e_ub o) 1 s -> inner m (s (e_w o)) < t) ->
  efficient_return sv (NFloat t) mn w o = (w', o', r) -> r = Err ValueError /\ e_weights o' = e_weights o.
Proof. exact efficient_return_too_high. Qed.
Print Assumptions c28_too_high.

(** and only such targets are rejected *)
Theorem c28_rejects_only_unreachable : forall sv w o u m t mn w' o', exact_solver sv ->
  (forall a b c e, sv a b c e <> ARaise ValueError) -> open_ef w o u -> e_mu o = Some m -> e_maxret o = None ->
  unused_name w o "target_return" ->
  efficient_return sv (NFloat t) mn w o = (w', o', Err ValueError) ->
  forall s, admissible w o u (e_lb o) (e_ub o) 1 s -> inner m (s (e_w o)) < t.
Proof. exact return_rejects_only. Qed.
Print Assumptions c28_rejects_only_unreachable.

(** but a market neutral portfolio may reach more than any fully invested one, and is rejected *)
Theorem c28_market_neutral_refuted : exists sv o, exact_solver sv /\
  ef_init (MIn (MuArray [1/5; -3/10])) (CIn (CovArray [[1; 0]; [0; 1]])) (BPair (Some (-1)) (Some 1)) empty_world = (two_world, Ok o) /\
  (exists s, admissible two_world o [] (e_lb o) (e_ub o) 0 s /\ inner [1/5; -3/10] (s (e_w o)) = 1/2) /\
  exists w' o', efficient_return sv (NFloat (2/5)) true two_world o = (w', o', Err ValueError).
Proof. exact return_check_neutral. Qed.
Print Assumptions c28_market_neutral_refuted.

(** C29 *)
Theorem c29_utility : forall sv w o u m ra mn w' o' d, exact_solver sv -> open_ef w o u ->
  e_mu o = Some m -> fresh_name w o "risk_aversion" ->
  max_quadratic_utility sv ra mn w o = (w', o', Ok d) ->
  0 < ra /\ exists lb ub, bounds_in_force mn o lb ub /\
    best_portfolio w o u lb ub (if mn then 0 else 1) (fun _ => True)
      (fun x => - (inner m x - ra / 2 * qform (e_cov o) x)) (e_weights o') d.
Proof. exact utility_best. Qed.
Print Assumptions c29_utility.

Theorem c29_bad_aversion : forall sv ra mn w o, ra <= 0 -> max_quadratic_utility sv ra mn w o = (w, o, Err ValueError).
Proof. exact utility_bad_aversion. Qed.
Print Assumptions c29_bad_aversion.

(** C30: no admissible portfolio has a larger Sharpe ratio; written without division, so that zero variances are covered *)
Theorem c30_max_sharpe : forall sv w o u rf w' o' d, exact_solver sv -> open_ef w o u -> e_add o = [] ->
  psd (e_n o) (e_cov o) ->
  Forall (fun ic => constant_on_one_side (e_w o) (snd ic)) u ->
  Forall (fun ic => known_vars (List.length (w_sizes w)) (snd ic)) u ->
  max_sharpe sv rf w o = (w', o', Ok d) ->
  exists m r, e_mu o = Some m /\ target_of rf = Some r /\
  exists s rr, e_weights o' = Some rr /\ Forall2 (rounded 16) (s (e_w o)) rr /\
    d = dict_of_pairs (combine (b_tickers (e_base o)) rr) /\
    admissible w o u (e_lb o) (e_ub o) 1 s /\
    0 < excess m r (s (e_w o)) /\
    forall s', admissible w o u (e_lb o) (e_ub o) 1 s' ->
      excess m r (s' (e_w o)) * sqrt (qform (e_cov o) (s (e_w o)))
      <= excess m r (s (e_w o)) * sqrt (qform (e_cov o) (s' (e_w o))).
Proof. exact max_sharpe_best. Qed.
Print Assumptions c30_max_sharpe.

(** C31: the constraint w[0] + 0.1 <= 0.4 is violated by the answer *)
Theorem c31_offset_refuted : exists sv o w' o' d x y,
  exact_solver sv /\
  ef_init (MIn (MuArray [1/5; 1/10])) (CIn (CovArray [[1; 0]; [0; 1]])) (BPair (Some 0) (Some 1)) empty_world
    = (two_world, Ok (two_ef [1/5; 1/10] 0 1)) /\
  add_constraint (CFun (fun v => CIneq (EAdd (EIndex [0%nat] (EVar v)) (EConst [1/10])) (EConst [2/5])))
    two_world (two_ef [1/5; 1/10] 0 1) = (two_c_world, o, Ok tt) /\
  max_sharpe sv (NFloat 0) two_c_world o = (w', o', Ok d) /\
  e_weights o' = Some [x; y] /\ x + 1/10 > 2/5 + 1/20.
Proof. exact offset_example. Qed.
Print Assumptions c31_offset_refuted.

(** and so is the sum of squares <= 0.52 *)
Theorem c31_squares_refuted : exists sv o w' o' d x y,
  exact_solver sv /\
  ef_init (MIn (MuArray [2; 1])) (CIn (CovArray [[1; 0]; [0; 1]])) (BPair (Some 0) (Some 1)) empty_world
    = (two_world, Ok (two_ef [2; 1] 0 1)) /\
  add_constraint (CFun (fun v => CIneq (ESumSq (EVar v)) (EConst [13/25]))) two_world (two_ef [2; 1] 0 1) = (two_c_world, o, Ok tt) /\
  max_sharpe sv (NFloat 0) two_c_world o = (w', o', Ok d) /\
  e_weights o' = Some [x; y] /\ x * x + y * y > 13/25 + 1/100.
Proof. exact squares_example. Qed.
Print Assumptions c31_squares_refuted.

(** C32: after the set-up the constraints are exactly the bounds in force, the weight sum and the user's constraints *)
Theorem c32_market_neutral : forall mn w o u i j, e_opt o = None ->
  e_cons o = (i, lower_con (e_lb o) (e_w o)) :: (j, upper_con (e_ub o) (e_w o)) :: u ->
  List.length (e_lb o) = e_n o -> List.length (e_ub o) = e_n o ->
  exists w' o' lb ub, make_weight_sum_constraint mn w o = (w', o', Ok tt) /\
    w_sizes w' = w_sizes w /\ w_params w' = w_params w /\
    same_but_bounds o o' /\ e_mn o' = Some mn /\
    e_lb o' = lb /\ e_ub o' = ub /\ bounds_in_force mn o lb ub /\
    List.length lb = e_n o /\ List.length ub = e_n o /\
    forall P : con -> Prop,
      (Forall P (map snd (e_cons o')) <->
       P (lower_con lb (e_w o)) /\ P (upper_con ub (e_w o)) /\
       P (CEq (ESum (EVar (e_w o))) (EScalar (if mn then 0 else 1))) /\ Forall (fun ic => P (snd ic)) u).
Proof. exact weight_sum_run. Qed.
Print Assumptions c32_market_neutral.

(** C33 *)
Theorem c33_convex_objective : forall sv w o u f b w' o' d, exact_solver sv -> open_ef w o u ->
  (forall v, scalar_expr (f v)) ->
  convex_objective sv f b w o = (w', o', Ok d) ->
  exists s r, e_weights o' = Some r /\ Forall2 (rounded 16) (s (e_w o)) r /\
    d = dict_of_pairs (combine (b_tickers (e_base o)) r) /\
    let good s := well_sized (w_sizes w) s /\ within (e_lb o) (e_ub o) (s (e_w o)) /\
                  (b = true -> total (s (e_w o)) = 1) /\
                  Forall (fun ic => sat s (par_values w) (snd ic)) u in
    good s /\ forall s', good s' ->
      evals s (par_values w) (f (e_w o)) + penalty s (par_values w) (e_add o)
      <= evals s' (par_values w) (f (e_w o)) + penalty s' (par_values w) (e_add o).
Proof. exact convex_objective_best. Qed.
Print Assumptions c33_convex_objective.

(** what is handed to scipy is respected if scipy respects it *)
Theorem c33_nonconvex_given : forall ns f b cs g w o u w' o' d, open_ef w o u ->
  (forall q, nlp_point_ok q (fst (ns q))) ->
  nonconvex_objective ns f b cs g w o = (w', o', Ok d) ->
  exists x, e_weights o' = Some x /\ d = dict_of_pairs (combine (b_tickers (e_base o)) x) /\
    within (e_lb o) (e_ub o) x /\ (b = true -> total x = 1) /\ Forall (fun P => P x) cs.
Proof. exact nonconvex_given. Qed.
Print Assumptions c33_nonconvex_given.

(** neither added constraints nor the success flag have any effect *)
Theorem c33_nonconvex_ignores : forall ns ns' f b cs g w o X, (forall q, fst (ns q) = fst (ns' q)) ->
  exists d x, nonconvex_objective ns f b cs g w o = (w, put_weights x o, Ok d) /\
    nonconvex_objective ns' f b cs g w (set_cons X o) = (w, put_weights x (set_cons X o), Ok d).
Proof. exact nonconvex_ignores. Qed.
Print Assumptions c33_nonconvex_ignores.

(** an unsuccessful answer that violates the user's w[0] <= 0.3 is returned *)
Theorem c33_nonconvex_refuted : exists ns o w' o' d,
  (forall q, nlp_bounds q = [(Some 0, Some 1); (Some 0, Some 1)] -> nlp_cons q = [] ->
     nlp_point_ok q (fst (ns q)) /\ snd (ns q) = false) /\
  ef_init (MIn (MuArray [1/5; 1/10])) (CIn (CovArray [[1; 0]; [0; 1]])) (BPair (Some 0) (Some 1)) empty_world
    = (two_world, Ok (two_ef [1/5; 1/10] 0 1)) /\
  add_constraint (CFun (fun v => CIneq (EIndex [0%nat] (EVar v)) (EConst [3/10])))
    two_world (two_ef [1/5; 1/10] 0 1) = (two_c_world, o, Ok tt) /\
  nonconvex_objective ns (fun x => - total x) true [] None two_c_world o = (w', o', Ok d) /\
  e_weights o' = Some [9/10; 1/10].
Proof. exact nonconvex_example. Qed.
Print Assumptions c33_nonconvex_refuted.
