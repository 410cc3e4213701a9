(** * Property theorems: two ways to one goal *)
From Coq Require Import ZArith List String Bool Reals.
From Verif Require Import Num Py MAlloc SLin SBL MBase MConvex MEF MBL MCLA SAlloc SBase SCLA SGold SReport SConvex SPrep SExist SCurve SWays PWays1 PWays2 PWays3 PWays4.
Import ListNotations.
Local Open Scope R_scope.

(** C115: deviations in money plus money left: lp_portfolio never does worse than greedy_portfolio *)
Theorem c115_long_only : forall solver fuel d r r' d1 al lo d2 al' lo', exact_milp solver -> valid_da d -> long_only (da_weights d) -> positive_prices (da_prices d) ->
  map fst (da_weights d) = map fst (da_prices d) ->
  lp_portfolio solver d r = (d1, Ok (al, lo)) -> greedy_portfolio fuel d r' = (d2, Ok (al', lo')) ->
  miss (da_weights d) (da_prices d) (da_total d) (shares_in al) lo <= miss (da_weights d) (da_prices d) (da_total d) (shares_in al') lo'.
Proof. exact lp_beats_greedy. Qed.
Print Assumptions c115_long_only.
(** C115: and neither misses the target by more than two shares of each asset and the money that was not to be invested *)
Theorem c115_greedy_miss : forall fuel d r d' al lo, valid_da d -> long_only (da_weights d) -> positive_prices (da_prices d) ->
  greedy_portfolio fuel d r = (d', Ok (al, lo)) ->
  miss (da_weights d) (da_prices d) (da_total d) (shares_in al) lo <= 2 * price_sum (da_weights d) (da_prices d) + (1 - total_weight (da_weights d)) * da_total d.
Proof. exact greedy_miss. Qed.
Print Assumptions c115_greedy_miss.
Theorem c115_lp_miss : forall solver d r d' al lo, exact_milp solver -> valid_da d -> long_only (da_weights d) -> positive_prices (da_prices d) ->
  map fst (da_weights d) = map fst (da_prices d) -> total_weight (da_weights d) <= 1 ->
  lp_portfolio solver d r = (d', Ok (al, lo)) ->
  miss (da_weights d) (da_prices d) (da_total d) (shares_in al) lo <= 2 * price_sum (da_weights d) (da_prices d) + (1 - total_weight (da_weights d)) * da_total d.
Proof. exact lp_miss. Qed.
Print Assumptions c115_lp_miss.
(** C115: with short positions the comparison holds for the two sides *)
Theorem c115_long_short : forall solver fuel d r d1 al lo d2 al' lo', exact_milp solver -> valid_da d -> has_short (da_weights d) -> positive_prices (da_prices d) ->
  lp_portfolio solver d r = (d1, Ok (al, lo)) -> greedy_portfolio fuel d r = (d2, Ok (al', lo')) ->
  let longs := long_side (da_weights d) in let shorts := short_side (da_weights d) in
  let sv := da_total d * da_short_ratio d in let lv := if r then da_total d + sv else da_total d in
  exists l s l' s', lo = l + s /\ lo' = l' + s' /\ 0 <= l /\ 0 <= s /\ 0 <= l' /\ 0 <= s' /\
    miss longs (da_prices d) lv (shares_in al) l <= miss longs (da_prices d) lv (shares_in al') l' /\
    miss shorts (da_prices d) sv (fun t => - shares_in al t)%Z s <= miss shorts (da_prices d) sv (fun t => - shares_in al' t)%Z s'.
Proof. exact lp_beats_greedy_sides. Qed.
Print Assumptions c115_long_short.
(** C116: whenever the expected returns are [c * cov x0 + k] with an admissible portfolio [x0] *)
Theorem c116_utility : forall w o u mn c k x0, open_ef w o u -> e_add o = [] -> 0 < c ->
  e_mu o = Some (map (fun v => c * v + k) (mat_vec (e_cov o) x0)) ->
  pos_def (e_n o) (e_cov o) -> symmetric (e_n o) (e_cov o) -> fresh_name w o "risk_aversion" ->
  (exists lb ub s, bounds_in_force mn o lb ub /\ admissible w o u lb ub (if mn then 0 else 1) s /\ s (e_w o) = x0) ->
  forall sv, exact_solver sv -> succeeds (max_quadratic_utility sv c mn w o) -> reports (max_quadratic_utility sv c mn w o) x0.
Proof. exact utility_recovers. Qed.
Print Assumptions c116_utility.
Theorem c116_sharpe : forall w o u rf c k x0, open_ef w o u -> e_add o = [] -> 0 < c ->
  e_mu o = Some (map (fun v => c * v + k) (mat_vec (e_cov o) x0)) -> target_of rf = Some k ->
  pos_def (e_n o) (e_cov o) -> symmetric (e_n o) (e_cov o) ->
  Forall (fun ic => constant_on_one_side (e_w o) (snd ic)) u -> Forall (fun ic => known_vars (List.length (w_sizes w)) (snd ic)) u ->
  (exists s, admissible w o u (e_lb o) (e_ub o) 1 s /\ s (e_w o) = x0) ->
  forall sv, exact_solver sv -> succeeds (max_sharpe sv rf w o) -> reports (max_sharpe sv rf w o) x0.
Proof. exact sharpe_recovers. Qed.
Print Assumptions c116_sharpe.
(** C116: market capitalisations, implied returns, optimizer: the market portfolio comes back *)
Theorem c116_market : forall caps g cols M rf pi, market_implied_prior_returns caps g (CovFrame cols M) rf = Ok pi ->
  List.length cols = List.length M -> NoDup cols -> NoDup (map fst caps) -> pos_def (List.length M) M -> symmetric (List.length M) M -> 0 < g ->
  forall mi c b w0 w1 o, mi = MuArray pi \/ mi = MuSeries (combine cols pi) -> c = CovArray M \/ c = CovFrame cols M ->
  ef_init (MIn mi) (CIn c) b w0 = (w1, Ok o) -> bounded (e_lb o) -> bounded (e_ub o) ->
  let market := map (cap_weight caps) cols in within (e_lb o) (e_ub o) market ->
  forall sv, exact_solver sv -> complete_solver sv ->
  (Forall (fun q => p_name q <> "risk_aversion"%string) (w_params w0) -> reports (max_quadratic_utility sv g false w1 o) market) /\
  (forall r, target_of r = Some rf -> Forall (fun kv => 0 <= snd kv) caps -> reports (max_sharpe sv r w1 o) market).
Proof. exact market_recovers. Qed.
Print Assumptions c116_market.
(** C116: bl_weights and max_sharpe on the same estimates *)
Theorem c116_bl_weights : forall la ob ra d, exact_linalg la -> reachable la ob -> pos_def (bl_n ob) (bl_sigma ob) -> symmetric (bl_n ob) (bl_sigma ob) ->
  match ra with Some r => r <> 0 | None => True end -> snd (bl_weights la ob ra) = Ok d -> List.length (b_tickers (bl_base ob)) = bl_n ob ->
  let post := snd (bl_returns la ob) in
  forall mi c b w0 w1 o, mi = MuArray post \/ mi = MuSeries (combine (b_tickers (bl_base ob)) post) ->
  c = CovArray (bl_sigma ob) \/ c = CovFrame (b_tickers (bl_base ob)) (bl_sigma ob) ->
  ef_init (MIn mi) (CIn c) b w0 = (w1, Ok o) -> bounded (e_lb o) -> bounded (e_ub o) -> Exists (fun a => 0 < a) post ->
  exists wts, b_weights (bl_base (fst (bl_weights la ob ra))) = Some wts /\
  (0 < inner wts post -> within (e_lb o) (e_ub o) wts ->
   forall sv, exact_solver sv -> complete_solver sv -> reports (max_sharpe sv (NFloat 0) w1 o) wts).
Proof. exact bl_recovers. Qed.
Print Assumptions c116_bl_weights.
(** C117: CLA and EfficientFrontier *)
Theorem c117_min_volatility : forall fuel inv ord (o : cla R), sound_inverse inv -> complete_inverse inv -> set_order ord -> well_posed o -> well_labelled o ->
  general_position o -> (3 ^ c_n o <= fuel)%nat ->
  forall sv w e, exact_solver sv -> open_ef w e [] -> e_add e = [] -> same_problem o e -> succeeds (min_volatility sv w e) ->
  exists o' d x, cla_min_volatility fuel inv ord o = (o', Ok d) /\ reports (min_volatility sv w e) x /\
    qform (c_cov o) (dvalues d) <= qform (c_cov o) x /\ (feasible (c_lb o) (c_ub o) (dvalues d) -> dvalues d = x).
Proof. exact cla_ef_min. Qed.
Print Assumptions c117_min_volatility.
Theorem c117_max_sharpe : forall fuel inv ord (o o' : cla R) d, sound_inverse inv -> set_order ord -> well_posed o -> well_labelled o ->
  untied (c_mean o) (c_cov o) (c_lb o) (c_ub o) -> untied_end (c_mean o) (c_cov o) (c_lb o) (c_ub o) ->
  cla_max_sharpe fuel inv ord o = (o', Ok d) -> Forall (fun p => total (t_w p) = 1) (c_tp o') ->
  forall sv w e, exact_solver sv -> open_ef w e [] -> e_add e = [] -> same_problem o e -> succeeds (max_sharpe sv (NFloat 0) w e) ->
  exists x, reports (max_sharpe sv (NFloat 0) w e) x /\ ratio (c_mean o) (c_cov o) (dvalues d) <= ratio (c_mean o) (c_cov o) x /\
    (unbroken (c_tp o') -> exists x', nearly_same (c_lb o) (c_ub o) x x' /\ ratio (c_mean o) (c_cov o) x' <= ratio (c_mean o) (c_cov o) (dvalues d)).
Proof. exact cla_ef_sharpe. Qed.
Print Assumptions c117_max_sharpe.
