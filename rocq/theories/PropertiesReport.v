(** * Properties C92-C94 and more about C05: reports on an allocation, long/short allocations *)
From Coq Require Import ZArith List Reals String Permutation.
From Verif Require Import Num Py MAlloc SAlloc MReport SReport PAlloc5 PReport.
Import ListNotations.
Local Open Scope R_scope.

(** C05: each half of a long/short portfolio gets its own budget, and every ticker all the whole
    shares that its share of the budget pays for *)
Theorem c05_both_sides_follow_their_targets : forall fuel d r d' al lo,
  valid_da d -> has_short (da_weights d) -> positive_prices (da_prices d) ->
  greedy_portfolio fuel d r = (d', Ok (al, lo)) ->
  let sv := da_total d * da_short_ratio d in
  let lv := if r then da_total d + sv else da_total d in
  exists lo1 lo2, lo = lo1 + lo2 /\ 0 <= lo1 /\ 0 <= lo2 /\
  shares_cost (long_side (da_weights d)) (da_prices d) (shares_in al) + lo1 = lv /\
  shares_cost (short_side (da_weights d)) (da_prices d) (fun t => - shares_in al t)%Z + lo2 = sv /\
  (forall t x, In (t, x) (long_side (da_weights d)) ->
     (0 <= shares_in al t)%Z /\ x * lv < (IZR (shares_in al t) + 1) * price_of (da_prices d) t) /\
  (forall t x, In (t, x) (short_side (da_weights d)) ->
     (shares_in al t <= 0)%Z /\ x * sv < (1 - IZR (shares_in al t)) * price_of (da_prices d) t).
Proof. exact greedy_sides. Qed.
Print Assumptions c05_both_sides_follow_their_targets.

(** C92: the reported error is the root mean square distance between the target weights and the
    fractions held *)
Theorem c92_rmse_is_distance : forall d al,
  da_alloc d = Some al -> da_weights d <> [] -> held_priced al (da_prices d) ->
  (al <> [] -> alloc_value (da_prices d) al <> 0) ->
  allocation_rmse d = Ok (Some (sqrt (square_distance (da_weights d) (da_prices d) al
                                       / INR (List.length (da_weights d))))).
Proof. exact rmse_ok. Qed.
Print Assumptions c92_rmse_is_distance.

(** it is undefined before an allocation and without weights *)
Theorem c92_rmse_undefined : forall d : da (A:=R),
  (da_alloc d = None -> allocation_rmse d = Err AttributeError) /\
  (forall al, da_alloc d = Some al -> da_weights d = [] -> held_priced al (da_prices d) -> allocation_rmse d = Err ZeroDivisionError).
Proof. exact rmse_undefined. Qed.
Print Assumptions c92_rmse_undefined.

Theorem c92_rmse_zero_iff_exact : forall d al,
  da_alloc d = Some al -> da_weights d <> [] -> held_priced al (da_prices d) ->
  (al <> [] -> alloc_value (da_prices d) al <> 0) ->
  (allocation_rmse d = Ok (Some 0) <->
   forall t x, In (t, x) (da_weights d) -> x = held_fraction (da_prices d) al t).
Proof. exact rmse_zero. Qed.
Print Assumptions c92_rmse_zero_iff_exact.

(** after a greedy long-only allocation it is always defined and at most sqrt(2/n) *)
Theorem c92_greedy_rmse_bounded : forall fuel d r d' al lo,
  valid_da d -> long_only (da_weights d) -> positive_prices (da_prices d) ->
  total_weight (da_weights d) <= 1 ->
  greedy_portfolio fuel d r = (d', Ok (al, lo)) ->
  exists e, allocation_rmse d' = Ok (Some e) /\
    e = sqrt (square_distance (da_weights d) (da_prices d) al / INR (List.length (da_weights d))) /\
    0 <= e <= sqrt (2 / INR (List.length (da_weights d))).
Proof. exact greedy_rmse. Qed.
Print Assumptions c92_greedy_rmse_bounded.

(** [verbose=True] never changes what greedy_portfolio does, whatever the inputs *)
Theorem c92_verbose_greedy_same : forall fuel d r,
  greedy_verbose (A:=R) fuel d r = greedy_portfolio fuel d r.
Proof. exact greedy_verbose_same. Qed.
Print Assumptions c92_verbose_greedy_same.

(** ... nor what lp_portfolio does, if every weight has a price *)
Theorem c92_verbose_lp_same : forall solver d r,
  da_weights d <> [] -> all_priced (da_weights d) (da_prices d) ->
  lp_verbose (A:=R) solver d r = lp_portfolio solver d r.
Proof. exact lp_verbose_same. Qed.
Print Assumptions c92_verbose_lp_same.

(** but without that, it can turn a success into a KeyError *)
Theorem c92_verbose_lp_same_refuted : exists solver d al lo,
  exact_milp solver /\ valid_da d /\ long_only (da_weights d) /\ positive_prices (da_prices d) /\
  forall r, snd (lp_portfolio solver d r) = Ok (al, lo) /\ snd (lp_verbose solver d r) = Err KeyError.
Proof. exact lp_verbose_keyerror. Qed.
Print Assumptions c92_verbose_lp_same_refuted.

(** C93: with short positions lp_portfolio solves both halves to optimality, each with its own
    budget, in whatever order prices and weights are listed *)
Theorem c93_lp_long_short : forall solver d r d' al lo,
  exact_milp solver -> valid_da d -> has_short (da_weights d) ->
  lp_portfolio solver d r = (d', Ok (al, lo)) ->
  let longs := long_side (da_weights d) in let shorts := short_side (da_weights d) in
  let sv := da_total d * da_short_ratio d in
  let lv := if r then da_total d + sv else da_total d in
  exists lo1 lo2, lo = lo1 + lo2 /\ 0 <= lo1 /\ 0 <= lo2 /\ NoDup (map fst al) /\
  (forall t n, In (t, n) al ->
     ((0 < n)%Z /\ In t (map fst longs)) \/ ((n < 0)%Z /\ In t (map fst shorts))) /\
  shares_cost longs (da_prices d) (shares_in al) + lo1 = lv /\
  shares_cost shorts (da_prices d) (fun t => - shares_in al t)%Z + lo2 = sv /\
  gross_value (da_prices d) al + lo = da_total d * (1 + (if r then 2 else 1) * da_short_ratio d) /\
  (forall f : label -> Z, (forall t, In t (map fst longs) -> (0 <= f t)%Z) ->
     shares_cost longs (da_prices d) f <= lv ->
     dollar_dev longs (da_prices d) lv (shares_in al) + lo1 <=
     dollar_dev longs (da_prices d) lv f + (lv - shares_cost longs (da_prices d) f)) /\
  (forall f : label -> Z, (forall t, In t (map fst shorts) -> (0 <= f t)%Z) ->
     shares_cost shorts (da_prices d) f <= sv ->
     dollar_dev shorts (da_prices d) sv (fun t => - shares_in al t)%Z + lo2 <=
     dollar_dev shorts (da_prices d) sv f + (sv - shares_cost shorts (da_prices d) f)).
Proof. exact lp_long_short. Qed.
Print Assumptions c93_lp_long_short.

(** C94: plot_weights draws every weight once, under its own ticker, the longest bar first *)
Theorem c94_bars_show_all_weights : forall w : dict R,
  Permutation (combine (fst (weight_bars w)) (snd (weight_bars w))) w /\
  List.length (fst (weight_bars w)) = List.length (snd (weight_bars w)) /\
  descending (snd (weight_bars w)).
Proof. exact bars_spec. Qed.
Print Assumptions c94_bars_show_all_weights.
