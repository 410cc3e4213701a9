(** * Properties C01-C12: discrete allocation *)
From Coq Require Import ZArith List Reals String Floats Permutation.
From Verif Require Import Num Py MAlloc SAlloc PAlloc PAlloc2 PAlloc3 PAlloc4 PAllocW.
Import ListNotations.
Local Open Scope R_scope.

(** C01 *)
Theorem c01_greedy_conserves_money : forall fuel d r d' al lo,
  valid_da d -> long_only (da_weights d) ->
  greedy_portfolio fuel d r = (d', Ok (al, lo)) ->
  alloc_value (da_prices d) al + lo = da_total d /\ 0 <= lo.
Proof. exact (greedy_conservation_at 1). Qed.
Print Assumptions c01_greedy_conserves_money.

(** C02 *)
Theorem c02_greedy_whole_shares : forall fuel d r d' al lo,
  valid_da d -> long_only (da_weights d) -> positive_prices (da_prices d) ->
  greedy_portfolio fuel d r = (d', Ok (al, lo)) ->
  NoDup (map fst al) /\
  (forall t n, In (t, n) al -> (0 < n)%Z /\ In t (map fst (da_weights d))) /\
  (forall t w, In (t, w) (da_weights d) ->
     w * da_total d < (IZR (shares_in al t) + 1) * price_of (da_prices d) t).
Proof. exact (greedy_shares_at 1). Qed.
Print Assumptions c02_greedy_whole_shares.

(** C03: some answer other than running out of fuel is reached, and more fuel does not change it.
    Holds for every object with positive prices, long-only or not. *)
Theorem c03_greedy_terminates : forall d r, positive_prices (da_prices d) ->
  exists v, v <> Err OutOfFuel /\
    exists f0, forall fuel, (f0 <= fuel)%nat -> snd (greedy_portfolio fuel d r) = v.
Proof. exact greedy_settles. Qed.
Print Assumptions c03_greedy_terminates.

(** C04 *)
Theorem c04_no_assertion_failure : forall fuel d r,
  valid_da d -> long_only (da_weights d) -> positive_prices (da_prices d) ->
  total_weight (da_weights d) <= 1 ->
  snd (greedy_portfolio fuel d r) <> Err AssertionError.
Proof. exact greedy_no_assert. Qed.
Print Assumptions c04_no_assertion_failure.

(** C04, total correctness: if moreover every ticker has a price, the call returns *)
Theorem c04_greedy_succeeds : forall d r,
  0 < da_total d -> long_only (da_weights d) -> da_weights d <> [] ->
  all_priced (da_weights d) (da_prices d) -> positive_prices (da_prices d) ->
  total_weight (da_weights d) <= 1 -> da_int d = false ->
  exists al lo f0, forall fuel, (f0 <= fuel)%nat ->
    snd (greedy_portfolio fuel d r) = Ok (al, lo).
Proof. exact (greedy_at_total 1). Qed.
Print Assumptions c04_greedy_succeeds.

(** C04: with weights that are 1/6 rounded to five decimals the assertion does fail *)
Theorem c04_cleaned_weights_refuted : exists d,
  valid_da d /\ long_only (da_weights d) /\ positive_prices (da_prices d) /\
  all_priced (da_weights d) (da_prices d) /\
  total_weight (da_weights d) = 100002 / 100000 /\
  (forall t x, In (t, x) (da_weights d) -> x = IZR (Rrint (1/6 * 100000)) / 100000) /\
  forall fuel r, snd (greedy_portfolio fuel d r) = Err AssertionError.
Proof. exact cleaned_weights_fail. Qed.
Print Assumptions c04_cleaned_weights_refuted.

(** C04: in binary64 it fails for one asset of weight 1.0, price 141.21 and total 26547.48 *)
Theorem c04_binary64_refuted : exists price total : float,
  forall fuel r,
  snd (@greedy_portfolio float FNum fuel
         (mkDA [(LStr "A", 1%float)] [(LStr "A", price)] false total 0%float None) r)
  = Err AssertionError.
Proof. exact (ex_intro _ _ (ex_intro _ _ float1_assert)). Qed.
Print Assumptions c04_binary64_refuted.

(** C05 *)
Theorem c05_long_short_accounting : forall fuel d r d' al lo,
  valid_da d -> has_short (da_weights d) -> positive_prices (da_prices d) ->
  greedy_portfolio fuel d r = (d', Ok (al, lo)) ->
  gross_value (da_prices d) al + lo =
    da_total d * (1 + (if r then 2 else 1) * da_short_ratio d) /\
  0 <= lo /\ NoDup (map fst al) /\
  (forall t n, In (t, n) al ->
     exists w, In (t, w) (da_weights d) /\ ((0 < n)%Z /\ 0 <= w \/ (n < 0)%Z /\ w < 0)).
Proof. exact greedy_long_short. Qed.
Print Assumptions c05_long_short_accounting.

(** C06 *)
Theorem c06_empty_portfolio : forall fuel d r, da_weights d = [] ->
  snd (greedy_portfolio (A:=R) fuel d r) = Err IndexError.
Proof. exact greedy_empty. Qed.
Print Assumptions c06_empty_portfolio.

Theorem c06_only_shorts : forall fuel d r, valid_da d -> da_weights d <> [] ->
  (forall t x, In (t, x) (da_weights d) -> x < 0) ->
  snd (greedy_portfolio fuel d r) = Err IndexError.
Proof. exact greedy_all_short. Qed.
Print Assumptions c06_only_shorts.

Theorem c06_zero_longs : forall fuel d r, has_short (da_weights d) ->
  (exists t, In (t, 0) (da_weights d)) ->
  (forall t x, In (t, x) (da_weights d) -> x <= 0) ->
  snd (greedy_portfolio fuel d r) = Err ZeroDivisionError.
Proof. exact greedy_zero_longs. Qed.
Print Assumptions c06_zero_longs.

(** with a positive weight and a negative one, the call returns iff the short ratio is positive *)
Theorem c06_short_ratio_zero : forall d r,
  valid_da d -> has_short (da_weights d) -> (exists t x, In (t, x) (da_weights d) /\ 0 < x) ->
  all_priced (da_weights d) (da_prices d) -> positive_prices (da_prices d) -> da_int d = false ->
  (0 < da_short_ratio d ->
     exists al lo f0, forall fuel, (f0 <= fuel)%nat -> snd (greedy_portfolio fuel d r) = Ok (al, lo)) /\
  (da_short_ratio d = 0 ->
     exists f0, forall fuel, (f0 <= fuel)%nat -> snd (greedy_portfolio fuel d r) = Err ValueError).
Proof. exact greedy_long_short_total. Qed.
Print Assumptions c06_short_ratio_zero.

Theorem c06_integer_prices : forall d r,
  valid_da d -> long_only (da_weights d) -> da_weights d <> [] ->
  all_priced (da_weights d) (da_prices d) -> positive_prices (da_prices d) ->
  total_weight (da_weights d) <= 1 -> da_int d = true ->
  (whole_share_cost (da_weights d) (da_prices d) (da_total d) < da_total d ->
     forall fuel, (0 < fuel)%nat -> snd (greedy_portfolio fuel d r) = Err TypeError) /\
  (whole_share_cost (da_weights d) (da_prices d) (da_total d) = da_total d ->
     exists al, forall fuel, (0 < fuel)%nat -> snd (greedy_portfolio fuel d r) = Ok (al, 0)).
Proof. exact greedy_int_prices. Qed.
Print Assumptions c06_integer_prices.

(** C07 *)
Theorem c07_stopping_rule : forall fuel d r d' al lo,
  valid_da d -> long_only (da_weights d) -> positive_prices (da_prices d) ->
  (List.length (da_weights d) <= 10)%nat ->
  greedy_portfolio fuel d r = (d', Ok (al, lo)) -> al <> [] -> 0 < lo ->
  forall t w, In (t, w) (da_weights d) -> held_fraction (da_prices d) al t < w ->
    lo < price_of (da_prices d) t.
Proof. exact greedy_stopping. Qed.
Print Assumptions c07_stopping_rule.

Theorem c07_more_than_ten_assets_refuted : exists d al lo t w,
  valid_da d /\ long_only (da_weights d) /\ positive_prices (da_prices d) /\
  total_weight (da_weights d) <= 1 /\
  (forall r, snd (greedy_portfolio 5 d r) = Ok (al, lo)) /\ al <> [] /\
  In (t, w) (da_weights d) /\ held_fraction (da_prices d) al t < w /\
  price_of (da_prices d) t <= lo.
Proof. exact stopping_fails. Qed.
Print Assumptions c07_more_than_ten_assets_refuted.

(** C08: whatever the first call does (also when it raises), the second does the same *)
Theorem c08_greedy_repeatable : forall fuel d r,
  snd (greedy_portfolio (A:=R) fuel (fst (greedy_portfolio fuel d r)) r) =
  snd (greedy_portfolio fuel d r).
Proof. exact greedy_repeatable. Qed.
Print Assumptions c08_greedy_repeatable.

(** C09 *)
Theorem c09_lp_allocation : forall solver d r d' al lo,
  exact_milp solver -> valid_da d -> long_only (da_weights d) ->
  map fst (da_weights d) = map fst (da_prices d) ->
  lp_portfolio solver d r = (d', Ok (al, lo)) ->
  alloc_value (da_prices d) al + lo = da_total d /\ 0 <= lo /\ NoDup (map fst al) /\
  (forall t n, In (t, n) al -> (0 < n)%Z /\ In t (map fst (da_weights d))) /\
  (forall f : label -> Z, (forall t, In t (map fst (da_weights d)) -> (0 <= f t)%Z) ->
     shares_cost (da_weights d) (da_prices d) f <= da_total d ->
     dollar_dev (da_weights d) (da_prices d) (da_total d) (shares_in al) + lo <=
     dollar_dev (da_weights d) (da_prices d) (da_total d) f +
       (da_total d - shares_cost (da_weights d) (da_prices d) f)).
Proof. exact lp_optimal. Qed.
Print Assumptions c09_lp_allocation.

(** C10: [dm] lists its tickers in another order than its prices, [da] does not; with the same exact
    solver both give an allocation that costs more than the whole budget, [da] only after a call of
    greedy_portfolio on the same object *)
Theorem c10_label_order_refuted : exists solver dm da al lo,
  exact_milp solver /\ valid_da dm /\ valid_da da /\ long_only (da_weights dm) /\ long_only (da_weights da) /\
  Permutation (map fst (da_weights dm)) (map fst (da_prices dm)) /\
  map fst (da_weights da) = map fst (da_prices da) /\
  (forall r, snd (lp_portfolio solver dm r) = Ok (al, lo)) /\
  (forall fuel r r', snd (lp_portfolio solver (fst (greedy_portfolio fuel da r)) r') = Ok (al, lo)) /\
  0 < lo /\ da_total dm < alloc_value (da_prices dm) al /\ da_total da < alloc_value (da_prices da) al.
Proof. exact order_matters. Qed.
Print Assumptions c10_label_order_refuted.

(** C11 *)
Theorem c11_latest_prices : forall cols rows,
  Forall (fun r => List.length r = List.length cols) rows ->
  (rows = [] -> get_latest_prices (A:=R) (Some (cols, rows)) = Err IndexError) /\
  (rows <> [] -> exists vals, get_latest_prices (Some (cols, rows)) = Ok (combine cols vals) /\
     List.length vals = List.length cols /\
     forall i, (i < List.length cols)%nat ->
       match cell vals i with
       | Some x => exists before row after, rows = before ++ row :: after /\ cell row i = Some x /\
                     Forall (fun r => cell r i = None) after
       | None => Forall (fun r => cell r i = None) rows
       end).
Proof. exact latest_prices_spec. Qed.
Print Assumptions c11_latest_prices.

(** C12 *)
Theorem c12_constructor_accepts : forall w p T sr d,
  da_init (A:=R) w p T sr = Ok d <->
  exists ws b ps, w = WDict (some_dict ws) /\ p = PSeries b (some_dict ps) /\ 0 < T /\
    (forall x, sr = Some x -> 0 <= x) /\
    d = mkDA ws ps b T (match sr with Some x => x | None => short_total ws end) None.
Proof. exact da_init_accepts. Qed.
Print Assumptions c12_constructor_accepts.

Theorem c12_constructor_errors : forall w p T sr,
  (w = WNotDict -> da_init (A:=R) w p T sr = Err TypeError) /\
  (forall dw k, w = WDict dw -> In (k, None) dw -> da_init w p T sr = Err ValueError) /\
  (forall dw, w = WDict (some_dict dw) ->
     (p = PNotSeries -> da_init w p T sr = Err TypeError) /\
     (forall b s k, p = PSeries b s -> In (k, None) s -> da_init w p T sr = Err TypeError) /\
     (forall b s, p = PSeries b (some_dict s) ->
        (T <= 0 -> da_init w p T sr = Err ValueError) /\
        (0 < T -> forall x, sr = Some x -> x < 0 -> da_init w p T sr = Err ValueError))).
Proof. exact da_init_errors. Qed.
Print Assumptions c12_constructor_errors.
