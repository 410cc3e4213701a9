(** * Property theorems: long/short portfolios and clean_weights with rounding errors (C127) *)
From Coq Require Import ZArith List Reals.
From Verif Require Import Num Py MBase MAlloc SAlloc SReport MRound SRound SRound2 PRound3 PRound4.
Import ListNotations.
Local Open Scope R_scope.

(** C127: greedy_portfolio with short positions: no debt, each asset on its own side, money conserved up to rounding errors,
    no position more than one share short of its target, up to rounding errors *)
Theorem c127_long_short : forall rnd u fuel d r d' al lo, rounding rnd -> accurate u rnd -> 0 <= u <= 1 / 4 ->
  valid_da d -> has_short (da_weights d) -> positive_prices (da_prices d) -> rnd (da_total d) = da_total d ->
  @greedy_portfolio R (RndNum rnd) fuel d r = (d', Ok (al, lo)) ->
  let SV := da_total d * da_short_ratio d in let LV := if r then da_total d + SV else da_total d in
  let n := length (da_weights d) in
  0 <= lo /\ NoDup (map fst al) /\
  (forall t k, In (t, k) al -> exists w, In (t, w) (da_weights d) /\ ((0 < k)%Z /\ 0 <= w \/ (k < 0)%Z /\ w < 0)) /\
  Rabs (gross_value (da_prices d) al + lo - (LV + SV)) <= u * (LV + SV) * (8 * INR n + 2 * gross_count al + 4) /\
  (forall t x, In (t, x) (long_side (da_weights d)) ->
     (1 - u) ^ 5 * (x * LV) < (1 + u) ^ n * ((IZR (shares_in al t) + 1) * price_of (da_prices d) t)) /\
  (forall t x, In (t, x) (short_side (da_weights d)) ->
     (1 - u) ^ 4 * (x * SV) < (1 + u) ^ n * ((1 - IZR (shares_in al t)) * price_of (da_prices d) t)).
Proof. exact greedy_long_short_rounded. Qed.
Print Assumptions c127_long_short.
(** C127: clean_weights keeps the labels, cuts small weights to exactly 0, moves the others by at most half a unit and rounding errors,
    and never changes a sign *)
Theorem c127_clean_weights : forall rnd u (b : base R) w c d, rounding rnd -> accurate u rnd -> 0 <= u <= 1 / 4 -> decimals rnd d ->
  NoDup (b_tickers b) -> b_weights b = Some w -> List.length w = List.length (b_tickers b) ->
  exists out, @clean_weights R (RndNum rnd) b c (match d with None => RdNone | Some d => RdInt d end) = (b, Ok out) /\
    map fst out = b_tickers b /\ Forall2 (cut_or_rounded u c d) w (map snd out).
Proof. exact clean_weights_rounded. Qed.
Print Assumptions c127_clean_weights.
(** C127: rounding to [d] decimals a second time changes nothing *)
Theorem c127_round_twice : forall rnd u, accurate u rnd -> 0 <= u <= 1 / 4 -> forall d x,
  (1 <= d)%Z -> rnd (IZR (10 ^ d)) = IZR (10 ^ d) -> 8 * u * (2 * Rabs (x * IZR (10 ^ d)) + 1) < 1 ->
  @np_round R (RndNum rnd) d (@np_round R (RndNum rnd) d x) = @np_round R (RndNum rnd) d x.
Proof. exact np_round_again. Qed.
Print Assumptions c127_round_twice.
