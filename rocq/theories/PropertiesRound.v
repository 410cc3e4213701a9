(** * Property theorems: rounding errors (C118) *)
From Coq Require Import ZArith List Reals.
From Verif Require Import Num Py SLin MBase MFrame MHRP MAlloc SAlloc MRound SRound PRound1 PRound2.
Import ListNotations.
Local Open Scope R_scope.

(** C118: HRP: weights between 0 and 1 that sum to 1 up to the rounding errors of the levels of the tree *)
Theorem c118_hrp : forall rnd u cov ts w, rounding rnd -> accurate u rnd -> 0 <= u <= 1 -> NoDup ts ->
  (forall items v, incl items ts -> @cluster_var R (RndNum rnd) cov items = Ok v -> 0 <= v) ->
  @raw_hrp_allocation R (RndNum rnd) cov ts = Ok w ->
  map fst w = ts /\ Forall (fun x => 0 <= x <= 1) (map snd w) /\
  forall d, ts <> [] -> (length ts <= 2 ^ d)%nat -> Rabs (total (map snd w) - 1) <= (1 + 3 * u) ^ d - 1.
Proof. exact hrp_rounded. Qed.
Print Assumptions c118_hrp.
(** C118: in particular when no covariance is negative *)
Theorem c118_hrp_nonnegative_covariances : forall rnd u cov ts w, rounding rnd -> accurate u rnd -> 0 <= u <= 1 -> NoDup ts ->
  (forall t s x, In t ts -> In s ts -> loc cov t s = Ok x -> 0 <= x) ->
  @raw_hrp_allocation R (RndNum rnd) cov ts = Ok w ->
  map fst w = ts /\ Forall (fun x => 0 <= x <= 1) (map snd w) /\
  forall d, ts <> [] -> (length ts <= 2 ^ d)%nat -> Rabs (total (map snd w) - 1) <= (1 + 3 * u) ^ d - 1.
Proof. exact hrp_rounded_nonneg. Qed.
Print Assumptions c118_hrp_nonnegative_covariances.
(** C118: greedy_portfolio: no debt, whole shares, money conserved up to rounding errors *)
Theorem c118_greedy : forall rnd u fuel d r d' al lo, rounding rnd -> accurate u rnd -> 0 <= u <= 1 / 4 ->
  valid_da d -> long_only (da_weights d) -> positive_prices (da_prices d) -> rnd (da_total d) = da_total d ->
  @greedy_portfolio R (RndNum rnd) fuel d r = (d', Ok (al, lo)) ->
  0 <= lo <= da_total d /\
  (forall t n, In (t, n) al -> (0 < n)%Z /\ In t (map fst (da_weights d))) /\
  (forall t w p, In (t, w) (da_weights d) -> dget t (da_prices d) = Some p -> (1 - u) ^ 2 * (w * da_total d) < (IZR (shares_in al t) + 1) * p) /\
  Rabs (alloc_value (da_prices d) al + lo - da_total d) <= u * da_total d * (5 * INR (length (da_weights d)) + share_count al).
Proof. exact greedy_rounded. Qed.
Print Assumptions c118_greedy.
