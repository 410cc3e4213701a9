(** * Specification for C108: from a table of prices to whole shares *)
From Coq Require Import ZArith List Reals String.
From Verif Require Import Num Py MBase MConvex MEF MFrame MAlloc SLin SHRP SRisk SReturns SAlloc.
Import ListNotations.
Local Open Scope R_scope.

(** [n] weights, none negative, that add up to one *)
Definition invested (n : nat) (x : list R) : Prop := List.length x = n /\ Forall (fun a => 0 <= a) x /\ total x = 1.
(** variance, over the [T] periods between the prices, of the returns of the portfolio *)
Definition past_variance (T : nat) (names : list label) (p : label -> list R) (x : list R) : R :=
  let r := portfolio_series T names (fun t => simple_returns (p t)) x in sample_covariance r r.
(** weighted average of the yearly growth rates of the assets *)
Definition past_growth (names : list label) (p : label -> list R) (x : list R) : R := inner (map (fun t => growth_rate 252 (p t)) names) x.
(** every asset with its last price *)
Definition last_prices (names : list label) (p : label -> list R) : dict R := map (fun t => (t, last (p t) 0)) names.

(** the steps after the optimization, with the default arguments: clean the weights, look up the latest prices, allocate [money] *)
Definition allocated (milp : lp (A:=R) -> lp_outcome (A:=R)) (b : base R) (names : list label) (rows : list (list (option R))) (money : R)
    (al : dict Z) (leftover : R) : Prop :=
  exists cleaned latest d d', clean_weights b default_cutoff (RdInt 5) = (b, Ok cleaned) /\ get_latest_prices (Some (names, rows)) = Ok latest /\
    da_init (WDict (some_dict cleaned)) (PSeries false latest) money None = Ok d /\ lp_portfolio milp d false = (d', Ok (al, leftover)).

(** buying the shares [al] takes exactly all of [money] but the leftover, there are only whole positive numbers of the listed assets, and in dollars
    all deviations from the portfolio [x] plus the leftover add up to at most two shares of each asset and a ten-thousandth of [money] twice per asset *)
Definition tracks (names : list label) (p : label -> list R) (x : list R) (money : R) (al : dict Z) (leftover : R) : Prop :=
  alloc_value (last_prices names p) al + leftover = money /\ 0 <= leftover /\ NoDup (map fst al) /\
  (forall t n, In (t, n) al -> (0 < n)%Z /\ In t names) /\
  total (map (fun tx => Rabs (snd tx * money - IZR (shares_in al (fst tx)) * last (p (fst tx)) 0)) (combine names x)) + leftover
  <= 2 * total (map (fun t => last (p t) 0) names) + 2 * INR (List.length names) * money * (1 / 10 ^ 4 + 1 / 10 ^ 16).
