(** * Specification of hierarchical risk parity (C42-C46), independent of the model's helpers *)
From Coq Require Import ZArith List Bool Reals.
From Verif Require Import Py SLin MFrame.
Import ListNotations.
Local Open Scope R_scope.

(** a covariance matrix labelled with [names] on both sides, with entries [c t u] *)
Definition labelled (names : list label) (c : label -> label -> R) : frame R :=
  mkFrame names names (map (fun t => map (c t) names) names).

(** variance of the portfolio [x] over the assets [ts] *)
Definition variance (c : label -> label -> R) (ts : list label) (x : label -> R) : R :=
  total (map (fun t => total (map (fun u => x t * c t u * x u) ts)) ts).

(** inverse variance weights within [ts], and the variance of that portfolio *)
Definition inverse_variance (c : label -> label -> R) (ts : list label) (t : label) : R :=
  (1 / c t t) / total (map (fun u => 1 / c u u) ts).
Definition cluster_variance (c : label -> label -> R) (ts : list label) : R :=
  variance c ts (inverse_variance c ts).

(** every non-empty sub-portfolio with positive weights has positive variance *)
Definition positive_risk (c : label -> label -> R) (ts : list label) : Prop :=
  forall sub x, sub <> [] -> NoDup sub -> incl sub ts -> (forall t, In t sub -> 0 < x t) -> 0 < variance c sub x.

(** what the first half of a bisection gets: the variance share of the other half *)
Definition first_share (c : label -> label -> R) (l1 l2 : list label) : R :=
  cluster_variance c l2 / (cluster_variance c l1 + cluster_variance c l2).

(** [bisected share acc l d]: [d] gives each asset of [l] the amount [acc] times the product of the
    shares of the halves it falls into when [l] is cut in the middle again and again *)
Inductive bisected (share : list label -> list label -> R) : R -> list label -> list (label * R) -> Prop :=
| bis_leaf : forall acc l, (length l <= 1)%nat -> bisected share acc l (map (fun t => (t, acc)) l)
| bis_node : forall acc l1 l2 d1 d2, (1 < length (l1 ++ l2))%nat -> length l1 = (length (l1 ++ l2) / 2)%nat ->
    bisected share (acc * share l1 l2) l1 d1 -> bisected share (acc * (1 - share l1 l2)) l2 d2 ->
    bisected share acc (l1 ++ l2) (d1 ++ d2).

(** a valid linkage matrix of n observations (scipy): n - 1 rows; row i merges two clusters with numbers
    below n + i; no cluster is merged twice; the last column is the number of observations below *)
Fixpoint link_sizes (sizes : list nat) (link : list (nat * nat * nat)) : Prop :=
  match link with
  | [] => True
  | (a, b, s) :: link' =>
      exists sa sb, nth_error sizes a = Some sa /\ nth_error sizes b = Some sb /\ s = (sa + sb)%nat /\
        link_sizes (sizes ++ [s]) link'
  end.
Definition valid_linkage (n : nat) (link : list (nat * nat * nat)) : Prop :=
  (2 <= n)%nat /\ length link = (n - 1)%nat /\ link_sizes (repeat 1%nat n) link /\
  NoDup (flat_map (fun r => [fst (fst r); snd (fst r)]) link).

(** a complete table of returns: [x t] lists the returns of asset [t] over T periods *)
Definition history (T : nat) (dates names : list label) (x : label -> list R) : frame (option R) :=
  mkFrame dates names (map (fun k => map (fun t => Some (nth k (x t) 0)) names) (seq 0 T)).
Definition average (l : list R) : R := total l / INR (length l).
Definition sample_covariance (x y : list R) : R :=
  total (map (fun k => (nth k x 0 - average x) * (nth k y 0 - average y)) (seq 0 (length x))) / (INR (length x) - 1).
