(** * Specification of hierarchical risk parity: inputs and answers of the optimizer (C42, C44, C45, C100) *)
From Coq Require Import List String Bool Reals Permutation Sorted.
From Verif Require Import Py SLin MBase MFrame MHRP SHRP.
Import ListNotations.
Local Open Scope R_scope.

(** every entry multiplied by [k] *)
Definition scale_frame (k : R) (f : frame R) : frame R := mkFrame (f_index f) (f_cols f) (map (map (fun x => k * x)) (f_rows f)).
(** positive variances, no correlation *)
Definition uncorrelated (c : label -> label -> R) (ts : list label) : Prop :=
  (forall t, In t ts -> 0 < c t t) /\ (forall t u, In t ts -> In u ts -> t <> u -> c t u = 0).
(** scipy's linkage by method [m] of [n] assets is a binary tree over all of them, whatever the distances *)
Definition linkage_valid (lk : linkage_oracle) (m : string) (n : nat) : Prop := forall dist, valid_linkage n (lk m dist).

(** a portfolio over [names]: the dictionary that is returned and the array that is stored *)
Definition long_portfolio (names : list label) (d : dict R) (b : base R) : Prop :=
  Permutation (map fst d) names /\ Sorted (fun a b => label_leb (fst a) (fst b) = true) d /\
  exists w, b_weights b = Some w /\ Forall2 (fun t v => dget t d = Some v) names w /\ total w = 1 /\ Forall (fun v => 0 < v < 1) w.

