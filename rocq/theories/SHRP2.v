(** * Specification of what hierarchical risk parity clusters (C100), independent of the model's helpers *)
From Coq Require Import List Reals.
From Verif Require Import Py SLin SHRP.
Import ListNotations.
Local Open Scope R_scope.

(** correlation of two series, and of two assets in a covariance matrix *)
Definition correlation_of (c : label -> label -> R) (t u : label) : R := c t u / (sqrt (c t t) * sqrt (c u u)).
(** Lopez de Prado's distance sqrt((1 - rho) / 2), the argument kept within [0, 1] *)
Definition correlation_distance (r : R) : R := sqrt (Rmax 0 (Rmin 1 ((1 - r) / 2))).
(** the distances between any two assets, in the order (1,2), (1,3), ..., (2,3), ... *)
Fixpoint pair_distances (g : label -> label -> R) (names : list label) : list R :=
  match names with [] => [] | t :: ts => map (g t) ts ++ pair_distances g ts end.

(** the members of cluster number [i] of a linkage matrix of n observations, those of the first cluster of a merger
    before those of the second *)
Inductive gathered (n : nat) (link : list (nat * nat * nat)) : nat -> list nat -> Prop :=
| gathered_one : forall i, (i < n)%nat -> gathered n link i [i]
| gathered_two : forall k a b s la lb, nth_error link k = Some (a, b, s) -> gathered n link a la -> gathered n link b lb ->
    gathered n link (n + k) (la ++ lb).
