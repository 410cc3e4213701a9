(** * Specifications for the line search of CLA.max_sharpe *)
From Coq Require Import List Reals.
From Verif Require Import Num Py SLin SCLA.
Import ListNotations.
Local Open Scope R_scope.

(** on the interval from [a] to [b] the function [h] has no valley and no plateau below its top: between two
    points it is at least the smaller of the two values, and more than that when the values differ *)
Definition peaked (a b : R) (h : R -> R) : Prop :=
  forall x z y, a <= x -> x < z -> z < y -> y <= b -> Rmin (h x) (h y) <= h z /\ (h x <> h y -> Rmin (h x) (h y) < h z).
(** [x] is the best point of the interval up to the accuracy [acc]: there is an interval around it no longer than
    [acc] outside of which no point is better *)
Definition best_within (acc a b : R) (h : R -> R) (x : R) : Prop :=
  exists l u, a <= l /\ l <= x /\ x <= u /\ u <= b /\ u - l <= acc /\ forall y, a <= y <= b -> y < l \/ u < y -> h y <= h x.
(** expected return over volatility *)
Definition ratio (mean : list R) (cov : list (list R)) (w : list R) : R := inner w mean / sqrt (qform cov w).
(** the accuracy shown for the search *)
Definition acc8 : R := 2 / 100000000.
(** between the portfolios [p] and [q] the Sharpe ratio has a single peak: no expected return is negative, or [q]
    has the smaller expected return and no portfolio in between has a smaller variance than [q] *)
Definition rising (mean : list R) (cov : list (list R)) (p q : list R) : Prop :=
  (0 <= inner p mean /\ 0 <= inner q mean) \/
  (inner q mean <= inner p mean /\ forall t, 0 <= t <= 1 -> qform cov q <= qform cov (blend t p q)).
(** no turning point between two kept ones was discarded: the free assets stay free, and the others keep their weights *)
From Verif Require Import MBase MCLA.
Definition unbroken (l : list (tp R)) : Prop :=
  forall p q, consecutive p q l ->
  match t_l p with None => t_w q = t_w p | Some _ => incl (t_f p) (t_f q) /\ agrees_off (t_f p) (t_w q) (t_w p) end.
(** no weight of [u] and [v] differs by more than the accuracy times the width of the interval allowed for it *)
Definition nearly_same (lb ub u v : list R) : Prop :=
  length u = length v /\ forall i, Rabs (nth i u 0 - nth i v 0) <= acc8 * (nth i ub 0 - nth i lb 0).
