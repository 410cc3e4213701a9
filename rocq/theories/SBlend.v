(** * Specifications: averages of best portfolios (C144) *)
From Coq Require Import List Reals.
From Verif Require Import Py SBase SLin SConvex SPerm SObj SUnits SGrow.
Import ListNotations.
Local Open Scope R_scope.

(** [d] and [d'] show best portfolios of the same problem, and every portfolio between the two is best *)
Definition blended (ts : list label) (lb ub : list (option R)) (sum : R) (ok : list R -> Prop) (cost : list R -> R) (d d' : dict R) : Prop :=
  exists x x', chosen (length ts) lb ub sum ok cost x /\ shows ts x d /\ chosen (length ts) lb ub sum ok cost x' /\ shows ts x' d' /\
    cost x = cost x' /\ forall t, 0 <= t <= 1 -> chosen (length ts) lb ub sum ok cost (blend t x x').
Definition blended_ratio (ts : list label) (lb ub : list (option R)) (m : list R) (M : list (list R)) (rf : R) (d d' : dict R) : Prop :=
  exists x x', best_ratio (length ts) lb ub m M rf x /\ shows ts x d /\ best_ratio (length ts) lb ub m M rf x' /\ shows ts x' d' /\
    forall t, 0 <= t <= 1 -> best_ratio (length ts) lb ub m M rf (blend t x x').
