(** * Specifications: bounds that do not bind (C145) *)
From Coq Require Import List Reals.
From Verif Require Import Py SBase SLin SConvex SPerm SUnits SGrow.
Import ListNotations.
Local Open Scope R_scope.

(** of the bounds [a] and [b] of one asset either both are the same or the weight [x] does not reach [a] *)
Definition free_lo (a b : option R) (x : R) : Prop := a = b \/ match a with Some l => l < x | None => True end.
Definition free_hi (a b : option R) (x : R) : Prop := a = b \/ match a with Some h => x < h | None => True end.
Fixpoint all_free (P : option R -> option R -> R -> Prop) (l l' : list (option R)) (x : list R) : Prop :=
  match l, l', x with a :: l, b :: l', c :: x => P a b c /\ all_free P l l' x | [], [], [] => True | _, _, _ => False end.
(** no bound that differs between the two is reached by [x] *)
Definition slack (lb ub lb' ub' : list (option R)) (x : list R) : Prop := all_free free_lo lb lb' x /\ all_free free_hi ub ub' x.

(** the two dictionaries show best portfolios under two bounds; if the first reaches none of the bounds that differ,
    it is best under the second bounds too, and the two are equally good *)
Definition unbound (ts : list label) (lb ub lb' ub' : list (option R)) (sum : R) (ok : list R -> Prop) (cost : list R -> R) (d d' : dict R) : Prop :=
  exists x x', chosen (length ts) lb ub sum ok cost x /\ shows ts x d /\ chosen (length ts) lb' ub' sum ok cost x' /\ shows ts x' d' /\
    (slack lb ub lb' ub' x -> chosen (length ts) lb' ub' sum ok cost x /\ cost x = cost x').
Definition unbound_ratio (ts : list label) (lb ub lb' ub' : list (option R)) (m : list R) (M : list (list R)) (rf : R) (d d' : dict R) : Prop :=
  exists x x', best_ratio (length ts) lb ub m M rf x /\ shows ts x d /\ best_ratio (length ts) lb' ub' m M rf x' /\ shows ts x' d' /\
    (slack lb ub lb' ub' x -> best_ratio (length ts) lb' ub' m M rf x).
