(** * What it means to change the views of a Black-Litterman model (C136), independent of the model *)
From Coq Require Import List Reals.
From Verif Require Import SLin.
Import ListNotations.
Local Open Scope R_scope.

(** the errors of different views are uncorrelated *)
Definition uncorrelated (k : nat) (Om : list (list R)) : Prop :=
  forall i j, (i < k)%nat -> (j < k)%nat -> i <> j -> entry Om i j = 0.
(** view [j] raised by [d], the others as they were *)
Definition raised_view (j : nat) (d : R) (Q Q' : list R) : Prop :=
  (j < length Q)%nat /\ length Q' = length Q /\ nth j Q' 0 = nth j Q 0 + d /\ forall i, i <> j -> nth i Q' 0 = nth i Q 0.
(** the part [1 - t] of one list of numbers and the part [t] of another *)
Fixpoint part_way (t : R) (x y : list R) : list R :=
  match x, y with a :: x', b :: y' => (1 - t) * a + t * b :: part_way t x' y' | _, _ => [] end.
