(** * Specification for C118: what a rounding is *)
From Coq Require Import ZArith List Reals.
From Verif Require Import Py SAlloc.
Import ListNotations.
Local Open Scope R_scope.

(** larger numbers are not rounded to smaller ones, a rounded number stays as it is, and 0 and 1 are numbers of the format *)
Definition rounding (rnd : R -> R) : Prop :=
  (forall x y, x <= y -> rnd x <= rnd y) /\ (forall x, rnd (rnd x) = rnd x) /\ rnd 0 = 0 /\ rnd 1 = 1.
(** the relative error of a rounding is at most [u] *)
Definition accurate (u : R) (rnd : R -> R) : Prop := forall x, Rabs (rnd x - x) <= u * Rabs x.

(** number of shares of an allocation *)
Definition share_count (al : dict Z) : R := fold_right (fun tn s => IZR (snd tn) + s) 0 al.
