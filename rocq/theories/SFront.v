(** * Specification: a sampled frontier *)
From Coq Require Import List Reals.
Import ListNotations.
Local Open Scope R_scope.

(** numbers that do not increase along the list *)
Definition nonincreasing (l : list R) : Prop :=
  forall i j x y, (i <= j)%nat -> nth_error l i = Some x -> nth_error l j = Some y -> y <= x.
