(** * Specification vocabulary for C131: the same days in another order

    A table of returns has one row per day.  Two tables hold the same days in another order if they have the
    same columns and the same pairs of a date and a row, each as often as in the other. *)
From Coq Require Import List Reals Permutation.
From Verif Require Import Num Py MFrame MReturns.
Import ListNotations.

Definition days {X} (f : frame X) : list (label * list X) := combine (f_index f) (f_rows f).

Record same_days {X} (f g : frame X) : Prop := {
  sd_cols : f_cols f = f_cols g;
  sd_dates : List.length (f_index f) = List.length (f_rows f);
  sd_dates' : List.length (f_index g) = List.length (f_rows g);
  sd_days : Permutation (days f) (days g) }.

(** both give the same estimates or both raise the same exception; the flag in front of the estimates says
    whether a warning about gaps was given *)
Definition same_estimates {W X} (r r' : res (W * X)) : Prop :=
  match r, r' with
  | Ok a, Ok b => snd a = snd b
  | Err e, Err e' => e = e'
  | _, _ => False
  end.

(** no entry is missing *)
Definition no_gaps {X} (f : frame (option X)) : Prop :=
  Forall (fun row => Forall (fun x => x <> None) row) (f_rows f).
