(** * Specification for C127: accounts in rounded arithmetic *)
From Coq Require Import ZArith List Reals.
From Verif Require Import Py SAlloc.
Import ListNotations.
Local Open Scope R_scope.

(** number of shares of an allocation, held or owed *)
Definition gross_count (al : dict Z) : R := fold_right (fun tn s => IZR (Z.abs (snd tn)) + s) 0 al.

(** a weight is cut to 0 below the cutoff; otherwise it stays, or becomes a multiple of 1/10^d next to it, up to rounding errors *)
Definition cut_or_rounded (u c : R) (d : option Z) (x y : R) : Prop :=
  (Rabs x < c -> y = 0) /\
  (c <= Rabs x -> match d with
    | None => y = x
    | Some d => exists m : Z, Rabs (IZR m - x * IZR (10 ^ d)) <= 1 / 2 + u * Rabs (x * IZR (10 ^ d)) /\
        Rabs (y - IZR m / IZR (10 ^ d)) <= (2 * u + u * u) * Rabs (IZR m / IZR (10 ^ d))
    end) /\
  (0 <= x -> 0 <= y) /\ (x <= 0 -> y <= 0).
(** how the rounding argument is given: nothing, or a positive number of decimals whose power of ten is a number of the format *)
Definition decimals (rnd : R -> R) (d : option Z) : Prop :=
  match d with None => True | Some d => (1 <= d)%Z /\ rnd (IZR (10 ^ d)) = IZR (10 ^ d) end.
