(** * Specification of weight cleaning and file names (C13-C17) *)
From Coq Require Import ZArith List String Ascii Reals.
From Verif Require Import Py MBase.
Import ListNotations.
Local Open Scope R_scope.

(** [y] is [x] rounded to [d] decimals, ties to even *)
Definition rounded (d : Z) (x y : R) : Prop :=
  exists k, y * IZR (10 ^ d) = IZR k /\ 2 * Rabs (x * IZR (10 ^ d) - IZR k) <= 1 /\
    (2 * Rabs (x * IZR (10 ^ d) - IZR k) = 1 -> Z.Even k).

(** half a unit of the last decimal *)
Definition half_unit (d : Z) : R := 1 / 2 / IZR (10 ^ d).

(** [c] is on the grid of multiples of 10^-d *)
Definition on_grid (d : Z) (c : R) : Prop := exists k, c * IZR (10 ^ d) = IZR k.

(** no dot occurs in the string *)
Fixpoint dotless (s : string) : Prop :=
  match s with EmptyString => True | String c s' => c <> "."%char /\ dotless s' end.

(** [a] is the same text as the lower case text [b], up to ASCII case *)
Fixpoint same_text (a b : string) : Prop :=
  match a, b with
  | EmptyString, EmptyString => True
  | String c a', String c' b' =>
      (c = c' \/ nat_of_ascii c' = (nat_of_ascii c + 32)%nat /\
                 (65 <= nat_of_ascii c <= 90)%nat) /\ same_text a' b'
  | _, _ => False
  end.

(** the file name has extension [ext] (case-insensitive): what follows the last dot, or the whole
    name if there is no dot *)
Definition has_ext (name ext : string) : Prop :=
  exists e, dotless e /\ same_text e ext /\ (name = e \/ exists stem, name = (stem ++ "." ++ e)%string).

(** [y] is [x] cleaned with cutoff [c]: zero below the cutoff, otherwise rounded as asked *)
Definition clean_rel (c : R) (r : rounding_arg) (x y : R) : Prop :=
  (Rabs x < c -> y = 0) /\
  (c <= Rabs x -> match r with RdInt d => rounded d x y | _ => y = x end).

(** how far cleaning may move one weight *)
Definition move_bound (c : R) (r : rounding_arg) : R :=
  match r with RdInt d => Rmax c (half_unit d) | _ => Rmax c 0 end.

(** no file other than [name] was touched *)
Definition other_files (fs fs' : filesystem R) (name : string) : Prop :=
  forall n, n <> name -> fs' n = fs n.
