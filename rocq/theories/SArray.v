(** * Specification for data that are not DataFrames (C111, C112), independent of the model's helpers *)
From Coq Require Import ZArith List Reals.
From Verif Require Import Py MFrame MReturns.
Import ListNotations.
Local Open Scope R_scope.

(** two tables with the same numbers, whatever their labels are *)
Definition same_table (f g : frame (option R)) : Prop :=
  f_rows f = f_rows g /\ length (f_cols f) = length (f_cols g) /\
  length (f_index f) = length (f_rows f) /\ length (f_index g) = length (f_rows g).
(** the labels 0, ..., n - 1 *)
Definition counted (n : nat) (ls : list label) : Prop :=
  length ls = n /\ forall i, (i < n)%nat -> nth_error ls i = Some (LInt (Z.of_nat i)).

(** the same estimates for assets called [c] and for assets called [c'], or the same exception *)
Definition same_estimates (c c' : list label) (r r' : res (bool * series)) : Prop :=
  match r, r' with
  | Ok (b, s), Ok (b', s') => b = b' /\ map snd s = map snd s' /\ map fst s = c /\ map fst s' = c'
  | Err e, Err e' => e = e'
  | _, _ => False
  end.
(** the same matrix, labelled by [c] and by [c'], or the same exception *)
Definition same_matrix (c c' : list label) (r r' : res (frame R)) : Prop :=
  match r, r' with
  | Ok m, Ok m' => f_rows m = f_rows m' /\ f_index m = c /\ f_cols m = c /\ f_index m' = c' /\ f_cols m' = c'
  | Err e, Err e' => e = e'
  | _, _ => False
  end.
(** the same with a shrinkage intensity *)
Definition same_shrunk (c c' : list label) (r r' : res (frame R * R)) : Prop :=
  match r, r' with
  | Ok (m, d), Ok (m', d') => same_matrix c c' (Ok m) (Ok m') /\ d = d'
  | Err e, Err e' => e = e'
  | _, _ => False
  end.
(** rows number i of the first and number j of the second index belong together in one pair of indices if and only if they do so in the other *)
Definition aligned_alike (ix jx ix' jx' : list label) : Prop :=
  forall i j a b a' b', nth_error ix i = Some a -> nth_error jx j = Some b -> nth_error ix' i = Some a' -> nth_error jx' j = Some b' ->
    (a = b <-> a' = b').
(** no label in common *)
Definition disjoint_labels (ix jx : list label) : Prop := forall l, In l ix -> ~ In l jx.
(** all rows have one entry for each column *)
Definition rectangular (f : frame (option R)) : Prop := Forall (fun r => length r = length (f_cols f)) (f_rows f).
(** an array with [n] columns and a table hold the same numbers *)
Definition holds (n : nat) (rows : list (list (option R))) (f : frame (option R)) : Prop :=
  f_rows f = rows /\ length (f_cols f) = n /\ length (f_index f) = length rows.
(** prices and market are dated by the same calendar, from its first day on *)
Definition same_calendar (days ix jx : list label) : Prop :=
  NoDup days /\ (exists k, ix = firstn k days) /\ (exists k, jx = firstn k days).
