(** * Specification: rows of a table without missing values *)
From Coq Require Import List Reals.
Import ListNotations.

(** [xs] are, in order, the rows of the table in which nothing is missing *)
Inductive complete_rows : list (list (option R)) -> list (list R) -> Prop :=
| cr_nil : complete_rows [] []
| cr_keep : forall x rows xs, complete_rows rows xs -> complete_rows (map Some x :: rows) (x :: xs)
| cr_drop : forall row rows xs, In None row -> complete_rows rows xs -> complete_rows (row :: rows) xs.
