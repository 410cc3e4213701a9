(** * Specification: an asset listed twice (C141) *)
From Coq Require Import ZArith String List Bool Reals.
From Verif Require Import Num Py SBL MBase MConvex MEF MDown SLin SBase SConvex SPerm SDown.
Import ListNotations.
Local Open Scope R_scope.

(** asset [i] listed a second time, in front and under the label [t] *)
Definition mu_clone (t : label) (i : nat) (s : list (label * R)) : list (label * R) := (t, nth i (map snd s) 0) :: s.
Definition cov_clone (i : nat) (rows : list (list R)) : list (list R) :=
  let wide := map (fun row => nth i row 0 :: row) rows in nth i wide [] :: wide.
Definition rows_clone (i : nat) (rows : list (list (option R))) : list (list (option R)) := map (fun row => nth i row None :: row) rows.
(** the weights with that of the second listing, the first entry, added to that of asset [i] *)
Fixpoint add_at (i : nat) (a : R) (x : list R) : list R :=
  match x, i with
  | [], _ => []
  | y :: x', O => (y + a) :: x'
  | y :: x', S i' => y :: add_at i' a x'
  end.
Definition merge (i : nat) (x : list R) : list R := match x with [] => [] | a :: x' => add_at i a x' end.

(** weights from 0 to 1, the default bounds *)
Definition longs : bounds_arg := BPair (Some 0) (Some 1).
Definition zeros_to (n : nat) : list (option R) := repeat (Some 0) n.
Definition ones_to (n : nat) : list (option R) := repeat (Some 1) n.
(** [d] gives each of the labels [ts] its weight, rounded to 16 decimals, in a portfolio of weights from 0 to 1 that after merging is [best] *)
Definition merged_answers (ts : list label) (i : nat) (best : list R -> Prop) (d : dict R) : Prop :=
  exists x r, length x = length ts /\ Forall (fun a => 0 <= a <= 1) x /\ best (merge i x) /\ Forall2 (rounded 16) x r /\ forall t, dget t d = dget t (combine ts r).

(** two optimizers of each kind, with long-only bounds, the second made with asset [i] listed twice *)
Definition ef_clones (t : label) (i : nat) (s : list (label * R)) (cols cols' : list label) (rows : list (list R)) (v1 v2 w1 w2 : world) (o1 o2 : ef) : Prop :=
  (i < length s)%nat /\ square (length s) rows /\
  ef_init (MIn (MuSeries s)) (CIn (CovFrame cols rows)) longs v1 = (w1, Ok o1) /\
  ef_init (MIn (MuSeries (mu_clone t i s))) (CIn (CovFrame cols' (cov_clone i rows))) longs v2 = (w2, Ok o2).
Definition semi_clones (t : label) (i : nat) (s : list (label * R)) (rows : list (list (option R))) (freq bench : R) (v1 v2 w1 w2 : world) (o1 o2 : ef) (d1 d2 : semi) : Prop :=
  (i < length s)%nat /\ good_rows (length s) rows /\
  semi_init (MIn (MuSeries s)) (RTable (length s) rows) freq bench longs v1 = (w1, Ok (o1, d1)) /\
  semi_init (MIn (MuSeries (mu_clone t i s))) (RTable (S (length s)) (rows_clone i rows)) freq bench longs v2 = (w2, Ok (o2, d2)).
Definition cvar_clones (t : label) (i : nat) (s : list (label * R)) (rows : list (list (option R))) (beta : R) (v1 v2 w1 w2 : world) (o1 o2 : ef) (d1 d2 : cvar_data) : Prop :=
  (i < length s)%nat /\ good_rows (length s) rows /\
  cvar_init (MIn (MuSeries s)) (RTable (length s) rows) beta longs v1 = (w1, Ok (o1, d1)) /\
  cvar_init (MIn (MuSeries (mu_clone t i s))) (RTable (S (length s)) (rows_clone i rows)) beta longs v2 = (w2, Ok (o2, d2)).
Definition cdar_clones (t : label) (i : nat) (s : list (label * R)) (rows : list (list (option R))) (beta : R) (v1 v2 w1 w2 : world) (o1 o2 : ef) (d1 d2 : cdar_data) : Prop :=
  (i < length s)%nat /\ good_rows (length s) rows /\
  cdar_init (MIn (MuSeries s)) (RTable (length s) rows) beta longs v1 = (w1, Ok (o1, d1)) /\
  cdar_init (MIn (MuSeries (mu_clone t i s))) (RTable (S (length s)) (rows_clone i rows)) beta longs v2 = (w2, Ok (o2, d2)).
