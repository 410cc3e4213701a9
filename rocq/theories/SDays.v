(** * Specification: the same table of returns in another order, in another unit (C130) *)
From Coq Require Import List Reals Permutation.
From Verif Require Import Py MBase MConvex MEF MDown SLin SBase SConvex SPerm SUnits SDown.
Import ListNotations.
Local Open Scope R_scope.

(** one day with its columns in the order [p] and its returns multiplied by [a] (per cent: a = 100) *)
Definition day_restated (p : list nat) (a : R) (row : list (option R)) : list (option R) := map (option_map (Rmult a)) (pick None p row).
(** the table with its columns in the order [p], its rows in any order, and its returns multiplied by [a] *)
Definition restated (p : list nat) (a : R) (rows rows' : list (list (option R))) : Prop :=
  exists days, Permutation rows days /\ rows' = map (day_restated p a) days.
(** the same with the rows left in their order *)
Definition restated_in_order (p : list nat) (a : R) (rows rows' : list (list (option R))) : Prop := rows' = map (day_restated p a) rows.
(** the expected returns in the order [p], multiplied by [c] *)
Definition mu_restated (p : list nat) (c : R) (s : list (label * R)) : list (label * R) := mu_times c (mu_reordered p s).

(** two optimizers of each kind made from the same data stated in two ways *)
Definition semi_twins (p : list nat) (a c : R) (s : list (label * R)) (rows rows' : list (list (option R))) (freq bench : R) (b b' : bounds_arg)
    (v1 v2 w1 w2 : world) (o1 o2 : ef) (d1 d2 : semi) : Prop :=
  0 < a /\ 0 < c /\ ordering (length s) p /\ bounds_reordered (length s) p b b' /\ good_rows (length s) rows /\ restated p a rows rows' /\
  semi_init (MIn (MuSeries s)) (RTable (length s) rows) freq bench b v1 = (w1, Ok (o1, d1)) /\
  semi_init (MIn (MuSeries (mu_restated p c s))) (RTable (length s) rows') freq (a * bench) b' v2 = (w2, Ok (o2, d2)).
Definition cvar_twins (p : list nat) (a c : R) (s : list (label * R)) (rows rows' : list (list (option R))) (beta : R) (b b' : bounds_arg)
    (v1 v2 w1 w2 : world) (o1 o2 : ef) (d1 d2 : cvar_data) : Prop :=
  0 < a /\ 0 < c /\ ordering (length s) p /\ bounds_reordered (length s) p b b' /\ good_rows (length s) rows /\ restated p a rows rows' /\
  cvar_init (MIn (MuSeries s)) (RTable (length s) rows) beta b v1 = (w1, Ok (o1, d1)) /\
  cvar_init (MIn (MuSeries (mu_restated p c s))) (RTable (length s) rows') beta b' v2 = (w2, Ok (o2, d2)).
Definition cdar_twins (p : list nat) (a c : R) (s : list (label * R)) (rows rows' : list (list (option R))) (beta : R) (b b' : bounds_arg)
    (v1 v2 w1 w2 : world) (o1 o2 : ef) (d1 d2 : cdar_data) : Prop :=
  0 < a /\ 0 < c /\ ordering (length s) p /\ bounds_reordered (length s) p b b' /\ good_rows (length s) rows /\ restated_in_order p a rows rows' /\
  cdar_init (MIn (MuSeries s)) (RTable (length s) rows) beta b v1 = (w1, Ok (o1, d1)) /\
  cdar_init (MIn (MuSeries (mu_restated p c s))) (RTable (length s) rows') beta b' v2 = (w2, Ok (o2, d2)).
