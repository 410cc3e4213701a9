(** * Specification: the same amount added to every return in the table (C140) *)
From Coq Require Import ZArith String List Bool Reals.
From Verif Require Import Num Py SBL MBase MConvex MEF MDown SLin SBase SConvex SPerm SDown SShift.
Import ListNotations.
Local Open Scope R_scope.

(** the table of returns with [c] added to every entry that is there *)
Definition rows_plus (c : R) (rows : list (list (option R))) : list (list (option R)) := map (map (option_map (fun r => r + c))) rows.
(** two optimizers of each kind, the second made with [c] added to every daily return and to the benchmark, and [e] to every
    expected return *)
Definition semi_level (c e : R) (s : list (label * R)) (rows : list (list (option R))) (freq bench : R) (b : bounds_arg)
    (v1 v2 w1 w2 : world) (o1 o2 : ef) (d1 d2 : semi) : Prop :=
  good_rows (length s) rows /\
  semi_init (MIn (MuSeries s)) (RTable (length s) rows) freq bench b v1 = (w1, Ok (o1, d1)) /\
  semi_init (MIn (MuSeries (mu_plus e s))) (RTable (length s) (rows_plus c rows)) freq (bench + c) b v2 = (w2, Ok (o2, d2)).
Definition cvar_level_pair (c e : R) (s : list (label * R)) (rows : list (list (option R))) (beta : R) (b : bounds_arg)
    (v1 v2 w1 w2 : world) (o1 o2 : ef) (d1 d2 : cvar_data) : Prop :=
  good_rows (length s) rows /\
  cvar_init (MIn (MuSeries s)) (RTable (length s) rows) beta b v1 = (w1, Ok (o1, d1)) /\
  cvar_init (MIn (MuSeries (mu_plus e s))) (RTable (length s) (rows_plus c rows)) beta b v2 = (w2, Ok (o2, d2)).
Definition cdar_level_pair (c e : R) (s : list (label * R)) (rows : list (list (option R))) (beta : R) (b : bounds_arg)
    (v1 v2 w1 w2 : world) (o1 o2 : ef) (d1 d2 : cdar_data) : Prop :=
  good_rows (length s) rows /\
  cdar_init (MIn (MuSeries s)) (RTable (length s) rows) beta b v1 = (w1, Ok (o1, d1)) /\
  cdar_init (MIn (MuSeries (mu_plus e s))) (RTable (length s) (rows_plus c rows)) beta b v2 = (w2, Ok (o2, d2)).
(** the weights of a portfolio sum to one, those of a market neutral one to zero *)
Definition sum_of (mn : bool) : R := if mn then 0 else 1.
