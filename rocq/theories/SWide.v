(** * Specification: wider bounds (C143) *)
From Coq Require Import ZArith String List Bool Reals.
From Verif Require Import Num Py SBL MBase MConvex MEF MDown SLin SBase SConvex SPerm SDown SGrow.
Import ListNotations.
Local Open Scope R_scope.

(** the second bounds allow whatever the first allow; None stands for no bound *)
Definition looser_lo (a b : option R) : Prop := match b with None => True | Some m => match a with Some l => m <= l | None => False end end.
Definition looser_hi (a b : option R) : Prop := match b with None => True | Some m => match a with Some h => h <= m | None => False end end.
Definition looser (lb ub lb' ub' : list (option R)) : Prop := Forall2 looser_lo lb lb' /\ Forall2 looser_hi ub ub'.
(** the replacement of bounds without short positions by -1 and 1 in market neutral problems happens in both or in neither *)
Definition same_kind (mn : bool) (o1 o2 : ef) : Prop := mn = true -> no_short_allowed (e_lb o1) -> no_short_allowed (e_lb o2).

(** [d] and [d'] show best portfolios under the narrower and the wider bounds; the second is at least as good, and if
    it keeps the narrower bounds it is best under them *)
Definition loosened (ts : list label) (lb ub lb' ub' : list (option R)) (sum : R) (ok : list R -> Prop) (cost : list R -> R) (d d' : dict R) : Prop :=
  exists x x', chosen (length ts) lb ub sum ok cost x /\ shows ts x d /\ chosen (length ts) lb' ub' sum ok cost x' /\ shows ts x' d' /\
    cost x' <= cost x /\ (within lb ub x' -> chosen (length ts) lb ub sum ok cost x').
Definition loosened_ratio (ts : list label) (lb ub lb' ub' : list (option R)) (m : list R) (M : list (list R)) (rf : R) (d d' : dict R) : Prop :=
  exists x x', best_ratio (length ts) lb ub m M rf x /\ shows ts x d /\ best_ratio (length ts) lb' ub' m M rf x' /\ shows ts x' d' /\
    excess m rf x * sqrt (qform M x') <= excess m rf x' * sqrt (qform M x) /\ (within lb ub x' -> best_ratio (length ts) lb ub m M rf x').

(** two optimizers of each kind, the second made with wider bounds of any format *)
Definition ef_wider (s : list (label * R)) (cols : list label) (rows : list (list R)) (b1 b2 : bounds_arg) (v1 v2 w1 w2 : world) (o1 o2 : ef) : Prop :=
  square (length s) rows /\ ef_init (MIn (MuSeries s)) (CIn (CovFrame cols rows)) b1 v1 = (w1, Ok o1) /\
  ef_init (MIn (MuSeries s)) (CIn (CovFrame cols rows)) b2 v2 = (w2, Ok o2) /\ looser (e_lb o1) (e_ub o1) (e_lb o2) (e_ub o2).
Definition semi_wider (s : list (label * R)) (rows : list (list (option R))) (freq bench : R) (b1 b2 : bounds_arg) (v1 v2 w1 w2 : world) (o1 o2 : ef) (d1 d2 : semi) : Prop :=
  good_rows (length s) rows /\ semi_init (MIn (MuSeries s)) (RTable (length s) rows) freq bench b1 v1 = (w1, Ok (o1, d1)) /\
  semi_init (MIn (MuSeries s)) (RTable (length s) rows) freq bench b2 v2 = (w2, Ok (o2, d2)) /\ looser (e_lb o1) (e_ub o1) (e_lb o2) (e_ub o2).
Definition cvar_wider (s : list (label * R)) (rows : list (list (option R))) (beta : R) (b1 b2 : bounds_arg) (v1 v2 w1 w2 : world) (o1 o2 : ef) (d1 d2 : cvar_data) : Prop :=
  good_rows (length s) rows /\ cvar_init (MIn (MuSeries s)) (RTable (length s) rows) beta b1 v1 = (w1, Ok (o1, d1)) /\
  cvar_init (MIn (MuSeries s)) (RTable (length s) rows) beta b2 v2 = (w2, Ok (o2, d2)) /\ looser (e_lb o1) (e_ub o1) (e_lb o2) (e_ub o2).
Definition cdar_wider (s : list (label * R)) (rows : list (list (option R))) (beta : R) (b1 b2 : bounds_arg) (v1 v2 w1 w2 : world) (o1 o2 : ef) (d1 d2 : cdar_data) : Prop :=
  good_rows (length s) rows /\ cdar_init (MIn (MuSeries s)) (RTable (length s) rows) beta b1 v1 = (w1, Ok (o1, d1)) /\
  cdar_init (MIn (MuSeries s)) (RTable (length s) rows) beta b2 v2 = (w2, Ok (o2, d2)) /\ looser (e_lb o1) (e_ub o1) (e_lb o2) (e_ub o2).
