(** * Specification: the same amount added to all expected returns (C138) *)
From Coq Require Import ZArith String List Bool Reals.
From Verif Require Import Num Py SBL MBase MConvex MEF SLin SBase SConvex SPerm.
Import ListNotations.
Local Open Scope R_scope.

(** expected returns with [c] added to each *)
Definition mu_plus (c : R) (s : list (label * R)) : list (label * R) := map (fun tv => (fst tv, snd tv + c)) s.
(** two optimizers made from the same data but for the level of the expected returns *)
Definition shifted (c : R) (s : list (label * R)) (cols : list label) (rows : list (list R)) (b : bounds_arg)
    (v1 v2 w1 w2 : world) (o1 o2 : ef) : Prop :=
  square (List.length s) rows /\
  ef_init (MIn (MuSeries s)) (CIn (CovFrame cols rows)) b v1 = (w1, Ok o1) /\
  ef_init (MIn (MuSeries (mu_plus c s))) (CIn (CovFrame cols rows)) b v2 = (w2, Ok o2).
(** the target that asks for as much: a market neutral portfolio has no share in the common amount *)
Definition target_plus (c t : R) (mn : bool) : R := if mn then t else t + c.
