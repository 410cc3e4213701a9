(** * Rounded arithmetic *)
From Coq Require Import ZArith Reals.
From Verif Require Import Num.
Local Open Scope R_scope.

(** Every operation is the exact one followed by the rounding [rnd]; comparisons, negation and [int()] are exact.  This is
    the float64 arithmetic in which discrete_allocation.py 190-253 and hierarchical_portfolio.py 77-140 run.
    Simplification: no overflow, no infinity, no NaN. *)
Definition RndNum (rnd : R -> R) : Num R := {|
  n0 := 0; n1 := 1;
  nadd := fun x y => rnd (x + y); nsub := fun x y => rnd (x - y);
  nmul := fun x y => rnd (x * y); ndiv := fun x y => rnd (x / y); nopp := Ropp;
  nltb := Rltb; nleb := Rleb; neqb := Reqb;
  nofZ := fun z => rnd (IZR z); ntrunc := Rtrunc; nrint := Rrint |}.
