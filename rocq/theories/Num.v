(** * Numeric interface of the model

    The Python code computes with IEEE binary64 floats (and Python ints).  The model is written
    once over this record of operations and instantiated with
      - [RNum]  Coq reals: exact arithmetic, used by the theorems;
      - [QNum]  rationals: exact arithmetic and executable, used for examples and witnesses;
      - [FNum]  binary64 primitive floats: executable machine arithmetic. *)
From Coq Require Import ZArith QArith Qround Qreduction Reals Lra Lia Bool.
From Coq Require Import Floats Uint63 SpecFloat.

Class Num (A : Type) := {
  n0 : A;
  n1 : A;
  nadd : A -> A -> A;
  nsub : A -> A -> A;
  nmul : A -> A -> A;
  ndiv : A -> A -> A;
  nopp : A -> A;
  nltb : A -> A -> bool;
  nleb : A -> A -> bool;
  neqb : A -> A -> bool;
  nofZ : Z -> A;
  (** Python [int(x)]: truncation towards zero *)
  ntrunc : A -> Z;
  (** numpy [rint(x)]: nearest integer, ties to even *)
  nrint : A -> Z
}.

Declare Scope num_scope.
Delimit Scope num_scope with num.
Infix "+" := nadd : num_scope.
Infix "-" := nsub : num_scope.
Infix "*" := nmul : num_scope.
Infix "/" := ndiv : num_scope.
Notation "- x" := (nopp x) : num_scope.
Infix "<?" := nltb : num_scope.
Infix "<=?" := nleb : num_scope.
Infix "=?" := neqb : num_scope.

(** ** Reals *)
Definition Rltb (x y : R) : bool := if Rlt_dec x y then true else false.
Definition Rleb (x y : R) : bool := if Rle_dec x y then true else false.
Definition Reqb (x y : R) : bool := if Req_EM_T x y then true else false.
Definition Rtrunc (x : R) : Z := if Rle_dec 0 x then Int_part x else (- Int_part (- x))%Z.
Definition Rrint (x : R) : Z :=
  let f := Int_part x in
  let d := (x - IZR f)%R in
  if Rlt_dec d (1/2) then f
  else if Rlt_dec (1/2) d then (f + 1)%Z
  else if Z.even f then f else (f + 1)%Z.

#[export] Instance RNum : Num R := {
  n0 := 0%R; n1 := 1%R;
  nadd := Rplus; nsub := Rminus; nmul := Rmult; ndiv := Rdiv; nopp := Ropp;
  nltb := Rltb; nleb := Rleb; neqb := Reqb;
  nofZ := IZR; ntrunc := Rtrunc; nrint := Rrint }.

(** ** Rationals, kept in lowest terms *)
Definition Qltb (x y : Q) : bool := match Qcompare x y with Lt => true | _ => false end.
Definition Qleb (x y : Q) : bool := match Qcompare x y with Gt => false | _ => true end.
Definition Qeqb (x y : Q) : bool := match Qcompare x y with Eq => true | _ => false end.
Definition Qtrunc (x : Q) : Z := Z.quot (Qnum x) (Zpos (Qden x)).
Definition Qrint (x : Q) : Z :=
  let f := Qfloor x in
  let d := Qred (x - inject_Z f) in
  match Qcompare d (1#2) with
  | Lt => f
  | Gt => (f + 1)%Z
  | Eq => if Z.even f then f else (f + 1)%Z
  end.

Definition QNum : Num Q := {|
  n0 := 0%Q; n1 := 1%Q;
  nadd := fun x y => Qred (x + y); nsub := fun x y => Qred (x - y);
  nmul := fun x y => Qred (x * y); ndiv := fun x y => Qred (x / y);
  nopp := fun x => Qred (- x);
  nltb := Qltb; nleb := Qleb; neqb := Qeqb;
  nofZ := inject_Z; ntrunc := Qtrunc; nrint := Qrint |}.

(** ** binary64 *)
Definition FofZ (z : Z) : float :=
  match z with
  | Z0 => 0%float
  | Zpos _ => PrimFloat.of_uint63 (Uint63.of_Z z)
  | Zneg p => PrimFloat.opp (PrimFloat.of_uint63 (Uint63.of_Z (Zpos p)))
  end.
(** only called on finite arguments; 0 on infinities and NaN *)
Definition Ftrunc (x : float) : Z :=
  match Prim2SF x with
  | S754_finite s m e =>
      let v := if (0 <=? e)%Z then (Zpos m * 2 ^ e)%Z else (Zpos m / 2 ^ (- e))%Z in
      if s then (- v)%Z else v
  | _ => 0%Z
  end.
Definition Frint (x : float) : Z :=
  match Prim2SF x with
  | S754_finite s m e =>
      let v := if (0 <=? e)%Z then (Zpos m * 2 ^ e)%Z
               else Qrint (Zpos m # (Z.to_pos (2 ^ (- e)))) in
      if s then (- v)%Z else v
  | _ => 0%Z
  end.

Definition FNum : Num float := {|
  n0 := 0%float; n1 := 1%float;
  nadd := PrimFloat.add; nsub := PrimFloat.sub; nmul := PrimFloat.mul; ndiv := PrimFloat.div;
  nopp := PrimFloat.opp;
  nltb := PrimFloat.ltb; nleb := PrimFloat.leb; neqb := PrimFloat.eqb;
  nofZ := FofZ; ntrunc := Ftrunc; nrint := Frint |}.
