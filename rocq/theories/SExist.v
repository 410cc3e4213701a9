(** * Specification for C106: continuous costs and closed conditions on vectors of weights *)
From Coq Require Import List Reals.
From Verif Require Import Py SLin MConvex MEF SConvex SPrep.
Import ListNotations.
Local Open Scope R_scope.

(** same length, and every entry differs by less than [eps] *)
Definition near (eps : R) (y x : list R) : Prop := Forall2 (fun a b => Rabs (a - b) < eps) y x.
Definition continuous_on (n : nat) (f : list R -> R) : Prop :=
  forall x, length x = n -> forall eps, 0 < eps -> exists delta, 0 < delta /\ forall y, near delta y x -> Rabs (f y - f x) < eps.
(** a vector that is approximated by vectors with [P] has [P] itself *)
Definition closed_on (n : nat) (P : list R -> Prop) : Prop :=
  forall x, length x = n -> (forall eps, 0 < eps -> exists y, P y /\ near eps y x) -> P x.

(** a step of the preparation that is about the [n] weights only: the term is continuous, the condition closed *)
Definition regular (n v : nat) (ps : list R) (a : preparation) : Prop :=
  match a with
  | AddObjective f => exists g, continuous_on n g /\ forall s, length (s v) = n -> evals s ps (f v) = g (s v)
  | AddConstraint f => exists P, closed_on n P /\ forall s, length (s v) = n -> (sat s ps (f v) <-> P (s v))
  | AddSectors _ _ _ => True
  end.
(** expressions in which only the weights occur, built from the functions of cvxpy in the model without the escape [EAtom] *)
Fixpoint plain (v : nat) (e : expr) : Prop :=
  match e with
  | EVar v' => v' = v
  | EPar _ | EConst _ => True
  | EAdd a b | EMul a b => plain v a /\ plain v b
  | ENeg a | EDot _ a | ELin _ a | ESum a | EQuad _ a | ESumSq a | ENorm1 a | EIndex _ a => plain v a
  | EAtom _ _ => False
  end.
Definition plain_con (v : nat) (c : con) : Prop :=
  match c with CIneq a b | CEq a b => plain v a /\ plain v b | COther _ _ => False end.
(** all bounds are given *)
Definition bounded (bs : list (option R)) : Prop := Forall (fun b => b <> None) bs.
(** [n] weights within the bounds, with the given sum *)
Definition fits (n : nat) (lb ub : list (option R)) (sum : R) (x : list R) : Prop := length x = n /\ within lb ub x /\ total x = sum.
