(** What a method call may raise (C132), stated without the model's control flow. *)
From Coq Require Import List Reals ZArith.
From Verif Require Import Py MBase MConvex MEF SLin SConvex.
Import ListNotations.
Local Open Scope R_scope.

(** the two exceptions of cvxpy which the library expects from [solve] *)
Definition usual_solver (sv : solver_t) : Prop :=
  forall sizes ps obj cs e, sv sizes ps obj cs = ARaise e -> e = TypeError \/ e = DCPError.

(** the call raises ValueError exactly when [bad], and OptimizationError is the only other exception *)
Definition rejects_exactly {X} (bad : Prop) (r : res X) : Prop :=
  (r = Err ValueError <-> bad) /\ (forall e, r = Err e -> e = ValueError \/ e = OptimizationError).

(** the value of a Python number; [None] for what is not a number *)
Definition is_number (a : num_arg) (x : R) : Prop := a = NFloat x \/ exists z, a = NInt z /\ x = IZR z.

(** all numbers of the list are at most [x], or below [x] *)
Definition all_at_most (x : R) (l : list R) : Prop := forall a, In a l -> a <= x.
Definition all_smaller (x : R) (l : list R) : Prop := forall a, In a l -> a < x.

(** the lowest volatility of any portfolio with weight sum 1, bounds aside, given the sum of the entries of the inverse covariance *)
Definition below_lowest (inverse_total t : R) : Prop :=
  inverse_total = 0 \/ (0 < inverse_total /\ t * t < 1 / inverse_total).

(** a portfolio with the largest expected return among those with weight sum 1 *)
Definition best_return (w : world) (o : ef) (u : list (nat * con)) (m : list R) (s : env) : Prop :=
  admissible w o u (e_lb o) (e_ub o) 1 s /\
  forall s', admissible w o u (e_lb o) (e_ub o) 1 s' -> inner m (s' (e_w o)) <= inner m (s (e_w o)).

(** a constraint that is an equation or an inequality *)
Definition ordinary (c : con) : Prop := match c with COther _ _ => False | _ => True end.
