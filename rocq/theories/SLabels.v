(** * Specification: which labels results carry *)
From Coq Require Import ZArith List String Bool Reals.
From Verif Require Import Num Py MBase.
Import ListNotations.
Local Open Scope R_scope.

(** the labels 0, 1, 2, ..., n-1 *)
Definition positions (n : nat) (ts : list label) : Prop :=
  List.length ts = n /\ forall i, (i < n)%nat -> nth_error ts i = Some (LInt (Z.of_nat i)).

(** the labels of the expected returns if they have any, else those of the covariance matrix, else positions *)
Inductive universe : mu_arg -> cov_arg -> list label -> Prop :=
| u_series : forall s c, universe (MuSeries s) c (map fst s)
| u_frame_array : forall l cols rows, universe (MuArray l) (CovFrame cols rows) cols
| u_frame_none : forall cols rows, universe MuNone (CovFrame cols rows) cols
| u_array : forall l m ts, positions (List.length l) ts -> universe (MuArray l) (CovArray m) ts
| u_none : forall m ts, positions (List.length m) ts -> universe MuNone (CovArray m) ts.
