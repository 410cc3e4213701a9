(** * Specification: what plotting may change on a CLA object *)
From Coq Require Import List Reals.
From Verif Require Import Num Py MBase MCLA.
Local Open Scope R_scope.

(** the problem and its labels *)
Definition same_inputs (o o' : cla R) : Prop :=
  c_mean o' = c_mean o /\ c_cov o' = c_cov o /\ c_lb o' = c_lb o /\ c_ub o' = c_ub o /\ b_tickers (c_base o') = b_tickers (c_base o).

(** [M] is the correlation matrix of the covariance matrix [C] with [n] assets *)
Definition correlations (n : nat) (C M : list (list R)) : Prop :=
  forall i j, (i < n)%nat -> (j < n)%nat ->
    nth j (nth i M nil) 0 * sqrt (nth i (nth i C nil) 0) * sqrt (nth j (nth j C nil) 0) = nth j (nth i C nil) 0.
(** no asset is without risk *)
Definition all_risky (n : nat) (C : list (list R)) : Prop := forall i, (i < n)%nat -> 0 < nth i (nth i C nil) 0.
