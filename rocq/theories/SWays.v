(** * Specification for C115-C117: two ways to one goal *)
From Coq Require Import ZArith List Reals.
From Verif Require Import Num Py SLin MBase MConvex MEF MCLA MAlloc SAlloc.
Import ListNotations.
Local Open Scope R_scope.

(** one share of each asset *)
Definition price_sum (w prices : dict R) : R := fold_right (fun kv s => price_of prices (fst kv) + s) 0 w.
(** how far a share assignment that leaves [lo] is from the target: deviations in money plus the money left *)
Definition miss (w prices : dict R) (T : R) (f : label -> Z) (lo : R) : R := dollar_dev w prices T f + lo.

(** a CLA object and an EfficientFrontier for the same assets: expected returns, covariances and bounds agree *)
Definition same_problem (o : cla R) (e : ef) : Prop :=
  e_mu e = Some (c_mean o) /\ e_cov e = c_cov o /\ e_lb e = map Some (c_lb o) /\ e_ub e = map Some (c_ub o) /\ e_n e = c_n o.
