(** * Specification: re-ordering the assets *)
From Coq Require Import ZArith List Reals Permutation.
From Verif Require Import Py MBase MConvex MEF SLin SBase SConvex.
Import ListNotations.
Local Open Scope R_scope.

(** the entries of [l] in the order [p] *)
Definition pick {X} (d : X) (p : list nat) (l : list X) : list X := map (fun i => nth i l d) p.
(** [p] is a re-ordering of [n] things *)
Definition ordering (n : nat) (p : list nat) : Prop := Permutation p (seq 0 n).

(** the inputs in the order [p]: expected returns with their labels, covariance frame, bounds *)
Definition mu_reordered (p : list nat) (s : list (label * R)) : list (label * R) := pick (LInt 0, 0) p s.
Definition cov_reordered (p : list nat) (rows : list (list R)) : list (list R) := pick [] p (map (pick 0 p) rows).
(** one pair of bounds for all, or one per asset *)
Definition bounds_reordered (n : nat) (p : list nat) (b b' : bounds_arg) : Prop :=
  (exists l u, b = BPair l u /\ b' = BPair l u) \/
  (exists rows, length rows = n /\ b = BSeq true rows /\ b' = BSeq true (pick [] p rows)).

(** [x] are weights within the bounds, with the given sum, satisfying [ok], of least cost *)
Definition chosen (n : nat) (lb ub : list (option R)) (sum : R) (ok : list R -> Prop) (cost : list R -> R) (x : list R) : Prop :=
  length x = n /\ within lb ub x /\ total x = sum /\ ok x /\
  forall y, length y = n -> within lb ub y -> total y = sum -> ok y -> cost x <= cost y.

(** two optimizers made from the same data in two orders; [cols] are the covariance labels *)
Definition twins (p : list nat) (s : list (label * R)) (cols : list label) (rows : list (list R)) (b b' : bounds_arg)
    (v1 v2 w1 w2 : world) (o1 o2 : ef) : Prop :=
  ordering (length s) p /\ square (length s) rows /\ bounds_reordered (length s) p b b' /\
  ef_init (MIn (MuSeries s)) (CIn (CovFrame cols rows)) b v1 = (w1, Ok o1) /\
  ef_init (MIn (MuSeries (mu_reordered p s))) (CIn (CovFrame (pick (LInt 0) p cols) (cov_reordered p rows))) b' v2 = (w2, Ok o2).

(** [d] gives each ticker its weight in a best portfolio, rounded to 16 decimals *)
Definition answers (ts : list label) (lb ub : list (option R)) (sum : R) (ok : list R -> Prop) (cost : list R -> R) (d : dict R) : Prop :=
  exists x r, chosen (length ts) lb ub sum ok cost x /\ Forall2 (rounded 16) x r /\ forall t, dget t d = dget t (combine ts r).
(** the same weight for every ticker *)
Definition agree (d1 d2 : dict R) : Prop := forall t, dget t d1 = dget t d2.

(** the portfolio has the largest Sharpe ratio *)
Definition best_ratio (n : nat) (lb ub : list (option R)) (m : list R) (M : list (list R)) (rf : R) (x : list R) : Prop :=
  length x = n /\ within lb ub x /\ total x = 1 /\ 0 < excess m rf x /\
  forall y, length y = n -> within lb ub y -> total y = 1 -> excess m rf y * sqrt (qform M x) <= excess m rf x * sqrt (qform M y).
(** [d] gives each ticker its weight in a portfolio of largest Sharpe ratio, rounded to 16 decimals *)
Definition ratio_answers (ts : list label) (lb ub : list (option R)) (m : list R) (M : list (list R)) (rf : R) (d : dict R) : Prop :=
  exists x r, best_ratio (length ts) lb ub m M rf x /\ Forall2 (rounded 16) x r /\ forall t, dget t d = dget t (combine ts r).

(** the call returns weights *)
Definition succeeds (F : M ef (dict R)) (w : world) (o : ef) : Prop := exists w' o' d, F w o = (w', o', Ok d).
(** the pseudo-inverse of the re-ordered matrix is the re-ordered pseudo-inverse *)
Definition inverse_reordered (p : list nat) (n : nat) (rows : list (list R)) (pinv1 pinv2 : list (list R) -> list (list R)) : Prop :=
  square n (pinv1 rows) /\ pinv2 (cov_reordered p rows) = cov_reordered p (pinv1 rows).
