(** * Specification of units of measurement (C129) *)
From Coq Require Import ZArith String List Bool Reals.
From Verif Require Import Num Py SBL MAlloc MBase MFrame MConvex MEF SLin SBase SConvex SPerm.
Import ListNotations.
Local Open Scope R_scope.

(** expected returns multiplied by [a], covariances multiplied by [k]: another length of the period (a = k), or per cent (k = a * a) *)
Definition mu_times (a : R) (s : list (label * R)) : list (label * R) := map (fun tv => (fst tv, a * snd tv)) s.
Definition cov_times (k : R) (rows : list (list R)) : list (list R) := map (map (Rmult k)) rows.
(** two optimizers made from the same data in two units *)
Definition measured (a k : R) (s : list (label * R)) (cols : list label) (rows : list (list R)) (b : bounds_arg)
    (v1 v2 w1 w2 : world) (o1 o2 : ef) : Prop :=
  0 < a /\ 0 < k /\ square (List.length s) rows /\
  ef_init (MIn (MuSeries s)) (CIn (CovFrame cols rows)) b v1 = (w1, Ok o1) /\
  ef_init (MIn (MuSeries (mu_times a s))) (CIn (CovFrame cols (cov_times k rows))) b v2 = (w2, Ok o2).
(** the pseudo-inverse of [k] times the matrix is the pseudo-inverse over [k] *)
Definition inverse_times (k : R) (rows : list (list R)) (pinv1 pinv2 : list (list R) -> list (list R)) : Prop :=
  pinv2 (cov_times k rows) = cov_times (/ k) (pinv1 rows).

(** a price table with the price of each asset in a unit of its own (after a split, or in another currency) *)
Definition repriced (ks : list R) (f : frame (option R)) : frame (option R) :=
  mkFrame (f_index f) (f_cols f) (map (map2 (fun k x => option_map (Rmult k) x) ks) (f_rows f)).
Definition price_units (ks : list R) (f : frame (option R)) : Prop :=
  Forall (fun k => k <> 0) ks /\ Forall (fun row => List.length row = List.length ks) (f_rows f).

(** an allocation problem with all amounts of money multiplied by [k] *)
Definition da_times (k : R) (d : da (A := R)) : da :=
  mkDA (da_weights d) (map (fun tp => (fst tp, k * snd tp)) (da_prices d)) (da_int d) (k * da_total d) (da_short_ratio d) (da_alloc d).
(** an allocation with its leftover cash multiplied by [k] *)
Definition money (k : R) (r : res (dict Z * R)) : res (dict Z * R) :=
  match r with Ok (al, lo) => Ok (al, k * lo) | Err e => Err e end.
(** a latest-price Series with every known price multiplied by [k] *)
Definition series_times (k : R) (p : prices_arg (A := R)) : prices_arg :=
  match p with PSeries b s => PSeries b (map (fun tp => (fst tp, option_map (Rmult k) (snd tp))) s) | PNotSeries => PNotSeries end.
(** a solver that changes the money of the programs it is given before handing them on *)
Definition in_units (k : R) (solver : lp (A := R) -> lp_outcome) (P : lp) : lp_outcome :=
  match solver (mkLP (map (Rmult (/ k)) (lp_p P)) (lp_w P) (/ k * lp_T P)) with
  | LPAnswer x u => LPAnswer x (map (Rmult k) u)
  | o => o
  end.
