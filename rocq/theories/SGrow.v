(** * Specification: one more asset (C142) *)
From Coq Require Import ZArith String List Bool Reals.
From Verif Require Import Num Py SBL MBase MConvex MEF MDown SLin SBase SConvex SPerm SDown.
Import ListNotations.
Local Open Scope R_scope.

(** a further asset in front: its label and expected return, its variance and covariances, its daily returns *)
Definition mu_grow (t : label) (a : R) (s : list (label * R)) : list (label * R) := (t, a) :: s.
Definition cov_grow (v : R) (b c : list R) (rows : list (list R)) : list (list R) := (v :: b) :: map (fun p => fst p :: snd p) (combine c rows).
Definition rows_grow (q : list (option R)) (rows : list (list (option R))) : list (list (option R)) := map (fun p => fst p :: snd p) (combine q rows).
(** the same bounds for every asset, with zero between them *)
Definition around (lo hi : R) : bounds_arg := BPair (Some lo) (Some hi).

(** [d] shows the weights [x] of the labels [ts] *)
Definition shows (ts : list label) (x : list R) (d : dict R) : Prop := exists r, Forall2 (rounded 16) x r /\ forall t, dget t d = dget t (combine ts r).
(** [d] and [d'] show best portfolios without and with the further asset [t]; the second is at least as good, and if
    it leaves the further asset out it is best without it *)
Definition improved (ts : list label) (t : label) (lb ub lb' ub' : list (option R)) (sum : R) (ok ok' : list R -> Prop) (cost cost' : list R -> R) (d d' : dict R) : Prop :=
  exists x x', chosen (length ts) lb ub sum ok cost x /\ shows ts x d /\ chosen (S (length ts)) lb' ub' sum ok' cost' x' /\ shows (t :: ts) x' d' /\
    cost' x' <= cost x /\ (forall y, x' = 0 :: y -> chosen (length ts) lb ub sum ok cost y).
Definition improved_ratio (ts : list label) (t : label) (lb ub lb' ub' : list (option R)) (m m' : list R) (M M' : list (list R)) (rf : R) (d d' : dict R) : Prop :=
  exists x x', best_ratio (length ts) lb ub m M rf x /\ shows ts x d /\ best_ratio (S (length ts)) lb' ub' m' M' rf x' /\ shows (t :: ts) x' d' /\
    excess m rf x * sqrt (qform M' x') <= excess m' rf x' * sqrt (qform M x) /\ (forall y, x' = 0 :: y -> best_ratio (length ts) lb ub m M rf y).

(** two optimizers of each kind, the second made with the further asset *)
Definition ef_grown (t : label) (a v : R) (b c : list R) (lo hi : R) (s : list (label * R)) (cols cols' : list label) (rows : list (list R)) (v1 v2 w1 w2 : world) (o1 o2 : ef) : Prop :=
  lo <= 0 <= hi /\ (0 < length s)%nat /\ length b = length s /\ length c = length s /\ square (length s) rows /\
  ef_init (MIn (MuSeries s)) (CIn (CovFrame cols rows)) (around lo hi) v1 = (w1, Ok o1) /\
  ef_init (MIn (MuSeries (mu_grow t a s))) (CIn (CovFrame cols' (cov_grow v b c rows))) (around lo hi) v2 = (w2, Ok o2).
(** the further asset has a return on every day *)
Definition semi_grown (t : label) (a : R) (q : list R) (lo hi : R) (s : list (label * R)) (rows : list (list (option R))) (freq bench : R) (v1 v2 w1 w2 : world) (o1 o2 : ef) (d1 d2 : semi) : Prop :=
  lo <= 0 <= hi /\ (0 < length s)%nat /\ length q = length rows /\ good_rows (length s) rows /\
  semi_init (MIn (MuSeries s)) (RTable (length s) rows) freq bench (around lo hi) v1 = (w1, Ok (o1, d1)) /\
  semi_init (MIn (MuSeries (mu_grow t a s))) (RTable (S (length s)) (rows_grow (map Some q) rows)) freq bench (around lo hi) v2 = (w2, Ok (o2, d2)).
Definition cvar_grown (t : label) (a : R) (q : list R) (lo hi : R) (s : list (label * R)) (rows : list (list (option R))) (beta : R) (v1 v2 w1 w2 : world) (o1 o2 : ef) (d1 d2 : cvar_data) : Prop :=
  lo <= 0 <= hi /\ (0 < length s)%nat /\ length q = length rows /\ good_rows (length s) rows /\
  cvar_init (MIn (MuSeries s)) (RTable (length s) rows) beta (around lo hi) v1 = (w1, Ok (o1, d1)) /\
  cvar_init (MIn (MuSeries (mu_grow t a s))) (RTable (S (length s)) (rows_grow (map Some q) rows)) beta (around lo hi) v2 = (w2, Ok (o2, d2)).
Definition cdar_grown (t : label) (a : R) (q : list R) (lo hi : R) (s : list (label * R)) (rows : list (list (option R))) (beta : R) (v1 v2 w1 w2 : world) (o1 o2 : ef) (d1 d2 : cdar_data) : Prop :=
  lo <= 0 <= hi /\ (0 < length s)%nat /\ length q = length rows /\ good_rows (length s) rows /\
  cdar_init (MIn (MuSeries s)) (RTable (length s) rows) beta (around lo hi) v1 = (w1, Ok (o1, d1)) /\
  cdar_init (MIn (MuSeries (mu_grow t a s))) (RTable (S (length s)) (rows_grow (map Some q) rows)) beta (around lo hi) v2 = (w2, Ok (o2, d2)).
