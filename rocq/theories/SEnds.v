(** * Specification: the two ends of the confidence level (C139) *)
From Coq Require Import List Reals.
From Verif Require Import Py MBase MConvex MEF MDown SLin SBase SConvex SPerm SDown.
Import ListNotations.
Local Open Scope R_scope.

(** the mean and the largest entry of a list that has entries *)
Definition average (l : list R) : R := total l / INR (length l).
Definition largest (l : list R) : R := match l with [] => 0 | x :: l' => fold_right Rmax x l' end.
(** what the mean of the worst share 1 - beta of T numbers is at the ends: the mean of them all at
    level 0; the largest of them when the share is at most one of the T numbers *)
Definition tail_end (beta : R) (T : nat) (f : list R -> R) : Prop :=
  beta = 0 /\ f = average \/ (1 - beta) * INR T <= 1 /\ f = largest.
(** the loss of the portfolio on each day without gaps, and how far its summed return is below its
    highest value so far, starting from 0 *)
Definition day_losses (rets : list (list R)) (x : list R) : list R := map (fun row => - inner row x) rets.
Definition falls (rets : list (list R)) (x : list R) : list R := drawdowns_from 0 0 (period_returns rets x).

(** an optimizer made from labelled expected returns and a table with at least one day without gaps *)
Definition cvar_made (s : list (label * R)) (rows : list (list (option R))) (beta : R) (b : bounds_arg) (v w : world) (o : ef) (d : cvar_data) : Prop :=
  good_rows (length s) rows /\ cvar_init (MIn (MuSeries s)) (RTable (length s) rows) beta b v = (w, Ok (o, d)).
Definition cdar_made (s : list (label * R)) (rows : list (list (option R))) (beta : R) (b : bounds_arg) (v w : world) (o : ef) (d : cdar_data) : Prop :=
  good_rows (length s) rows /\ cdar_init (MIn (MuSeries s)) (RTable (length s) rows) beta b v = (w, Ok (o, d)).
