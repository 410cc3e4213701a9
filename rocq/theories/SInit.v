(** * Specifications: which arguments the constructors accept *)
From Coq Require Import ZArith List String Reals.
From Verif Require Import Num Py MBase MConvex MEF MDown MCLA MHRP SLabels.
Import ListNotations.
Local Open Scope R_scope.

(** a number, or a default if it is missing *)
Definition value_or (d : R) (x : option R) : R := match x with Some y => y | None => d end.

(** [lb] and [ub] are the bounds that the argument [b] stands for with [n] assets; no bound is None *)
Inductive bounds_given (n : nat) : bounds_arg -> list (option R) -> list (option R) -> Prop :=
| given_scalars : forall l u, n <> 2%nat \/ l <> None ->
    bounds_given n (BPair l u) (repeat (Some (value_or (-1) l)) n) (repeat (Some (value_or 1 u)) n)
| given_pairs : forall is_list rows k lb ub, List.length rows = n -> rows <> [] -> (2 <= k)%nat ->
    Forall (fun r => List.length r = k) rows ->
    Forall2 (fun r b => nth_error r 0 = Some b) rows lb -> Forall2 (fun r b => nth_error r 1 = Some b) rows ub ->
    bounds_given n (BSeq is_list rows) lb ub
| given_arrays : forall l u, n <> 2%nat -> List.length l = n -> List.length u = n ->
    bounds_given n (BSeq true [l; u]) (map (fun x => Some (value_or (-1) x)) l) (map (fun x => Some (value_or 1 x)) u).

(** the covariance table has as many rows and columns as there are expected returns *)
Definition same_size (l : list R) (c : list (list R)) : Prop :=
  List.length c = List.length l /\ List.length (hd [] c) = List.length l.

(** the expected returns and bounds fit a table of [n] columns *)
Definition table_ok (m : mu_arg) (n : nat) (b : bounds_arg) : Prop :=
  (forall l, mu_values m = Some l -> List.length l = n) /\ exists lb ub, bounds_given n b lb ub.

(** the rows of a table that have no gaps, in their order *)
Inductive without_gaps : list (list (option R)) -> list (list R) -> Prop :=
| wg_nil : without_gaps [] []
| wg_keep : forall row rows kept, without_gaps rows kept -> without_gaps (map Some row :: rows) (row :: kept)
| wg_drop : forall row rows kept, In None row -> without_gaps rows kept -> without_gaps (row :: rows) kept.

(** the bounds that CLA reads, and whether the lower ones are whole numbers without a decimal point *)
Inductive cla_bounds_given (n : nat) : cla_bounds R -> list (pynum R) -> list (pynum R) -> Prop :=
| cla_scalars : forall lo hi, cla_bounds_given n (CPair lo hi) (repeat lo n) (repeat hi n)
| cla_pairs : forall rows lo hi, List.length rows = n -> rows <> [] ->
    Forall2 (fun r b => nth_error r 0 = Some b) rows lo -> Forall2 (fun r b => nth_error r 1 = Some b) rows hi ->
    cla_bounds_given n (CSeq rows) lo hi
| cla_arrays : forall lo hi more, List.length (lo :: hi :: more) <> n -> List.length lo = n -> List.length hi = n ->
    cla_bounds_given n (CSeq (lo :: hi :: more)) lo hi.
