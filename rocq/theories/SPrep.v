(** * Specification of the preparation of an optimizer (C102): bounds with gaps, added objectives and constraints *)
From Coq Require Import List String Reals.
From Verif Require Import Py SLin SBase MConvex MEF SConvex.
Import ListNotations.
Local Open Scope R_scope.

(** a bound, or a default where it is missing *)
Definition bound_or (d : R) (b : option R) : R := match b with Some x => x | None => d end.

(** what a user may call before optimizing *)
Inductive preparation :=
| AddObjective (f : nat -> expr)
| AddConstraint (f : nat -> con)
| AddSectors (mapper : dict string) (lower upper : list (string * R)).

(** the term it adds to the objective, and what it demands from the values [s] of the variables; [v] is the weight variable *)
Definition extra_cost (v : nat) (s : env) (ps : list R) (a : preparation) : R :=
  match a with AddObjective f => evals s ps (f v) | _ => 0 end.
Definition demanded (tickers : list label) (v : nat) (s : env) (ps : list R) (a : preparation) : Prop :=
  match a with
  | AddObjective _ => True
  | AddConstraint f => sat s ps (f v)
  | AddSectors mapper lower upper =>
      (forall sec u, In (sec, u) upper -> sector_weight mapper sec tickers (s v) <= u) /\
      (forall sec l, In (sec, l) lower -> l <= sector_weight mapper sec tickers (s v))
  end.
(** objectives are scalars, and only parameters that exist occur *)
Definition sensible (v k : nat) (a : preparation) : Prop :=
  match a with
  | AddObjective f => scalar_expr (f v) /\ scoped_expr k (f v)
  | AddConstraint f => scoped_con k (f v)
  | AddSectors _ _ _ => True
  end.
(** the corresponding calls *)
Definition prepare (a : preparation) : M ef unit :=
  match a with
  | AddObjective f => add_objective f
  | AddConstraint f => add_constraint (CFun f)
  | AddSectors mapper lower upper => add_sector_constraints mapper lower upper
  end.

(** values of the variables that respect bounds, weight sum and everything demanded in [steps] *)
Definition allowed (tickers : list label) (v : nat) (sizes : list nat) (ps : list R) (lb ub : list (option R)) (sum : R)
    (steps : list preparation) (s : env) : Prop :=
  well_sized sizes s /\ within lb ub (s v) /\ total (s v) = sum /\ Forall (demanded tickers v s ps) steps.
(** the weights [ws], returned as [d], are a portfolio of least cost plus added terms among all those allowed *)
Definition best_prepared (tickers : list label) (v : nat) (sizes : list nat) (ps : list R) (lb ub : list (option R)) (sum : R)
    (steps : list preparation) (ok : list R -> Prop) (cost : list R -> R) (ws : option (list R)) (d : dict R) : Prop :=
  exists s r, ws = Some r /\ Forall2 (rounded 16) (s v) r /\ d = dict_of_pairs (combine tickers r) /\
    allowed tickers v sizes ps lb ub sum steps s /\ ok (s v) /\
    forall s', allowed tickers v sizes ps lb ub sum steps s' -> ok (s' v) ->
      cost (s v) + total (map (extra_cost v s ps) steps) <= cost (s' v) + total (map (extra_cost v s' ps) steps).

(** the name of an internal parameter is taken twice, or once before the first optimization *)
Definition clashes (w : world) (o : ef) (name : string) : Prop :=
  (2 <= List.length (filter (named w name) (all_params o)))%nat \/ ((1 <= List.length (filter (named w name) (all_params o)))%nat /\ e_mn o = None).
