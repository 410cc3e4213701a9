(** * Specification: the value a keyword argument gets *)
From Coq Require Import List String Reals.
From Verif Require Import Py MFrame MReturns MRisk MKwargs.
Import ListNotations.
Local Open Scope string_scope.

(** parameter [name] has the value [v]: it is given, or it is not mentioned and [v] is the default *)
Definition gets {X} (wrap : X -> kwv) (kw : kwargs) (name : string) (default v : X) : Prop :=
  In (name, wrap v) kw \/ (~ In name (map fst kw)) /\ v = default.
(** no keyword twice: Python refuses this *)
Definition distinct (kw : kwargs) : Prop := NoDup (map fst kw).
(** only the parameters [ps] are mentioned *)
Definition only (ps : list string) (kw : kwargs) : Prop := forall k, In k (map fst kw) -> In k ps.

(** which estimate of a shrinkage object a method name stands for *)
Definition shrink_with (eigh : eigh_oracle) (sk_lw sk_oas : shrink_oracle) (m : string) (sh : shrinkage) : res (frame R * R) :=
  if String.eqb m "oracle_approximating" then oracle_approximating eigh sk_oas sh
  else ledoit_wolf eigh sk_lw sh (if String.eqb m "ledoit_wolf_single_factor" then "single_factor"
                                  else if String.eqb m "ledoit_wolf_constant_correlation" then "constant_correlation" else "constant_variance").
