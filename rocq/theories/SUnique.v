(** When the answer of an optimizer does not depend on the solver (C133). *)
From Coq Require Import List Reals.
From Verif Require Import Py SLin SBase SObj MBase MConvex MEF SConvex SCurve.
Import ListNotations.
Local Open Scope R_scope.

(** two runs, if both succeed, give the same dictionary and leave the same weights *)
Definition same_answer (a b : world * ef * res (dict R)) : Prop :=
  match a, b with
  | (_, oa, Ok da), (_, ob, Ok db) => da = db /\ e_weights oa = e_weights ob
  | _, _ => True
  end.

(** positive definite: every position other than zero has a positive variance *)
Definition definite (n : nat) (M : list (list R)) : Prop :=
  psd n M /\ forall x, length x = n -> (exists a, In a x /\ a <> 0) -> 0 < qform M x.

(** an added objective that is convex in all variables, and one that also tells any two portfolios apart *)
Definition convex_term (sizes : list nat) (ps : list R) (e : expr) : Prop :=
  forall s s' t, 0 <= t <= 1 -> well_sized sizes s -> well_sized sizes s' ->
    evals (mixed t s s') ps e <= (1 - t) * evals s ps e + t * evals s' ps e.
Definition strict_term (sizes : list nat) (ps : list R) (v : nat) (e : expr) : Prop :=
  convex_term sizes ps e /\
  forall s s', well_sized sizes s -> well_sized sizes s' -> s v <> s' v ->
    evals (mixed (1/2) s s') ps e < (evals s ps e + evals s' ps e) / 2.

(** a problem with convex constraints and objectives only *)
Definition convex_problem (w : world) (o : ef) (u : list (nat * con)) : Prop :=
  open_ef w o u /\ Forall (fun ic => convex_con (w_sizes w) (par_values w) (snd ic)) u /\
  Forall (convex_term (w_sizes w) (par_values w)) (e_add o).
(** one of the added objectives is strictly convex in the weights *)
Definition regularised (w : world) (o : ef) : Prop :=
  Exists (strict_term (w_sizes w) (par_values w) (e_w o)) (e_add o).
