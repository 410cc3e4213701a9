(** * What max_sharpe makes of the objectives that were added (C126) *)
From Coq Require Import ZArith List String Bool Reals.
From Verif Require Import Num Py RBase MBase MConvex MEF SLin SBase SConvex.
Import ListNotations.
Local Open Scope R_scope.

(** the objective mentions only variables below [k] *)
Definition known_terms (k : nat) (e : expr) : Prop := Forall (fun x => (x < k)%nat) (evars e).

(** the squared risk per squared excess return of portfolio [s], plus the added objectives, which are not
    evaluated at the weights but at the weights divided by their excess return *)
Definition per_excess (w : world) (o : ef) (m : list R) (r : R) (s : env) : R :=
  let g := excess m r (s (e_w o)) in
  qform (e_cov o) (s (e_w o)) / (g * g) + penalty (scaled (e_w o) (/ g) s) (par_values w) (e_add o).

(** [e] behaves like a variance: it is never negative and grows with the square of variable [v] *)
Definition variance_like (v : nat) (e : expr) : Prop :=
  forall t s ps, 0 < t -> evals (scaled v t s) ps e = t * t * evals s ps e /\ 0 <= evals s ps e.

(** the squared risk with the added objectives counted as risk *)
Definition total_risk (w : world) (o : ef) (s : env) : R :=
  qform (e_cov o) (s (e_w o)) + penalty s (par_values w) (e_add o).
