(** * Specification for C114: how answers move when a parameter moves *)
From Coq Require Import List String Reals.
From Verif Require Import Py SLin SBase MBase MConvex MEF SConvex SPrep SObj SCurve.
Import ListNotations.
Local Open Scope R_scope.

(** a method called after the preparation [steps] *)
Definition with_steps (steps : list preparation) (call : M ef (dict R)) (w : world) (o : ef) : world * ef * res (dict R) :=
  match forM steps prepare w o with
  | (w', o', Ok _) => call w' o'
  | (w', o', Err e) => (w', o', Err e)
  end.
(** a step that does not change the objective *)
Definition only_demands (a : preparation) : Prop := match a with AddObjective _ => False | _ => True end.
(** what is to be optimised, the method for it, and the amount to be minimised *)
Inductive aim := AimVolatility | AimUtility (ra : R) (mn : bool) | AimRisk (t : R) (mn : bool) | AimReturn (t : R) (mn : bool).
Definition pursue (sv : solver_t) (pinv : list (list R) -> list (list R)) (a : aim) : M ef (dict R) :=
  match a with
  | AimVolatility => min_volatility sv
  | AimUtility ra mn => max_quadratic_utility sv ra mn
  | AimRisk t mn => efficient_risk sv pinv (NFloat t) mn
  | AimReturn t mn => efficient_return sv (NFloat t) mn
  end.
Definition amount (mu : list R) (cov : list (list R)) (a : aim) (x : list R) : R :=
  match a with
  | AimVolatility | AimReturn _ _ => qform cov x
  | AimUtility ra _ => ra / 2 * qform cov x - inner mu x
  | AimRisk _ _ => - inner mu x
  end.
(** a family of terms for add_objective: the weight [g] times [h] of the portfolio *)
Definition weighted_term (n : nat) (f : R -> nat -> expr) (h : list R -> R) : Prop :=
  forall g v, scalar_expr (f g v) /\ epars (f g v) = [] /\ forall s ps, List.length (s v) = n -> evals s ps (f g v) = g * h (s v).
(** none of the names the methods use for their parameters is taken *)
Definition free_names (w : world) : Prop :=
  Forall (fun q => ~ In (p_name q) ["risk_aversion"; "target_variance"; "target_return"]%string) (w_params w).
