(** * Specification for C113, C114: the answers of the optimizers as points of one frontier *)
From Coq Require Import List Reals.
From Verif Require Import Py SLin SBase SObj MBase MConvex MEF SConvex.
Import ListNotations.
Local Open Scope R_scope.

(** the call succeeded; and: [x] rounded to 16 decimals are the weights it left *)
Definition succeeds (run : world * ef * res (dict R)) : Prop := match run with (_, _, Ok _) => True | _ => False end.
Definition reports (run : world * ef * res (dict R)) (x : list R) : Prop :=
  match run with
  | (_, o', Ok _) => exists r, e_weights o' = Some r /\ Forall2 (rounded 16) x r
  | _ => False
  end.
(** the values of all variables on the way from [s] to [s'] *)
Definition mixed (t : R) (s s' : env) : env := fun v => blend t (s v) (s' v).
(** with two points a constraint admits everything in between *)
Definition convex_con (sizes : list nat) (ps : list R) (c : con) : Prop :=
  forall s s' t, 0 <= t <= 1 -> well_sized sizes s -> well_sized sizes s' -> sat s ps c -> sat s' ps c -> sat (mixed t s s') ps c.

(** a call that looks for the largest [ret] with at most a given [risk], and one that looks for the least
    [risk] with at least a given [ret], trace one and the same frontier *)
Record one_frontier (by_risk by_ret : R -> world * ef * res (dict R)) (legal : R -> Prop) (ret risk : list R -> R) : Prop := {
  (** who accepts more risk gets at least the return *)
  more_risk : forall t t', legal t -> t <= t' -> succeeds (by_risk t) -> succeeds (by_risk t') ->
    exists x x', reports (by_risk t) x /\ reports (by_risk t') x' /\ ret x <= ret x';
  (** who demands more return bears at least the risk *)
  more_return : forall r r', r <= r' -> succeeds (by_ret r) -> succeeds (by_ret r') ->
    exists x x', reports (by_ret r) x /\ reports (by_ret r') x' /\ risk x <= risk x';
  (** demanding the return found for a given risk gives that return again, without more risk *)
  risk_then_return : forall t, legal t -> succeeds (by_risk t) ->
    exists x, reports (by_risk t) x /\ risk x <= t /\
      (succeeds (by_ret (ret x)) -> exists y, reports (by_ret (ret x)) y /\ ret y = ret x /\ risk y <= risk x);
  (** allowing the risk found for a given return gives that risk again, without less return *)
  return_then_risk : forall r, succeeds (by_ret r) ->
    exists x, reports (by_ret r) x /\ r <= ret x /\
      (succeeds (by_risk (risk x)) -> exists y, reports (by_risk (risk x)) y /\ risk y = risk x /\ ret x <= ret y);
  (** the return is a concave function of the risk allowed *)
  concave_return : forall t t' k, legal t -> legal t' -> 0 <= k <= 1 ->
    succeeds (by_risk t) -> succeeds (by_risk t') -> succeeds (by_risk ((1 - k) * t + k * t')) ->
    exists x x' z, reports (by_risk t) x /\ reports (by_risk t') x' /\ reports (by_risk ((1 - k) * t + k * t')) z /\
      (1 - k) * ret x + k * ret x' <= ret z;
  (** and the risk is a convex function of the return demanded *)
  convex_risk : forall r r' k, 0 <= k <= 1 ->
    succeeds (by_ret r) -> succeeds (by_ret r') -> succeeds (by_ret ((1 - k) * r + k * r')) ->
    exists x x' z, reports (by_ret r) x /\ reports (by_ret r') x' /\ reports (by_ret ((1 - k) * r + k * r')) z /\
      risk z <= (1 - k) * risk x + k * risk x' }.
(** the answer of [run] is on that frontier: for its return no less risk is found, and for its risk no more return *)
Definition on_frontier (run : world * ef * res (dict R)) (by_risk by_ret : R -> world * ef * res (dict R)) (ret risk : list R -> R) : Prop :=
  exists x, reports run x /\
    (succeeds (by_ret (ret x)) -> exists y, reports (by_ret (ret x)) y /\ risk y = risk x) /\
    (succeeds (by_risk (risk x)) -> exists y, reports (by_risk (risk x)) y /\ ret y = ret x).
(** the answer of [run] is where the frontier starts: no answer has less risk, and every demand its return meets gives its risk *)
Definition frontier_start (run : world * ef * res (dict R)) (by_risk by_ret : R -> world * ef * res (dict R)) (legal : R -> Prop) (ret risk : list R -> R) : Prop :=
  exists x, reports run x /\
    (forall t, legal t -> succeeds (by_risk t) -> risk x <= t /\ exists y, reports (by_risk t) y /\ ret y >= ret x /\ risk x <= risk y) /\
    (forall r, succeeds (by_ret r) -> exists y, reports (by_ret r) y /\ risk x <= risk y /\ (r <= ret x -> risk y = risk x)).
