(** * Specification of what a frontier plot shows *)
From Coq Require Import String List Reals Lia.
From Verif Require Import Py MConvex MPlot.
Import ListNotations.
Local Open Scope R_scope.

(** The history of trying a list of parameters one after the other on an optimizer, whatever happens:
    the state before, the outcome and the state after, for each parameter.  Written without any
    reference to how the plot is made. *)
Record visit (St : Type) := mkVisit { v_before : St; v_outcome : res unit; v_after : St }.
Arguments mkVisit {St}. Arguments v_before {St}. Arguments v_outcome {St}. Arguments v_after {St}.
Fixpoint history {St : Type} (try : R -> St -> St * res unit) (vs : list R) (s : St) : list (visit St) :=
  match vs with
  | [] => []
  | v :: vs' => mkVisit s (snd (try v s)) (fst (try v s)) :: history try vs' (fst (try v s))
  end.
Definition skipped {St} (x : visit St) : Prop := v_outcome x = Err OptimizationError.
Definition kept {St} (x : visit St) : Prop := v_outcome x = Ok tt \/ v_outcome x = Err ValueError.
Definition shown {St} (l : list (visit St)) : list (visit St) :=
  filter (fun x => match v_outcome x with Err OptimizationError => false | _ => true end) l.
(** evenly spaced numbers *)
Definition evenly_spaced (a b : R) (l : list R) : Prop :=
  nth 0 l a = a /\ (1 < length l -> nth (length l - 1) l a = b)%nat /\
  exists d, forall i, (S i < length l)%nat -> nth (S i) l a - nth i l a = d.

(** one attempt on the world and the optimizer together *)
Definition try_once {St : Type} (methods : string -> option (R -> M St unit)) (name : string) (v : R) (ws : world * St) : (world * St) * res unit :=
  match attempt methods name v (fst ws) (snd ws) with (w1, s1, r) => ((w1, s1), r) end.
