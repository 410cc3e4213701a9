(** * Property theorems: the tail optimizers at the two ends of the confidence level (C139) *)
From Coq Require Import ZArith String List Bool Reals.
From Verif Require Import Num Py MBase MConvex MEF MDown SLin SBase SConvex SPerm SDown SEnds PEnds.
Import ListNotations.
Local Open Scope R_scope.

(** the largest entry is an entry and none is above it *)
Theorem c139_largest : forall l, (0 < length l)%nat -> In (largest l) l /\ forall y, In y l -> y <= largest l.
Proof. exact largest_spec. Qed.
Print Assumptions c139_largest.
Theorem c139_min_cvar : forall s rows beta b v w o d f, cvar_made s rows beta b v w o d -> tail_end beta (length (dropna rows)) f -> forall sv (mn : bool), exact_solver sv -> 
  forall x y r, NoDup (map fst s) -> min_cvar sv d mn w o = (x, y, Ok r) ->
  exists lb ub, bounds_in_force mn o lb ub /\ answers (map fst s) lb ub (if mn then 0 else 1) (fun _ => True) (fun x => f (day_losses (dropna rows) x)) r.
Proof. exact cvar_min_end. Qed.
Print Assumptions c139_min_cvar.
Theorem c139_min_cvar_found : forall s rows beta b v w o d f, cvar_made s rows beta b v w o d -> tail_end beta (length (dropna rows)) f -> forall sv (mn : bool), exact_solver sv -> 
  complete_solver sv -> (succeeds (min_cvar sv d mn) w o <-> exists lb ub x, bounds_in_force mn o lb ub /\ chosen (length s) lb ub (if mn then 0 else 1) (fun _ => True) (fun x => f (day_losses (dropna rows) x)) x).
Proof. exact cvar_min_end_iff. Qed.
Print Assumptions c139_min_cvar_found.
Theorem c139_cvar_risk : forall s rows beta b v w o d f, cvar_made s rows beta b v w o d -> tail_end beta (length (dropna rows)) f -> forall sv (mn : bool), exact_solver sv -> 
  forall t, forall x y r, NoDup (map fst s) -> cvar_efficient_risk sv d t mn w o = (x, y, Ok r) ->
  exists lb ub, bounds_in_force mn o lb ub /\ answers (map fst s) lb ub (if mn then 0 else 1) (fun x => f (day_losses (dropna rows) x) <= t) (fun x => - inner (map snd s) x) r.
Proof. exact cvar_risk_end. Qed.
Print Assumptions c139_cvar_risk.
Theorem c139_cvar_risk_found : forall s rows beta b v w o d f, cvar_made s rows beta b v w o d -> tail_end beta (length (dropna rows)) f -> forall sv (mn : bool), exact_solver sv -> 
  complete_solver sv -> forall t, (succeeds (cvar_efficient_risk sv d t mn) w o <-> 0 <= t /\ exists lb ub x, bounds_in_force mn o lb ub /\ chosen (length s) lb ub (if mn then 0 else 1) (fun x => f (day_losses (dropna rows) x) <= t) (fun x => - inner (map snd s) x) x).
Proof. exact cvar_risk_end_iff. Qed.
Print Assumptions c139_cvar_risk_found.
Theorem c139_cvar_return : forall s rows beta b v w o d f, cvar_made s rows beta b v w o d -> tail_end beta (length (dropna rows)) f -> forall sv (mn : bool), exact_solver sv -> 
  forall t, forall x y r, NoDup (map fst s) -> cvar_efficient_return sv d t mn w o = (x, y, Ok r) ->
  exists lb ub, bounds_in_force mn o lb ub /\ answers (map fst s) lb ub (if mn then 0 else 1) (fun x => t <= inner (map snd s) x) (fun x => f (day_losses (dropna rows) x)) r.
Proof. exact cvar_return_end. Qed.
Print Assumptions c139_cvar_return.
Theorem c139_cvar_return_found : forall s rows beta b v w o d f, cvar_made s rows beta b v w o d -> tail_end beta (length (dropna rows)) f -> forall sv (mn : bool), exact_solver sv -> 
  complete_solver sv -> forall t, (succeeds (cvar_efficient_return sv d t mn) w o <-> exists lb ub x, bounds_in_force mn o lb ub /\ chosen (length s) lb ub (if mn then 0 else 1) (fun x => t <= inner (map snd s) x) (fun x => f (day_losses (dropna rows) x)) x).
Proof. exact cvar_return_end_iff. Qed.
Print Assumptions c139_cvar_return_found.
Theorem c139_min_cdar : forall s rows beta b v w o d f, cdar_made s rows beta b v w o d -> tail_end beta (length (dropna rows)) f -> forall sv (mn : bool), exact_solver sv -> 
  forall x y r, NoDup (map fst s) -> min_cdar sv d mn w o = (x, y, Ok r) ->
  exists lb ub, bounds_in_force mn o lb ub /\ answers (map fst s) lb ub (if mn then 0 else 1) (fun _ => True) (fun x => f (falls (dropna rows) x)) r.
Proof. exact cdar_min_end. Qed.
Print Assumptions c139_min_cdar.
Theorem c139_min_cdar_found : forall s rows beta b v w o d f, cdar_made s rows beta b v w o d -> tail_end beta (length (dropna rows)) f -> forall sv (mn : bool), exact_solver sv -> 
  complete_solver sv -> (succeeds (min_cdar sv d mn) w o <-> exists lb ub x, bounds_in_force mn o lb ub /\ chosen (length s) lb ub (if mn then 0 else 1) (fun _ => True) (fun x => f (falls (dropna rows) x)) x).
Proof. exact cdar_min_end_iff. Qed.
Print Assumptions c139_min_cdar_found.
Theorem c139_cdar_risk : forall s rows beta b v w o d f, cdar_made s rows beta b v w o d -> tail_end beta (length (dropna rows)) f -> forall sv (mn : bool), exact_solver sv -> 
  forall t, forall x y r, NoDup (map fst s) -> cdar_efficient_risk sv d t mn w o = (x, y, Ok r) ->
  exists lb ub, bounds_in_force mn o lb ub /\ answers (map fst s) lb ub (if mn then 0 else 1) (fun x => f (falls (dropna rows) x) <= t) (fun x => - inner (map snd s) x) r.
Proof. exact cdar_risk_end. Qed.
Print Assumptions c139_cdar_risk.
Theorem c139_cdar_risk_found : forall s rows beta b v w o d f, cdar_made s rows beta b v w o d -> tail_end beta (length (dropna rows)) f -> forall sv (mn : bool), exact_solver sv -> 
  complete_solver sv -> forall t, (succeeds (cdar_efficient_risk sv d t mn) w o <-> 0 <= t /\ exists lb ub x, bounds_in_force mn o lb ub /\ chosen (length s) lb ub (if mn then 0 else 1) (fun x => f (falls (dropna rows) x) <= t) (fun x => - inner (map snd s) x) x).
Proof. exact cdar_risk_end_iff. Qed.
Print Assumptions c139_cdar_risk_found.
Theorem c139_cdar_return : forall s rows beta b v w o d f, cdar_made s rows beta b v w o d -> tail_end beta (length (dropna rows)) f -> forall sv (mn : bool), exact_solver sv -> 
  forall t, forall x y r, NoDup (map fst s) -> cdar_efficient_return sv d t mn w o = (x, y, Ok r) ->
  exists lb ub, bounds_in_force mn o lb ub /\ answers (map fst s) lb ub (if mn then 0 else 1) (fun x => t <= inner (map snd s) x) (fun x => f (falls (dropna rows) x)) r.
Proof. exact cdar_return_end. Qed.
Print Assumptions c139_cdar_return.
Theorem c139_cdar_return_found : forall s rows beta b v w o d f, cdar_made s rows beta b v w o d -> tail_end beta (length (dropna rows)) f -> forall sv (mn : bool), exact_solver sv -> 
  complete_solver sv -> forall t, (succeeds (cdar_efficient_return sv d t mn) w o <-> 0 <= t /\ exists lb ub x, bounds_in_force mn o lb ub /\ chosen (length s) lb ub (if mn then 0 else 1) (fun x => t <= inner (map snd s) x) (fun x => f (falls (dropna rows) x)) x).
Proof. exact cdar_return_end_iff. Qed.
Print Assumptions c139_cdar_return_found.
