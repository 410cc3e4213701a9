(** * What the warnings are about *)
From Coq Require Import ZArith List String Bool Reals.
From Verif Require Import Num Py MEF MDown MCalls MArray MWarn.
Import ListNotations.
Local Open Scope R_scope.

(** calls with market_neutral=True *)
Definition asks_neutral (c : call) : Prop :=
  match c with KUtility _ mn | KRisk _ mn | KReturn _ mn => mn = true | _ => False end.
Definition asks_neutral_d (c : dcall) : Prop :=
  match c with GMin mn | GUtility _ mn | GRisk _ mn | GReturn _ mn => mn = true | _ => False end.
Definition is_sectors (c : call) : Prop := match c with KAddSector _ _ _ => True | _ => False end.
Definition is_sectors_d (c : dcall) : Prop := match c with GAddSector _ _ _ => True | _ => False end.
Definition is_sharpe (c : call) : Prop := match c with KMaxSharpe _ => True | _ => False end.
(** the user did not allow a negative weight anywhere *)
Definition all_long (lb : list (option R)) : Prop := forall b, In b lb -> exists x, b = Some x /\ 0 <= x.
Definition same_bounds (o o' : ef) : Prop := e_lb o' = e_lb o /\ e_ub o' = e_ub o.
Definition widened (o o' : ef) : Prop :=
  List.length (e_lb o') = e_n o /\ List.length (e_ub o') = e_n o /\
  (forall b, In b (e_lb o') -> b = Some (-1)) /\ (forall b, In b (e_ub o') -> b = Some 1).

(** the effect of a call on the bounds and the warnings *)
Definition effect (neutral sectors sharpe : Prop) (o : ef) (new : list warning) (o' : ef) (r : res unit) : Prop :=
  (In WBounds new -> neutral /\ all_long (e_lb o) /\ widened o o') /\
  (~ In WBounds new -> same_bounds o o') /\
  (In WShortSectors new <-> sectors /\ ~ all_long (e_lb o)) /\
  (In WObjectives new -> sharpe /\ e_add o <> []) /\
  (sharpe -> e_add o <> [] -> r = Ok tt -> In WObjectives new) /\
  incl new [WBounds; WShortSectors; WObjectives] /\ (List.length new <= 1)%nat /\ e_n o' = e_n o.
(** the warning about the bounds was issued exactly once *)
Definition once (new : list warning) : Prop := exists pre post, new = pre ++ WBounds :: post /\ ~ In WBounds pre /\ ~ In WBounds post.
(** the effect of a sequence of calls *)
Definition calls_effect (neutral : Prop) (o : ef) (new : list warning) (o' : ef) : Prop :=
  (~ In WBounds new -> same_bounds o o') /\
  (In WBounds new -> neutral /\ all_long (e_lb o) /\ widened o o' /\ ((0 < e_n o)%nat -> once new)) /\ e_n o' = e_n o.
(** the warnings about a short span *)
Definition spans (ws : list warning) : list warning := filter (fun x => match x with WSpan => true | _ => false end) ws.
(** the conversion of the table is announced, and nothing else but the repair *)
Definition announces (t : table) (more : list warning) (ws : list warning) : Prop :=
  (In WNotFrame ws <-> forall f, t <> TFrame f) /\ incl ws ([WNotFrame; WAmended; WNotFixed] ++ more).
