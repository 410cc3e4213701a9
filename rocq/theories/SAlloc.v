(** * Specification vocabulary for discrete allocation (independent of the algorithm) *)
From Coq Require Import ZArith List Reals.
From Verif Require Import Num Py MAlloc.
Import ListNotations.
Local Open Scope R_scope.

(** price of a ticker in a labelled price series (0 if it has none) *)
Definition price_of (prices : dict R) (t : label) : R :=
  match dget t prices with Some p => p | None => 0 end.

(** number of shares an allocation holds of a ticker (0 if not listed) *)
Definition shares_in (al : dict Z) (t : label) : Z :=
  match dget t al with Some n => n | None => 0%Z end.

(** market value of an allocation *)
Fixpoint alloc_value (prices : dict R) (al : dict Z) : R :=
  match al with
  | [] => 0
  | (t, n) :: al' => IZR n * price_of prices t + alloc_value prices al'
  end.

(** gross value: shorts counted with their absolute value *)
Fixpoint gross_value (prices : dict R) (al : dict Z) : R :=
  match al with
  | [] => 0
  | (t, n) :: al' => IZR (Z.abs n) * price_of prices t + gross_value prices al'
  end.

Definition long_only (w : dict R) : Prop := forall t x, In (t, x) w -> 0 <= x.
Definition has_short (w : dict R) : Prop := exists t x, In (t, x) w /\ x < 0.
Definition total_weight (w : dict R) : R := fold_right (fun kv s => snd kv + s) 0 w.

Definition all_priced (w prices : dict R) : Prop :=
  forall t x, In (t, x) w -> exists p, dget t prices = Some p.
Definition positive_prices (prices : dict R) : Prop := forall t p, In (t, p) prices -> 0 < p.

(** what the constructor guarantees about an object: the weights come from a dictionary *)
Definition valid_da (d : da (A:=R)) : Prop :=
  NoDup (map fst (da_weights d)) /\ 0 < da_total d /\ 0 <= da_short_ratio d.

(** fraction of an allocation's value held in one ticker *)
Definition held_fraction (prices : dict R) (al : dict Z) (t : label) : R :=
  IZR (shares_in al t) * price_of prices t / alloc_value prices al.

(** money spent when every weight buys the whole shares it can pay for *)
Definition whole_share_cost (w prices : dict R) (T : R) : R :=
  fold_right (fun kv s => IZR (Int_part (snd kv * T / price_of prices (fst kv)))
                          * price_of prices (fst kv) + s) 0 w.

(** total size of the short positions *)
Definition short_total (w : dict R) : R := fold_right (fun kv s => Rmax 0 (- snd kv) + s) 0 w.

(** sum of absolute dollar deviations from the target weights, and cost, of a share assignment *)
Definition dollar_dev (w prices : dict R) (T : R) (f : label -> Z) : R :=
  fold_right (fun kv s => Rabs (snd kv * T - IZR (f (fst kv)) * price_of prices (fst kv)) + s) 0 w.
Definition shares_cost (w prices : dict R) (f : label -> Z) : R :=
  fold_right (fun kv s => IZR (f (fst kv)) * price_of prices (fst kv) + s) 0 w.

(** ** Integer program: a contract for the solver *)
(** feasibility of (x, u) for the program that lp_portfolio builds
    (discrete_allocation.py 314-322) *)
Definition lp_feasible (P : lp (A:=R)) (x u : list R) : Prop :=
  length x = length (lp_p P) /\ length u = length (lp_p P) /\
  Forall (fun xi => exists z, xi = IZR z) x /\
  Forall2 (fun e ui => e <= ui) (lp_eta P x) u /\
  Forall2 (fun e ui => - ui <= e) (lp_eta P x) u /\
  Forall (fun xi => 0 <= xi) x /\
  0 <= lp_r P x.
Definition lp_objective (P : lp (A:=R)) (x u : list R) : R := vsum u + lp_r P x.

(** exact solver: any answer is feasible and optimal *)
Definition exact_milp (solver : lp (A:=R) -> lp_outcome (A:=R)) : Prop :=
  forall P x u, solver P = LPAnswer x u ->
    lp_feasible P x u /\
    forall x' u', lp_feasible P x' u' -> lp_objective P x u <= lp_objective P x' u'.

(** ** Price tables: column i of the rows *)
Definition cell (row : list (option R)) (i : nat) : option R := nth i row None.

(** complete solver: it answers whenever a program with at least one asset has a best answer *)
Definition complete_milp (solver : lp (A:=R) -> lp_outcome (A:=R)) : Prop :=
  forall P x u, lp_p P <> [] -> lp_feasible P x u -> (forall x' u', lp_feasible P x' u' -> lp_objective P x u <= lp_objective P x' u') ->
    exists x' u', solver P = LPAnswer x' u'.
