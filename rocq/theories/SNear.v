(** * Specifications: solvers of limited accuracy *)
From Coq Require Import ZArith List String Reals.
From Verif Require Import Py SLin SBase MBase MConvex MEF SConvex.
Import ListNotations.
Local Open Scope R_scope.

(** a constraint holds up to [t]: no entry of an inequality or equation is off by more than [t]; any
    other constraint holds for a point that is off by at most [t] in every entry *)
Definition meets (t : R) (s : env) (ps : list R) (c : con) : Prop :=
  match c with
  | CIneq a b => Forall (fun d => d <= t) (bop Rminus (eval s ps a) (eval s ps b))
  | CEq a b => Forall (fun d => Rabs d <= t) (bop Rminus (eval s ps a) (eval s ps b))
  | COther P a => exists y, Forall2 (fun p q => Rabs (p - q) <= t) (eval s ps a) y /\ P y
  end.

(** a solver with feasibility tolerance [t] and accuracy [g]: its answers meet every constraint up to
    [t], no feasible point is better by more than [g], and the value it reports is off by at most [g] *)
Definition accurate_solver (t g : R) (sv : solver_t) : Prop :=
  forall sizes ps obj cs s v, sv sizes ps obj cs = AOptimal s v ->
    well_sized sizes s /\ Forall (meets t s ps) cs /\
    (forall s', feasible sizes ps cs s' -> evals s ps obj <= evals s' ps obj + g) /\
    Rabs (v - evals s ps obj) <= g.

(** weights within bounds up to [t] *)
Definition nearly_within (t : R) (lb ub : list (option R)) (x : list R) : Prop :=
  Forall2 (fun b a => above b (a + t)) lb x /\ Forall2 (fun b a => below b (a - t)) ub x.

(** the values [s] of all variables are admissible up to [t] *)
Definition nearly_admissible (t : R) (w : world) (o : ef) (u : list (nat * con))
    (lb ub : list (option R)) (sum : R) (s : env) : Prop :=
  well_sized (w_sizes w) s /\
  nearly_within t lb ub (s (e_w o)) /\ Rabs (total (s (e_w o)) - sum) <= t /\
  Forall (fun ic => meets t s (par_values w) (snd ic)) u.

(** [ws] and [d] are, rounded to 16 decimals, the weights of [s], which are admissible up to [t] and satisfy
    [near]; and [low] of them is above the [cost] of an admissible portfolio that satisfies [ok] by at most [g] *)
Definition near_at (t g : R) (w : world) (o : ef) (u : list (nat * con)) (lb ub : list (option R)) (sum : R)
    (near ok : list R -> Prop) (low cost : list R -> R) (ws : option (list R)) (d : dict R) (s : env) : Prop :=
  exists r, ws = Some r /\ Forall2 (rounded 16) (s (e_w o)) r /\
    d = dict_of_pairs (combine (b_tickers (e_base o)) r) /\
    nearly_admissible t w o u lb ub sum s /\ near (s (e_w o)) /\
    forall s', admissible w o u lb ub sum s' -> ok (s' (e_w o)) ->
      low (s (e_w o)) + penalty s (par_values w) (e_add o)
      <= cost (s' (e_w o)) + penalty s' (par_values w) (e_add o) + g.

(** [ws] and [d] are, rounded to 16 decimals, weights that are admissible up to [t] and satisfy [near],
    and no admissible portfolio that satisfies [ok] is better by more than [g] *)
Definition near_best (t g : R) (w : world) (o : ef) (u : list (nat * con)) (lb ub : list (option R)) (sum : R)
    (near ok : list R -> Prop) (cost : list R -> R) (ws : option (list R)) (d : dict R) : Prop :=
  exists s, near_at t g w o u lb ub sum near ok cost cost ws d s.

(** the square of a deviation that is smaller by [c], for a deviation with square [v] *)
Definition less_dev (c v : R) : R := Rmax (sqrt v - c) 0 * Rmax (sqrt v - c) 0.

(** how far the risk the solver sees may lie below the true risk, for a tolerance [t] *)
Definition cvar_slack (beta t : R) : R := t / (1 - beta).
Definition cdar_slack (T : nat) (beta t : R) : R := (INR T + 1) * t + t / (1 - beta).
Definition semi_slack (T : nat) (bench t : R) : R := t * (2 * sqrt (INR T) + Rabs bench).

(** all bounds are present and lie in [-c, c] *)
Definition bounded_by (c : R) (lb ub : list (option R)) : Prop :=
  Forall (fun b => exists l, b = Some l /\ Rabs l <= c) lb /\ Forall (fun b => exists l, b = Some l /\ Rabs l <= c) ub.
(** how far [max_sharpe] may be off the constraints of the portfolio: it solves for a multiple of the
    weights and divides, which enlarges the tolerance [t] of the solver *)
Definition enlarged (t c : R) (m : list R) (r : R) : R :=
  let l := total (map (fun x => Rabs (x - r)) m) in t * (l * c) / (1 - t * (1 + l)).
