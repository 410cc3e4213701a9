(** * Specifications for the critical line algorithm *)
From Coq Require Import List Reals Permutation.
From Verif Require Import Num Py SLin.
Import ListNotations.
Local Open Scope R_scope.

(** a portfolio that sums to one and keeps the bounds *)
Definition feasible (lb ub w : list R) : Prop :=
  total w = 1 /\ Forall2 Rle lb w /\ Forall2 Rle w ub.

(** the same up to a tolerance *)
Definition nearly_feasible (tol : R) (lb ub w : list R) : Prop :=
  Rabs (total w - 1) <= tol /\ Forall2 (fun l x => l - tol <= x) lb w /\ Forall2 (fun x u => x <= u + tol) w ub.

(** well formed problem data: as many bounds as assets, lower bounds not above upper bounds *)
Definition boxes (n : nat) (lb ub : list R) : Prop := length lb = n /\ length ub = n /\ Forall2 Rle lb ub.

(** [w] maximises the expected return over the feasible portfolios *)
Definition max_return (mean lb ub w : list R) : Prop :=
  feasible lb ub w /\ forall v, feasible lb ub v -> inner v mean <= inner w mean.

(** every asset other than [a] is at one of its bounds *)
Definition at_bounds_except (a : nat) (lb ub w : list R) : Prop :=
  forall j, (j < length w)%nat -> j <> a -> nth j w 0 = nth j lb 0 \/ nth j w 0 = nth j ub 0.

Definition integral (x : R) : Prop := exists z, x = IZR z.

(** ** Clean-up of turning points *)
From Verif Require Import MBase MCLA.

(** what a list of turning points becomes when exactly those with a later point of larger expected
    return are removed *)
Inductive pruned (mean : list R) : list (tp R) -> list (tp R) -> Prop :=
| pr_nil : pruned mean [] []
| pr_keep : forall p l l', (forall q, In q l -> inner (t_w q) mean <= inner (t_w p) mean) ->
    pruned mean l l' -> pruned mean (p :: l) (p :: l')
| pr_drop : forall p l l', (exists q, In q l /\ inner (t_w p) mean < inner (t_w q) mean) ->
    pruned mean l l' -> pruned mean (p :: l) l'.

(** expected returns do not increase along the list *)
Definition descending (mean : list R) (l : list (tp R)) : Prop :=
  forall i j p q, (i <= j)%nat -> nth_error l i = Some p -> nth_error l j = Some q -> inner (t_w q) mean <= inner (t_w p) mean.
(** the turning points a run computes before clean-up *)
Definition raw_points (fuel : nat) (inv : list (list R) -> res (list (list R))) (ord : list nat -> list nat) (o : cla R) (f : list nat) (w : list R)
  : list (tp R) * res unit :=
  loop inv ord (c_mean o) (c_cov o) (c_lb o) (c_ub o) (c_int o) fuel f w None [mkTP w None None f].
(** the code's tolerance *)
Definition tol9 : R := 1 / 1000000000.
(** two or more turning points, all feasible up to the tolerance *)
Definition all_feasible (o : cla R) : Prop :=
  (2 <= length (c_tp o))%nat /\ Forall (fun p => nearly_feasible tol9 (c_lb o) (c_ub o) (t_w p)) (c_tp o).
(** one ticker for each asset *)
Definition well_labelled (o : cla R) : Prop := NoDup (b_tickers (c_base o)) /\ length (b_tickers (c_base o)) = length (c_lb o).
(** [q] comes directly after [p] *)
Definition consecutive (p q : tp R) (l : list (tp R)) : Prop := exists l1 l2, l = l1 ++ p :: q :: l2.

(** ** Calls on a CLA object *)
Inductive cla_call := CallMinVol | CallSharpe | CallFrontier (points : nat).
(** the portfolios a call hands out *)
Definition do_call (fuel : nat) (inv : list (list R) -> res (list (list R))) (ord : list nat -> list nat)
    (c : cla_call) (o : cla R) : cla R * res (list (list R)) :=
  match c with
  | CallMinVol => match cla_min_volatility fuel inv ord o with (o', Ok d) => (o', Ok [dvalues d]) | (o', Err e) => (o', Err e) end
  | CallSharpe => match cla_max_sharpe fuel inv ord o with (o', Ok d) => (o', Ok [dvalues d]) | (o', Err e) => (o', Err e) end
  | CallFrontier k => match cla_frontier fuel inv ord k o with (o', Ok (_, _, ws)) => (o', Ok ws) | (o', Err e) => (o', Err e) end
  end.
Fixpoint do_calls (fuel : nat) (inv : list (list R) -> res (list (list R))) (ord : list nat -> list nat)
    (cs : list cla_call) (o : cla R) : cla R * list (res (list (list R))) :=
  match cs with
  | [] => (o, [])
  | c :: cs' => let '(o1, r) := do_call fuel inv ord c o in
                let '(o2, rs) := do_calls fuel inv ord cs' o1 in (o2, r :: rs)
  end.

(** [w] is on the segment between the turning points [p] and [q] *)
Definition on_segment (w p q : list R) : Prop :=
  length w = length p /\ length p = length q /\
  exists t, 0 <= t <= 1 /\ forall i, nth i w 0 = (1 - t) * nth i p 0 + t * nth i q 0.

(** ** Optimality conditions *)

(** [np.linalg.inv]: on a square array, whatever is returned is an inverse *)
Definition sound_inverse (inv : list (list R) -> res (list (list R))) : Prop :=
  forall k M P, square k M -> inv M = Ok P -> right_inverse k M P.
(** a Python set is iterated over in some order *)
Definition set_order (ord : list nat -> list nat) : Prop := forall l, Permutation (ord l) l.
(** a set of free assets *)
Definition free_set (n : nat) (f : list nat) : Prop := f <> [] /\ NoDup f /\ forall i, In i f -> (i < n)%nat.
(** marginal variance minus lambda times expected return is the same number for all assets of [f] *)
Definition stationary (mean : list R) (cov : list (list R)) (f : list nat) (lam gam : R) (w : list R) : Prop :=
  forall i, In i f -> inner (nth i cov []) w - lam * nth i mean 0 = gam.
(** [w] agrees with [w0] on the assets outside [f] *)
Definition agrees_off (f : list nat) (w w0 : list R) : Prop :=
  length w = length w0 /\ forall i, ~ In i f -> nth i w 0 = nth i w0 0.

(** [w] solves the problem "half the variance minus lam times the return" over the feasible portfolios *)
Definition optimal_at (mean : list R) (cov : list (list R)) (lb ub : list R) (lam : R) (w : list R) : Prop :=
  feasible lb ub w /\
  forall v, feasible lb ub v -> qform cov w / 2 - lam * inner w mean <= qform cov v / 2 - lam * inner v mean.
(** [w] has the smallest variance of all feasible portfolios *)
Definition least_variance (cov : list (list R)) (lb ub w : list R) : Prop :=
  feasible lb ub w /\ forall v, feasible lb ub v -> qform cov w <= qform cov v.
(** every asset outside [f] is at a bound *)
Definition at_bounds_off (f : list nat) (lb ub w : list R) : Prop :=
  forall j, (j < length w)%nat -> ~ In j f -> nth j w 0 = nth j lb 0 \/ nth j w 0 = nth j ub 0.
(** general position: on the path of optimal portfolios, beside a set of free assets at most one further
    asset meets the stationarity condition *)
Definition untied (mean : list R) (cov : list (list R)) (lb ub : list R) : Prop :=
  forall f lam gam w i j, free_set (length mean) f -> 0 <= lam -> optimal_at mean cov lb ub lam w -> at_bounds_off f lb ub w ->
    stationary mean cov f lam gam w -> (i < length mean)%nat -> (j < length mean)%nat -> ~ In i f -> ~ In j f ->
    inner (nth i cov []) w - lam * nth i mean 0 = gam -> inner (nth j cov []) w - lam * nth j mean 0 = gam -> i = j.
(** and none does at the end of the path *)
Definition untied_end (mean : list R) (cov : list (list R)) (lb ub : list R) : Prop :=
  forall f gam w i, free_set (length mean) f -> least_variance cov lb ub w -> at_bounds_off f lb ub w ->
    stationary mean cov f 0 gam w -> (i < length mean)%nat -> ~ In i f -> inner (nth i cov []) w <> gam.
(** along a critical line with two or more free assets every free weight changes with lambda *)
Definition moving (mean : list R) (cov : list (list R)) : Prop :=
  forall f i lam gam w lam' gam' w', free_set (length mean) f -> (2 <= length f)%nat -> In i f ->
    length w = length mean -> agrees_off f w' w -> total w = 1 -> total w' = 1 ->
    stationary mean cov f lam gam w -> stationary mean cov f lam' gam' w' -> nth i w 0 = nth i w' 0 -> lam = lam'.
(** [np.linalg.inv] also finds the inverse when there is one *)
Definition complete_inverse (inv : list (list R) -> res (list (list R))) : Prop :=
  forall k M P, square k M -> right_inverse k M P -> exists Q, inv M = Ok Q.

From Verif Require Import SBL.
(** a new CLA object with float bounds that admit portfolios, and a positive definite covariance matrix *)
Definition well_posed (o : cla R) : Prop :=
  c_tp o = [] /\ c_int o = false /\ boxes (c_n o) (c_lb o) (c_ub o) /\ total (c_lb o) < 1 /\ 1 <= total (c_ub o) /\
  pos_def (c_n o) (c_cov o) /\ symmetric (c_n o) (c_cov o).
(** general position of a CLA problem: the two tie conditions, moving weights, and proper intervals as bounds *)
Definition general_position (o : cla R) : Prop :=
  untied (c_mean o) (c_cov o) (c_lb o) (c_ub o) /\ untied_end (c_mean o) (c_cov o) (c_lb o) (c_ub o) /\
  moving (c_mean o) (c_cov o) /\ Forall2 Rlt (c_lb o) (c_ub o).
(** part [t] of [p] and part [1 - t] of [q] *)
Definition blend (t : R) (p q : list R) : list R := map (fun x => t * fst x + (1 - t) * snd x) (combine p q).
