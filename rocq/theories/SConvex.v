(** * Specifications for the convex optimizers *)
From Coq Require Import ZArith List String Reals.
From Verif Require Import Py SLin SBase.
Import ListNotations.
Local Open Scope R_scope.

(** a lower / upper bound holds; [None] is no bound *)
Definition above (b : option R) (x : R) : Prop := match b with Some l => l <= x | None => True end.
Definition below (b : option R) (x : R) : Prop := match b with Some u => x <= u | None => True end.

(** weights within bounds *)
Definition within (lb ub : list (option R)) (x : list R) : Prop :=
  Forall2 above lb x /\ Forall2 below ub x.

(** total weight of the assets whose sector is [s] *)
Fixpoint sector_weight (mapper : dict string) (s : string) (tickers : list label) (x : list R) : R :=
  match tickers, x with
  | t :: ts, a :: xs =>
      (if match dget t mapper with Some s' => String.eqb s' s | None => false end then a else 0)
      + sector_weight mapper s ts xs
  | _, _ => 0
  end.

(** ** Portfolios an optimizer may choose *)
From Verif Require Import MBase MConvex MEF.

(** every added term of the objective is a scalar expression *)
Definition scalar_expr (e : expr) : Prop := forall s ps, List.length (eval s ps e) = 1%nat.
(** only parameters that exist already occur *)
Definition scoped_expr (k : nat) (e : expr) : Prop := Forall (fun p => (p < k)%nat) (epars e).
Definition scoped_con (k : nat) (c : con) : Prop := Forall (fun p => (p < k)%nat) (cpars c).

(** the value of the added objectives *)
Definition penalty (s : env) (ps : list R) (adds : list expr) : R := total (map (evals s ps) adds).

(** [o] is an optimizer that has not been solved yet, [u] are the constraints its user has added *)
Definition open_ef (w : world) (o : ef) (u : list (nat * con)) : Prop :=
  e_opt o = None /\
  (exists i j, e_cons o = (i, lower_con (e_lb o) (e_w o)) :: (j, upper_con (e_ub o) (e_w o)) :: u) /\
  List.length (e_lb o) = e_n o /\ List.length (e_ub o) = e_n o /\
  nth_error (w_sizes w) (e_w o) = Some (e_n o) /\
  square (e_n o) (e_cov o) /\ (forall m, e_mu o = Some m -> List.length m = e_n o) /\
  Forall scalar_expr (e_add o) /\
  Forall (scoped_expr (List.length (w_params w))) (e_add o) /\
  Forall (fun ic => scoped_con (List.length (w_params w)) (snd ic)) u.

(** the values [s] of all variables are admissible for user constraints [u], bounds and weight sum *)
Definition admissible (w : world) (o : ef) (u : list (nat * con)) (lb ub : list (option R)) (sum : R)
    (s : env) : Prop :=
  well_sized (w_sizes w) s /\
  within lb ub (s (e_w o)) /\ total (s (e_w o)) = sum /\
  Forall (fun ic => sat s (par_values w) (snd ic)) u.

(** bounds in force: a market neutral portfolio without any negative lower bound gets [-1, 1] *)
Definition no_short_allowed (lb : list (option R)) : Prop :=
  Forall (fun b => match b with Some l => 0 <= l | None => False end) lb.
Definition bounds_in_force (mn : bool) (o : ef) (lb ub : list (option R)) : Prop :=
  (mn = true /\ no_short_allowed (e_lb o) /\
     lb = repeat (Some (-1)) (e_n o) /\ ub = repeat (Some 1) (e_n o)) \/
  (mn = false \/ ~ no_short_allowed (e_lb o)) /\ lb = e_lb o /\ ub = e_ub o.

(** [ws] and [d] are, rounded to 16 decimals, the weights in [s], which is admissible, satisfies [ok],
    and has the least [cost] plus added objectives among all such portfolios *)
Definition best_at (w : world) (o : ef) (u : list (nat * con)) (lb ub : list (option R)) (sum : R)
    (ok : list R -> Prop) (cost : list R -> R) (ws : option (list R)) (d : dict R) (s : env) : Prop :=
  exists r, ws = Some r /\ Forall2 (rounded 16) (s (e_w o)) r /\ d = dict_of_pairs (combine (b_tickers (e_base o)) r) /\
    admissible w o u lb ub sum s /\ ok (s (e_w o)) /\
    forall s', admissible w o u lb ub sum s' -> ok (s' (e_w o)) ->
      cost (s (e_w o)) + penalty s (par_values w) (e_add o)
      <= cost (s' (e_w o)) + penalty s' (par_values w) (e_add o).
Definition best_portfolio (w : world) (o : ef) (u : list (nat * con)) (lb ub : list (option R)) (sum : R)
    (ok : list R -> Prop) (cost : list R -> R) (ws : option (list R)) (d : dict R) : Prop :=
  exists s, best_at w o u lb ub sum ok cost ws d s.

(** ** The Sharpe ratio *)
(** excess return over [rf] of weights summing to one *)
Definition excess (m : list R) (rf : R) (x : list R) : R := inner m x - rf.

(** [s] with the value of variable [v] multiplied by [t] *)
Definition scaled (v : nat) (t : R) (s : env) : env :=
  fun i => if Nat.eqb i v then map (fun a => t * a) (s i) else s i.
(** [e] is homogeneous in variable [v]: it scales with it *)
Definition homogeneous (v : nat) (e : expr) : Prop :=
  forall t s ps, 0 < t -> eval (scaled v t s) ps e = map (fun a => t * a) (eval s ps e).
(** a constraint with everything that varies on one side, homogeneous, and a constant on the other *)
Definition constant_on_one_side (v : nat) (c : con) : Prop :=
  match c with
  | CIneq (EConst _) b => homogeneous v b
  | CIneq a (EConst _) => homogeneous v a
  | CEq a (EConst _) => homogeneous v a
  | _ => False
  end.
Definition known_vars (k : nat) (c : con) : Prop := Forall (fun x => (x < k)%nat) (cvars c).

(** ** Call sequences *)
(** calls that hand a problem to the convex solver *)
Definition attempts (c : call) : Prop :=
  match c with
  | KMinVol | KMaxReturn | KMaxSharpe _ | KUtility _ _ | KRisk _ _ | KConvex _ _ => True
  | _ => False
  end.
(** the state after calls with arguments [ts]; exceptions are caught *)
Fixpoint after {X} (F : X -> M ef (dict R)) (ts : list X) (w : world) (o : ef) : world * ef :=
  match ts with
  | [] => (w, o)
  | t :: ts' => match F t w o with (w', o', _) => after F ts' w' o' end
  end.

(** no parameter of that name occurs in the constraints and the objective (and the added objectives) *)
Definition fresh_name (w : world) (o : ef) (name : string) : Prop :=
  forall p, In p (all_params o) -> named w name p = false.

Definition unused_name (w : world) (o : ef) (name : string) : Prop :=
  forall p, In p (all_params o ++ flat_map epars (e_add o)) -> named w name p = false.
(** scipy's answer satisfies what it was given *)
Definition nlp_point_ok (q : nlp) (x : list R) : Prop :=
  Forall2 (fun b a => above (fst b) a /\ below (snd b) a) (nlp_bounds q) x /\
  (nlp_sum_to_one q = true -> total x = 1) /\ Forall (fun P => P x) (nlp_cons q).

(** [s] is a best portfolio: admissible, [ok], and of least cost *)
Definition least (w : world) (o : ef) (u : list (nat * con)) (lb ub : list (option R)) (sum : R)
    (ok : list R -> Prop) (cost : list R -> R) (s : env) : Prop :=
  admissible w o u lb ub sum s /\ ok (s (e_w o)) /\
  forall s', admissible w o u lb ub sum s' -> ok (s' (e_w o)) ->
    cost (s (e_w o)) + penalty s (par_values w) (e_add o)
    <= cost (s' (e_w o)) + penalty s' (par_values w) (e_add o).
(** a solver that answers whenever there is an optimum *)
Definition complete_solver (sv : solver_t) : Prop :=
  forall sizes ps obj cs s, optimal sizes ps obj cs s -> exists s' v, sv sizes ps obj cs = AOptimal s' v.

(** the two objects agree in everything but bounds, constraints and the market-neutral flag *)
Definition same_but_bounds (o o' : ef) : Prop :=
  e_base o' = e_base o /\ e_rf o' = e_rf o /\ e_w o' = e_w o /\ e_obj o' = e_obj o /\ e_add o' = e_add o /\
  e_opt o' = e_opt o /\ e_cov o' = e_cov o /\ e_mu o' = e_mu o /\ e_maxret o' = e_maxret o.

(** names and shapes that the constructor derives from its arguments *)
Definition init_tickers (m : mu_arg) (c : cov_arg) : list label :=
  match m, c with
  | MuSeries s, _ => map fst s
  | _, CovFrame cols _ => cols
  | _, _ => range_labels (match mu_values m with None => List.length (cov_values c) | Some l => List.length l end)
  end.
Definition init_shape_ok (m : mu_arg) (c : cov_arg) : Prop :=
  match mu_values m with
  | None => True
  | Some l => List.length (cov_values c) = List.length l /\ num_cols (cov_values c) = List.length l
  end.
