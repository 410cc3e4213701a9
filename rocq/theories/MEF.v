(** * Model of pypfopt/objective_functions.py, of BaseConvexOptimizer
    (pypfopt/base_optimizer.py 125-512) and of
    pypfopt/efficient_frontier/efficient_frontier.py *)
From Coq Require Import ZArith List String Bool Reals.
From Verif Require Import Num Py MBase MConvex.
Import ListNotations.
Local Open Scope R_scope.
Local Open Scope m_scope.

(** ** Objective functions

    Each function builds a cvxpy expression from the weights [w] (a variable, or a constant when the
    weights are an array); for an array [_objective_value] (objective_functions.py 35-56) returns the
    value of that expression, i.e. [evals] of it. *)

Definition sign_of (negative : bool) : R := if negative then -1 else 1.

(** objective_functions.py 59-71 *)
Definition portfolio_variance_e (w : expr) (cov : list (list R)) : expr := EQuad cov w.
(** objective_functions.py 74-89 *)
Definition portfolio_return_e (w : expr) (mu : list R) (negative : bool) : expr :=
  EMul (EScalar (sign_of negative)) (EDot mu w).
(** objective_functions.py 118-137 *)
Definition L2_reg_e (w : expr) (gamma : R) : expr := EMul (EScalar gamma) (ESumSq w).
(** objective_functions.py 140-165; the parameter is [par], made by the caller with [nonneg=True] *)
Definition quadratic_utility_e (w : expr) (mu : list R) (cov : list (list R)) (par : nat)
    (negative : bool) : expr :=
  EMul (EScalar (sign_of negative))
    (ESub (EDot mu w) (EMul (EMul (EScalar (1/2)) (EPar par)) (EQuad cov w))).
(** objective_functions.py 168-183 *)
Definition transaction_cost_e (w : expr) (w_prev : list R) (k : R) : expr :=
  EMul (EScalar k) (ENorm1 (ESub w (EConst w_prev))).
(** objective_functions.py 186-202 *)
Definition ex_ante_tracking_error_e (w : expr) (cov : list (list R)) (bench : list R) : expr :=
  EQuad cov (ESub w (EConst bench)).
(** objective_functions.py 205-226; [hist] is T x n, [bench] has length T > 0 *)
Definition ex_post_tracking_error_e (w : expr) (hist : list (list R)) (bench : list R) : expr :=
  let x := ESub (ELin hist w) (EConst bench) in
  let mean := EMul (ESum x) (EScalar (/ INR (List.length bench))) in
  ESumSq (ESub x mean).

(** ** The optimizer object: attributes of BaseOptimizer, BaseConvexOptimizer, EfficientFrontier *)
(** base_optimizer.py 290-293 *)
Record problem := mkProblem { p_obj : nat * expr; p_cons : list (nat * con) }.
(** base_optimizer.py 47-54, 177-187, efficient_frontier.py 85-88 *)
Record ef := mkEF {
  e_base : base R;                       (* tickers and weights *)
  e_rf : option R;                       (* _risk_free_rate *)
  e_w : nat;                             (* _w *)
  e_obj : option (nat * expr);           (* _objective with its id *)
  e_add : list expr;                     (* _additional_objectives *)
  e_cons : list (nat * con);             (* _constraints with their ids *)
  e_lb : list (option R);                (* _lower_bounds; None is -inf *)
  e_ub : list (option R);                (* _upper_bounds; None is +inf *)
  e_opt : option problem;                (* _opt, _initial_objective, _initial_constraint_ids *)
  e_cov : list (list R);
  e_mu : option (list R);
  e_maxret : option R;                   (* _max_return_value *)
  e_mn : option bool }.                  (* _market_neutral *)

(** base_optimizer.py 47 *)
Definition e_n (o : ef) : nat := List.length (b_tickers (e_base o)).
(** base_optimizer.py 54 *)
Definition e_weights (o : ef) : option (list R) := b_weights (e_base o).

(** base_optimizer.py 178 *)
Definition set_obj (x : option (nat * expr)) (o : ef) : ef :=
  mkEF (e_base o) (e_rf o) (e_w o) x (e_add o) (e_cons o) (e_lb o) (e_ub o) (e_opt o) (e_cov o)
       (e_mu o) (e_maxret o) (e_mn o).
(** base_optimizer.py 179, 341 *)
Definition set_add (x : list expr) (o : ef) : ef :=
  mkEF (e_base o) (e_rf o) (e_w o) (e_obj o) x (e_cons o) (e_lb o) (e_ub o) (e_opt o) (e_cov o)
       (e_mu o) (e_maxret o) (e_mn o).
(** base_optimizer.py 180, 366 *)
Definition set_cons (x : list (nat * con)) (o : ef) : ef :=
  mkEF (e_base o) (e_rf o) (e_w o) (e_obj o) (e_add o) x (e_lb o) (e_ub o) (e_opt o) (e_cov o)
       (e_mu o) (e_maxret o) (e_mn o).
(** base_optimizer.py 181-182 *)
Definition set_bounds (lb ub : list (option R)) (o : ef) : ef :=
  mkEF (e_base o) (e_rf o) (e_w o) (e_obj o) (e_add o) (e_cons o) lb ub (e_opt o) (e_cov o)
       (e_mu o) (e_maxret o) (e_mn o).
(** base_optimizer.py 183, 291-293 *)
Definition set_opt (x : option problem) (o : ef) : ef :=
  mkEF (e_base o) (e_rf o) (e_w o) (e_obj o) (e_add o) (e_cons o) (e_lb o) (e_ub o) x (e_cov o)
       (e_mu o) (e_maxret o) (e_mn o).
(** efficient_frontier.py 249 *)
Definition set_rf (x : option R) (o : ef) : ef :=
  mkEF (e_base o) x (e_w o) (e_obj o) (e_add o) (e_cons o) (e_lb o) (e_ub o) (e_opt o) (e_cov o)
       (e_mu o) (e_maxret o) (e_mn o).
(** efficient_frontier.py 398 *)
Definition set_maxret (x : option R) (o : ef) : ef :=
  mkEF (e_base o) (e_rf o) (e_w o) (e_obj o) (e_add o) (e_cons o) (e_lb o) (e_ub o) (e_opt o) (e_cov o)
       (e_mu o) x (e_mn o).
(** efficient_frontier.py 184 *)
Definition set_mn (x : option bool) (o : ef) : ef :=
  mkEF (e_base o) (e_rf o) (e_w o) (e_obj o) (e_add o) (e_cons o) (e_lb o) (e_ub o) (e_opt o) (e_cov o)
       (e_mu o) (e_maxret o) x.
(** base_optimizer.py 54, 318 *)
Definition set_base (x : base R) (o : ef) : ef :=
  mkEF x (e_rf o) (e_w o) (e_obj o) (e_add o) (e_cons o) (e_lb o) (e_ub o) (e_opt o) (e_cov o)
       (e_mu o) (e_maxret o) (e_mn o).
(** base_optimizer.py 318, 511 *)
Definition put_weights (x : list R) (o : ef) : ef :=
  set_base (mkBase (b_tickers (e_base o)) (Some x)) o.

(** ** Adding constraints and objectives *)

(** base_optimizer.py 343-366: a constraint given by the user: a callable that builds a constraint from the weight variable,
    or something that is not callable *)
Inductive con_arg := CFun (f : nat -> con) | CNotCallable.

(** base_optimizer.py 343-366 [add_constraint] *)
Definition add_constraint (c : con_arg) : M ef unit :=
  match c with
  | CNotCallable => raise TypeError
  | CFun f =>
      o <- get ;;
      match e_opt o with
      | Some _ => raise InstantiationError
      | None =>
          i <- new_id ;;
          modify (fun o => set_cons (e_cons o ++ [(i, f (e_w o))]) o)
      end
  end.

(** base_optimizer.py 321-342 [add_objective]; [f] is the objective with its keyword arguments *)
Definition add_objective (f : nat -> expr) : M ef unit :=
  o <- get ;;
  match e_opt o with
  | Some _ => raise InstantiationError
  | None => modify (fun o => set_add (e_add o ++ [f (e_w o)]) o)
  end.

(** *** Weight bounds *)

(** base_optimizer.py 203-237: one bound: a number, or None / NaN *)
Definition bnum := option R.
(** base_optimizer.py 203-237: the [weight_bounds] argument: two scalars; a tuple, list ([true]) or array ([false]) of
    sequences; anything else *)
Inductive bounds_arg := BPair (l u : bnum) | BSeq (is_list : bool) (rows : list (list bnum)) | BOther.

(** base_optimizer.py 239-240: [w >= lb]: entries equal to -inf always hold and are left out.  The constant is the first
    argument of the cvxpy inequality. *)
Definition finite_ix (b : list (option R)) : list nat :=
  filter (fun i => match nth i b None with Some _ => true | None => false end) (seq 0 (List.length b)).
(** base_optimizer.py 239-240 *)
Definition finite_vals (b : list (option R)) : list R :=
  map (fun i => match nth i b None with Some x => x | None => 0 end) (finite_ix b).
(** base_optimizer.py 239 *)
Definition lower_con (lb : list (option R)) (v : nat) : con :=
  CIneq (EConst (finite_vals lb)) (EIndex (finite_ix lb) (EVar v)).
(** base_optimizer.py 240 *)
Definition upper_con (ub : list (option R)) (v : nat) : con :=
  CIneq (EIndex (finite_ix ub) (EVar v)) (EConst (finite_vals ub)).

(** base_optimizer.py 218-220: [np.array(rows, dtype=float)[:, 0]] and [[:, 1]]: the rows must have equal length (ValueError)
    and at least two columns (IndexError) *)
Definition columns (rows : list (list bnum)) : res (list bnum * list bnum) :=
  match rows with
  | [] => Err IndexError
  | r0 :: _ =>
      if forallb (fun r => (List.length r =? List.length r0)%nat) rows then
        if (List.length r0 <? 2)%nat then Err IndexError
        else Ok (map (fun r => nth 0 r None) rows, map (fun r => nth 1 r None) rows)
      else Err ValueError
  end.
(** base_optimizer.py 219-220, 231-237 *)
Definition or_default (d : R) (x : bnum) : option R := match x with None => Some d | Some y => Some y end.

(** base_optimizer.py 203-240: reading of the bounds, [n] assets.  [np.nan_to_num] turns NaN into
    -inf/inf (per-asset pairs, lines 219-220) or -1/1 (pair of arrays, lines 236-237).  Line 239 fails
    if the arrays do not have [n] entries.  Simplifications: infinite numbers are not given as bounds
    (nan_to_num would make them +-1.8e308); a missing entry of a pair of scalars is None (a NaN would
    stay), a missing entry of a pair of arrays is NaN (nan_to_num leaves an array with None alone). *)
Definition read_bounds (n : nat) (b : bounds_arg) : res (list (option R) * list (option R)) :=
  match b with
  | BOther => Err TypeError
  | BPair l u =>
      if (n =? 2)%nat && match l with None => true | Some _ => false end then Err IndexError
      else Ok (repeat (or_default (-1) l) n, repeat (or_default 1 u) n)
  | BSeq is_list rows =>
      if (List.length rows =? n)%nat then columns rows
      else match rows with
           | [l; u] =>
               if is_list then
                 if (List.length l =? n)%nat && (List.length u =? n)%nat
                 then Ok (map (or_default (-1)) l, map (or_default 1) u)
                 else Err ShapeError
               else Err TypeError
           | _ => Err TypeError
           end
  end.

(** base_optimizer.py 203-240 [_map_bounds_to_constraints] *)
Definition map_bounds (b : bounds_arg) : M ef unit :=
  o <- get ;;
  bs <- lift_res (read_bounds (e_n o) b) ;;
  modify (set_bounds (fst bs) (snd bs)) ;;
  add_constraint (CFun (lower_con (fst bs))) ;;
  add_constraint (CFun (upper_con (snd bs))).

(** base_optimizer.py 396, efficient_frontier.py 170 *)
Definition any_negative (lb : list (option R)) : bool :=
  existsb (fun b => match b with None => true | Some x => Rltb x 0 end) lb.

(** base_optimizer.py 368-405 [add_sector_constraints]; the warning is in MWarn.v.  The position list
    is [w[is_sector]] with a boolean mask; the sum of no weights is 0. *)
Definition sector_ix (tickers : list label) (mapper : dict string) (sector : string) : list nat :=
  filter (fun i => match nth_error tickers i with
                   | Some t => match dget t mapper with Some s => String.eqb s sector | None => false end
                   | None => false
                   end) (seq 0 (List.length tickers)).
(** base_optimizer.py 368-405 *)
Definition add_sector_constraints (mapper : dict string) (lower upper : list (string * R)) : M ef unit :=
  o <- get ;;
  forM upper (fun su => add_constraint (CFun (fun v =>
      CIneq (ESum (EIndex (sector_ix (b_tickers (e_base o)) mapper (fst su)) (EVar v))) (EScalar (snd su))))) ;;
  forM lower (fun sl => add_constraint (CFun (fun v =>
      CIneq (EScalar (snd sl)) (ESum (EIndex (sector_ix (b_tickers (e_base o)) mapper (fst sl)) (EVar v)))))).

(** ** Constructor *)

(** efficient_frontier.py 117-127: the raw arguments; [MuOther]/[CovOther] are values of another type, [CovNone] is None *)
Inductive mu_in := MIn (m : mu_arg) | MInOther.
(** efficient_frontier.py 130-138 *)
Inductive cov_in := CIn (c : cov_arg) | CInNone | CInOther.

(** efficient_frontier.py 55-138 [EfficientFrontier.__init__] and base_optimizer.py 153-187; solver
    and verbosity arguments are not modelled.  [cols] is the number of columns of the covariance. *)
Definition num_cols (m : list (list R)) : nat := match m with [] => 0%nat | r :: _ => List.length r end.
(** efficient_frontier.py 55-138, base_optimizer.py 153-187 *)
Definition ef_init (mu : mu_in) (cov : cov_in) (b : bounds_arg) (w0 : world) : world * res ef :=
  match cov with
  | CInNone => (w0, Err ValueError)
  | CInOther => (w0, Err TypeError)
  | CIn c =>
      match mu with
      | MInOther => (w0, Err TypeError)
      | MIn m =>
          let k := match mu_values m with None => List.length (cov_values c) | Some l => List.length l end in
          let tickers := match m, c with
                         | MuSeries s, _ => map fst s
                         | _, CovFrame cols _ => cols
                         | _, _ => range_labels k
                         end in
          if match mu_values m with
             | None => false
             | Some _ => negb ((List.length (cov_values c) =? k)%nat && (num_cols (cov_values c) =? k)%nat)
             end
          then (w0, Err ValueError)
          else
            match new_var (S := unit) (List.length tickers) w0 tt with
            | (w1, _, Ok v) =>
                let o := mkEF (mkBase tickers None) None v None [] [] [] [] None (cov_values c)
                              (mu_values m) None None in
                match map_bounds b w1 o with
                | (w2, o', Ok _) => (w2, Ok o')
                | (w2, _, Err e) => (w2, Err e)
                end
            | (w1, _, Err e) => (w1, Err e)
            end
      end
  end.

(** base_optimizer.py 189-201 [deepcopy]: everything is copied by value except the cvxpy leaf
    objects, which live in the world and stay shared; constraint copies keep their ids *)
Definition deepcopy (o : ef) : ef := o.

(** ** Parameters *)

(** base_optimizer.py 244-252, 581-602: all parameter occurrences in the constraints and then the objective *)
Definition all_params (o : ef) : list nat :=
  flat_map (fun c => cpars (snd c)) (e_cons o) ++
  match e_obj o with None => [] | Some (_, e) => epars e end.
(** base_optimizer.py 254 *)
Definition named (w : world) (name : string) (p : nat) : bool :=
  match nth_error (w_params w) p with Some q => String.eqb (p_name q) name | None => false end.

(** base_optimizer.py 242-260 [is_parameter_defined] *)
Definition is_parameter_defined (name : string) : M ef bool :=
  o <- get ;; w <- world_get ;;
  match List.length (filter (named w name) (all_params o)) with
  | 0%nat => ret false
  | 1%nat => ret true
  | _ => raise InstantiationError
  end.

(** base_optimizer.py 262-280 [update_parameter_value] *)
Definition update_parameter_value (name : string) (v : R) : M ef unit :=
  d <- is_parameter_defined name ;;
  if d then
    o <- get ;; w <- world_get ;;
    forM (filter (named w name) (all_params o)) (fun p => set_param p v)
  else raise InstantiationError.

(** ** Solving *)
Section Solve.
  Context (sv : solver_t).

  (** base_optimizer.py 301-302 *)
  Definition same_ids (a b : list (nat * con)) : bool :=
    let ia := map fst a in let ib := map fst b in
    forallb (fun i => existsb (Nat.eqb i) ib) ia && forallb (fun i => existsb (Nat.eqb i) ia) ib.

  (** base_optimizer.py 307-309 *)
  Definition prob_vars (p : problem) : list nat :=
    evars (snd (p_obj p)) ++ flat_map (fun c => cvars (snd c)) (p_cons p).
  (** base_optimizer.py 307-309: after a solve the variables of the problem hold the solver's values *)
  Definition store_vals (p : problem) (vals : nat -> option (list R)) (w : world) : world :=
    mkWorld (w_sizes w)
      (fun v => if existsb (Nat.eqb v) (prob_vars p) then vals v else w_val w v) (w_params w) (w_next w).

  (** base_optimizer.py 318: numpy [x.round(16) + 0.0] *)
  Definition round16 (x : R) : R := np_round 16 x.

  (** base_optimizer.py 282-319 [_solve_cvxpy_opt_problem].  Returns the solution vectors and the
      optimal value (which the caller can read off [_w.value], [k.value], [_opt.value]) after having
      set the weights.  Simplification: creating the [cp.Problem] never fails. *)
  Definition solve_opt : M ef (env * R) :=
    o <- get ;;
    match e_obj o with
    | None => raise AttributeError
    | Some ob =>
        p <- match e_opt o with
             | None => let p := mkProblem ob (e_cons o) in modify (set_opt (Some p)) ;; ret p
             | Some p =>
                 if negb (fst ob =? fst (p_obj p))%nat then raise InstantiationError
                 else if negb (same_ids (e_cons o) (p_cons p)) then raise InstantiationError
                 else ret p
             end ;;
        w <- world_get ;;
        match sv (w_sizes w) (par_values w) (snd (p_obj p)) (map snd (p_cons p)) with
        | ARaise TypeError => raise OptimizationError
        | ARaise DCPError => raise OptimizationError
        | ARaise e => raise e
        | ABad upd =>
            (fun w o => (store_vals p upd w, o, Ok tt)) ;;
            raise OptimizationError
        | AOptimal s v =>
            (fun w o => (store_vals p (fun x => Some (s x)) w, o, Ok tt)) ;;
            modify (fun o => put_weights (map round16 (s (e_w o))) o) ;;
            ret (s, v)
        end
    end.

  (** base_optimizer.py 319: [self._make_output_weights()] *)
  Definition output : M ef (dict R) := o <- get ;; lift_res (make_output_weights (e_base o)).
  (** base_optimizer.py 282-319 *)
  Definition solve_and_output : M ef (dict R) := solve_opt ;; output.

  (** base_optimizer.py 431-432: [self._objective = e] followed by [self._objective += obj] for the added objectives *)
  Definition add_all (e : expr) (l : list expr) : expr := fold_left EAdd l e.
  (** base_optimizer.py 429, efficient_frontier.py 212 *)
  Definition set_objective (e : expr) : M ef unit :=
    i <- new_id ;; modify (set_obj (Some (i, e))).
  (** base_optimizer.py 429-432 *)
  Definition set_objective_full (e : expr) : M ef unit :=
    o <- get ;; set_objective (add_all e (e_add o)).

  (** base_optimizer.py 435, efficient_frontier.py 181-183, 199 *)
  Definition sum_is (x : R) : con_arg := CFun (fun v => CEq (ESum (EVar v)) (EScalar x)).

  (** objective_functions.py 59-71: [cp.quad_form(self._w, cov)]: shape check *)
  Definition check_cov : M ef unit :=
    o <- get ;;
    if (List.length (e_cov o) =? e_n o)%nat && forallb (fun r => (List.length r =? e_n o)%nat) (e_cov o)
    then ret tt else raise ShapeError.
  (** objective_functions.py 74-89: [self._w @ self.expected_returns]: [None] and wrong lengths fail *)
  Definition need_mu : M ef (list R) :=
    o <- get ;;
    match e_mu o with
    | None => raise TypeError
    | Some m => if (List.length m =? e_n o)%nat then ret m else raise ShapeError
    end.

  (** efficient_frontier.py 163-184 [_make_weight_sum_constraint] *)
  Definition make_weight_sum_constraint (mn : bool) : M ef unit :=
    (if mn then
       o <- get ;;
       when (negb (any_negative (e_lb o)))
         (map_bounds (BPair (Some (-1)) (Some 1)) ;;
          modify (fun o => set_cons (skipn 2 (e_cons o)) o)) ;;
       add_constraint (sum_is 0)
     else add_constraint (sum_is 1)) ;;
    modify (set_mn (Some mn)).

  (** efficient_frontier.py 456-460 [_validate_market_neutral] *)
  Definition validate_market_neutral (mn : bool) : M ef unit :=
    o <- get ;;
    if match e_mn o with Some b => Bool.eqb b mn | None => false end then ret tt
    else raise InstantiationError.

  (** efficient_frontier.py 186-200 [min_volatility] *)
  Definition min_volatility : M ef (dict R) :=
    o <- get ;;
    check_cov ;;
    set_objective_full (portfolio_variance_e (EVar (e_w o)) (e_cov o)) ;;
    add_constraint (sum_is 1) ;;
    solve_and_output.

  (** efficient_frontier.py 202-223 [_max_return] with [return_value=True] *)
  Definition max_return : M ef R :=
    o <- get ;;
    match e_mu o with
    | None => raise ValueError
    | Some _ =>
        m <- need_mu ;;
        set_objective (portfolio_return_e (EVar (e_w o)) m true) ;;
        add_constraint (sum_is 1) ;;
        r <- solve_opt ;;
        output ;;
        ret (- snd r)
    end.

  (** efficient_frontier.py 241, 348, 394: numeric arguments by Python type *)
  Inductive num_arg := NFloat (x : R) | NInt (z : Z) | NOther.

  (** efficient_frontier.py 244 *)
  Definition list_max (l : list R) : option R :=
    match l with [] => None | x :: l' => Some (fold_left Rmax l' x) end.

  (** efficient_frontier.py 255-270: the constraint for the scaled problem.  [isinstance(args[0],
      Constant)] is the case [EConst] *)
  Definition transform_con (k : nat) (c : con) : res con :=
    match c with
    | CIneq (EConst c0) b => Ok (CIneq (EMul (EConst c0) (EVar k)) b)
    | CIneq a b => Ok (CIneq a (EMul b (EVar k)))
    | CEq a b => Ok (CEq a (EMul b (EVar k)))
    | COther _ _ => Err TypeError
    end.

  (** efficient_frontier.py 267-281 *)
  Definition with_id (c : con) : M ef (nat * con) := i <- new_id ;; ret (i, c).
  (** efficient_frontier.py 265-281 *)
  Fixpoint transform_all (k : nat) (cs : list (nat * con)) : M ef (list (nat * con)) :=
    match cs with
    | [] => ret []
    | (_, c) :: cs' =>
        c' <- lift_res (transform_con k c) ;;
        ic <- with_id c' ;;
        rest <- transform_all k cs' ;;
        ret (ic :: rest)
    end.

  (** efficient_frontier.py 225-293 [max_sharpe].  After the solve the weights are divided by [k];
      with k = 0 the real code goes on with infinities. *)
  Definition max_sharpe (rf : num_arg) : M ef (dict R) :=
    match rf with
    | NOther => raise ValueError
    | NFloat _ | NInt _ =>
        let r := match rf with NFloat x => x | NInt z => IZR z | NOther => 0 end in
        o <- get ;;
        match e_mu o with
        | None => raise TypeError
        | Some mu =>
            match list_max mu with
            | None => raise ValueError
            | Some mx =>
                if Rleb mx r then raise ValueError else
                modify (set_rf (Some r)) ;;
                check_cov ;;
                k <- new_var 1 ;;
                set_objective_full (EQuad (e_cov o) (EVar (e_w o))) ;;
                new <- transform_all k (e_cons o) ;;
                need_mu ;;
                c1 <- with_id (CEq (EDot (map (fun x => x - r) mu) (EVar (e_w o))) (EScalar 1)) ;;
                c2 <- with_id (CEq (ESum (EVar (e_w o))) (EVar k)) ;;
                c3 <- with_id (CIneq (EScalar 0) (EVar k)) ;;
                modify (set_cons (c1 :: c2 :: c3 :: new)) ;;
                s <- solve_opt ;;
                let kv := scalar (fst s k) in
                if Reqb kv 0 then raise FloatSpecial else
                modify (fun o => put_weights (map (fun x => round16 (x / kv)) (fst s (e_w o))) o) ;;
                output
            end
        end
    end.

  (** efficient_frontier.py 295-330 [max_quadratic_utility] *)
  Definition max_quadratic_utility (risk_aversion : R) (mn : bool) : M ef (dict R) :=
    if Rleb risk_aversion 0 then raise ValueError else
    upd <- is_parameter_defined "risk_aversion" ;;
    (if upd then
       validate_market_neutral mn ;;
       update_parameter_value "risk_aversion" risk_aversion
     else
       o <- get ;;
       mu <- need_mu ;;
       check_cov ;;
       p <- new_param "risk_aversion" true risk_aversion ;;
       set_objective_full (quadratic_utility_e (EVar (e_w o)) mu (e_cov o) p true) ;;
       make_weight_sum_constraint mn) ;;
    solve_and_output.

  (** efficient_frontier.py 332-378 [efficient_risk].  [pinv] is [np.linalg.pinv]; a non-positive sum
      of its entries gives sqrt(inf) = inf (sum 0) or nan (negative sum, and no comparison is true). *)
  Definition below_global_min (pinv : list (list R) -> list (list R)) (cov : list (list R)) (t : R) : bool :=
    let s := vsum (map vsum (pinv cov)) in
    if Reqb s 0 then true
    else if Rltb s 0 then false
    else Rltb t (sqrt (1 / s)).
  (** efficient_frontier.py 348 *)
  Definition target_of (t : num_arg) : option R :=
    match t with NFloat x => Some x | NInt z => Some (IZR z) | NOther => None end.
  (** efficient_frontier.py 332-378 *)
  Definition efficient_risk (pinv : list (list R) -> list (list R)) (target : num_arg) (mn : bool)
    : M ef (dict R) :=
    match target_of target with
    | None => raise ValueError
    | Some t =>
        if Rltb t 0 then raise ValueError else
        o <- get ;;
        if below_global_min pinv (e_cov o) t then raise ValueError else
        upd <- is_parameter_defined "target_variance" ;;
        (if upd then
           validate_market_neutral mn ;;
           update_parameter_value "target_variance" (t * t)
         else
           mu <- need_mu ;;
           set_objective (portfolio_return_e (EVar (e_w o)) mu true) ;;
           check_cov ;;
           set_objective_full (portfolio_return_e (EVar (e_w o)) mu true) ;;
           p <- new_param "target_variance" true (t * t) ;;
           add_constraint (CFun (fun v => CIneq (portfolio_variance_e (EVar v) (e_cov o)) (EPar p))) ;;
           make_weight_sum_constraint mn) ;;
        solve_and_output
    end.

  (** efficient_frontier.py 396: Python truth value of [_max_return_value]: None and 0.0 are false *)
  Definition falsy (x : option R) : bool := match x with None => true | Some v => Reqb v 0 end.

  (** base_optimizer.py 189-201, efficient_frontier.py 397-398: the world after running a method on a copy, with its result *)
  Definition on_copy {X} (m : M ef X) : M ef X := fun w o =>
    match m w (deepcopy o) with (w', _, r) => (w', o, r) end.

  (** efficient_frontier.py 380-422 [efficient_return]; the target must be a float *)
  Definition efficient_return (target : num_arg) (mn : bool) : M ef (dict R) :=
    match target with
    | NFloat t =>
        o <- get ;;
        when (falsy (e_maxret o))
          (v <- on_copy max_return ;; modify (set_maxret (Some v))) ;;
        o1 <- get ;;
        if match e_maxret o1 with Some v => Rltb v t | None => false end then raise ValueError else
        upd <- is_parameter_defined "target_return" ;;
        (if upd then
           validate_market_neutral mn ;;
           update_parameter_value "target_return" t
         else
           check_cov ;;
           set_objective (portfolio_variance_e (EVar (e_w o)) (e_cov o)) ;;
           mu <- need_mu ;;
           set_objective_full (portfolio_variance_e (EVar (e_w o)) (e_cov o)) ;;
           p <- new_param "target_return" false t ;;
           add_constraint (CFun (fun v => CIneq (EPar p) (portfolio_return_e (EVar v) mu false))) ;;
           make_weight_sum_constraint mn) ;;
        solve_and_output
    | _ => raise ValueError
    end.

  (** base_optimizer.py 407-437 [convex_objective]; [f] with its keyword arguments.  Simplification:
      [f] builds a new expression each time. *)
  Definition convex_objective (f : nat -> expr) (sum_to_one : bool) : M ef (dict R) :=
    o <- get ;;
    set_objective_full (f (e_w o)) ;;
    when sum_to_one (add_constraint (sum_is 1)) ;;
    solve_and_output.
End Solve.

(** base_optimizer.py 490-510: what [nonconvex_objective] hands to [scipy.optimize.minimize]: the bounds, the weight sum
    constraint if wanted, and the constraints passed to this very call *)
Record nlp := mkNLP {
  nlp_obj : list R -> R;
  nlp_x0 : list R;
  nlp_bounds : list (option R * option R);
  nlp_sum_to_one : bool;
  nlp_cons : list (list R -> Prop) }.
(** base_optimizer.py 503-511: result of scipy: a point and the success flag *)
Definition nlp_solver := nlp -> list R * bool.

(** base_optimizer.py 439-512 [nonconvex_objective]; [guess] is the initial guess *)
Definition nonconvex_objective (ns : nlp_solver) (f : list R -> R) (sum_to_one : bool)
    (cons : list (list R -> Prop)) (guess : option (list R)) : M ef (dict R) :=
  o <- get ;;
  let x0 := match guess with Some g => g | None => repeat (1 / INR (e_n o)) (e_n o) end in
  let q := mkNLP f x0 (combine (e_lb o) (e_ub o)) sum_to_one cons in
  modify (put_weights (fst (ns q))) ;;
  output.

(** efficient_frontier.py 424-454 [portfolio_performance]: the rate of [max_sharpe] wins *)
Definition ef_performance (rf : R) (o : ef) : res (option R * R * option R) :=
  let r := match e_rf o with Some x => x | None => rf end in
  portfolio_performance (match e_weights o with None => WtNone | Some w => WtArray w end)
    (match e_mu o with None => MuNone | Some m => MuArray m end) (CovArray (e_cov o)) r.

(** ** Calls on an object, for statements about call sequences *)
(** base_optimizer.py 321-512, efficient_frontier.py 186-460 *)
Inductive call :=
| KAddObjective (f : nat -> expr)
| KAddConstraint (c : con_arg)
| KAddSector (mapper : dict string) (lower upper : list (string * R))
| KSetWeights (d : dict R)
| KMinVol
| KMaxReturn
| KMaxSharpe (rf : num_arg)
| KUtility (ra : R) (mn : bool)
| KRisk (t : num_arg) (mn : bool)
| KReturn (t : num_arg) (mn : bool)
| KConvex (f : nat -> expr) (sum_to_one : bool)
| KNonconvex (f : list R -> R) (sum_to_one : bool) (cons : list (list R -> Prop)) (guess : option (list R)).

(** base_optimizer.py 321-512, efficient_frontier.py 186-460 *)
Definition drop {X} (m : M ef X) : M ef unit := bind m (fun _ => ret tt).
(** base_optimizer.py 321-512, efficient_frontier.py 186-460 *)
Definition run (sv : solver_t) (ns : nlp_solver) (pinv : list (list R) -> list (list R)) (c : call)
  : M ef unit :=
  match c with
  | KAddObjective f => add_objective f
  | KAddConstraint k => add_constraint k
  | KAddSector m l u => add_sector_constraints m l u
  | KSetWeights d => fun w o => match set_weights (e_base o) d with (b, r) => (w, set_base b o, r) end
  | KMinVol => drop (min_volatility sv)
  | KMaxReturn => drop (max_return sv)
  | KMaxSharpe rf => drop (max_sharpe sv rf)
  | KUtility ra mn => drop (max_quadratic_utility sv ra mn)
  | KRisk t mn => drop (efficient_risk sv pinv t mn)
  | KReturn t mn => drop (efficient_return sv t mn)
  | KConvex f b => drop (convex_objective sv f b)
  | KNonconvex f b cs g => drop (nonconvex_objective ns f b cs g)
  end.
(** base_optimizer.py 321-512, efficient_frontier.py 186-460: a sequence of calls; exceptions are caught by the caller and the state is kept *)
Fixpoint run_all (sv : solver_t) (ns : nlp_solver) (pinv : list (list R) -> list (list R))
    (cs : list call) (w : world) (o : ef) : world * ef :=
  match cs with
  | [] => (w, o)
  | c :: cs' => match run sv ns pinv c w o with (w', o', _) => run_all sv ns pinv cs' w' o' end
  end.
