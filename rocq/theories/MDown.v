(** * Model of EfficientSemivariance, EfficientCVaR and EfficientCDaR
    (pypfopt/efficient_frontier/efficient_semivariance.py, efficient_cvar.py, efficient_cdar.py)

    The attributes these classes add to EfficientFrontier are set by the constructor and never
    changed, so they are kept beside the [ef] object and are arguments of the methods. *)
From Coq Require Import ZArith List String Bool Reals.
From Verif Require Import Num Py MBase MConvex MEF.
Import ListNotations.
Local Open Scope R_scope.
Local Open Scope m_scope.

(** efficient_frontier.py 140-147: the [returns] argument: a table (frame or two-dimensional array) with the number of its columns,
    [None] being NaN; or something else *)
Inductive returns_arg := RTable (ncols : nat) (rows : list (list (option R))) | ROther.

(** efficient_frontier.py 148-153: all entries of a row, if none is missing *)
Fixpoint complete (row : list (option R)) : option (list R) :=
  match row with
  | [] => Some []
  | None :: _ => None
  | Some x :: row' => match complete row' with Some l => Some (x :: l) | None => None end
  end.
(** efficient_frontier.py 148-153 *)
Definition dropna (rows : list (list (option R))) : list (list R) :=
  flat_map (fun row => match complete row with Some l => [l] | None => [] end) rows.

(** efficient_frontier.py 140-161 [_validate_returns] *)
Definition validate_returns (mu : option (list R)) (r : returns_arg) : res (list (list R)) :=
  match r with
  | ROther => Err TypeError
  | RTable ncols rows =>
      if match mu with Some m => negb (ncols =? List.length m)%nat | None => false end then Err ValueError
      else Ok (dropna rows)
  end.

(** efficient_semivariance.py 91, efficient_cvar.py 81, efficient_cdar.py 80 *)
Definition zeros (n : nat) : list (list R) := repeat (repeat 0 n) n.

(** ** EfficientSemivariance *)
(** efficient_semivariance.py 98-101 *)
Record semi := mkSemi { sd_returns : list (list R); sd_bench : R; sd_freq : R }.
(** efficient_semivariance.py 101 *)
Definition sd_T (d : semi) : nat := List.length (sd_returns d).

(** efficient_semivariance.py 50-101; a non-table has no [shape] *)
Definition semi_init (mu : mu_in) (r : returns_arg) (freq bench : R) (b : bounds_arg) (w0 : world)
    : world * res (ef * semi) :=
  match r with
  | ROther => (w0, Err AttributeError)
  | RTable ncols _ =>
      match ef_init mu (CIn (CovArray (zeros ncols))) b w0 with
      | (w1, Err e) => (w1, Err e)
      | (w1, Ok o) =>
          match validate_returns (e_mu o) r with
          | Err e => (w1, Err e)
          | Ok rows => (w1, Ok (o, mkSemi rows bench freq))
          end
      end
  end.

(** the matrix [B]: efficient_semivariance.py 126, 164, 203, 244 *)
Definition semi_B (d : semi) : list (list R) :=
  map (map (fun x => (x - sd_bench d) / sqrt (INR (sd_T d)))) (sd_returns d).
(** efficient_semivariance.py 126-127: [B @ w - p + n == 0], and [nonneg=True] of the variables [p] and [n], which is a constraint of
    any problem they occur in *)
Definition semi_split (d : semi) (p n v : nat) : con :=
  CEq (EAdd (ESub (ELin (semi_B d) (EVar v)) (EVar p)) (EVar n)) (EScalar 0).
(** efficient_semivariance.py 119-120 *)
Definition nonneg_var (p : nat) : con := CIneq (EScalar 0) (EVar p).
(** efficient_semivariance.py 126-127, 164-165, 203-204, 244-245 *)
Definition add_split (d : semi) (p n : nat) : M ef unit :=
  add_constraint (CFun (semi_split d p n)) ;;
  add_constraint (CFun (fun _ => nonneg_var p)) ;;
  add_constraint (CFun (fun _ => nonneg_var n)).

Section Semi.
  Context (sv : solver_t) (d : semi).

  (** efficient_semivariance.py 109-129 *)
  Definition min_semivariance (mn : bool) : M ef (dict R) :=
    p <- new_var (sd_T d) ;;
    n <- new_var (sd_T d) ;;
    set_objective_full (ESumSq (EVar n)) ;;
    add_split d p n ;;
    make_weight_sum_constraint mn ;;
    solve_and_output sv.

  (** efficient_semivariance.py 131-167 *)
  Definition semi_max_quadratic_utility (risk_aversion : R) (mn : bool) : M ef (dict R) :=
    if Rleb risk_aversion 0 then raise ValueError else
    upd <- is_parameter_defined "risk_aversion" ;;
    (if upd then
       validate_market_neutral mn ;;
       update_parameter_value "risk_aversion" risk_aversion
     else
       p <- new_var (sd_T d) ;;
       n <- new_var (sd_T d) ;;
       o <- get ;;
       mu <- need_mu ;;
       par <- new_param "risk_aversion" true risk_aversion ;;
       set_objective_full
         (EAdd (EMul (portfolio_return_e (EVar (e_w o)) mu true) (EScalar (/ sd_freq d)))
               (EMul (EMul (EScalar (1/2)) (EPar par)) (ESumSq (EVar n)))) ;;
       add_split d p n ;;
       make_weight_sum_constraint mn) ;;
    solve_and_output sv.

  (** efficient_semivariance.py 169-206 *)
  Definition semi_efficient_risk (target : R) (mn : bool) : M ef (dict R) :=
    upd <- is_parameter_defined "target_semivariance" ;;
    (if upd then
       validate_market_neutral mn ;;
       update_parameter_value "target_semivariance" (target * target)
     else
       o <- get ;;
       mu <- need_mu ;;
       set_objective_full (portfolio_return_e (EVar (e_w o)) mu true) ;;
       p <- new_var (sd_T d) ;;
       n <- new_var (sd_T d) ;;
       par <- new_param "target_semivariance" true (target * target) ;;
       add_constraint (CFun (fun _ => CIneq (EMul (EScalar (sd_freq d)) (ESumSq (EVar n))) (EPar par))) ;;
       add_split d p n ;;
       make_weight_sum_constraint mn) ;;
    solve_and_output sv.

  (** efficient_semivariance.py 208-247; [np.abs(mu).max()] of an empty array is a ValueError *)
  Definition semi_efficient_return (target : num_arg) (mn : bool) : M ef (dict R) :=
    match target with
    | NFloat t =>
        if Rltb t 0 then raise ValueError else
        o <- get ;;
        match e_mu o with
        | None => raise TypeError
        | Some m =>
            match list_max (map Rabs m) with
            | None => raise ValueError
            | Some mx =>
                if Rltb mx t then raise ValueError else
                upd <- is_parameter_defined "target_return" ;;
                (if upd then
                   validate_market_neutral mn ;;
                   update_parameter_value "target_return" t
                 else
                   p <- new_var (sd_T d) ;;
                   n <- new_var (sd_T d) ;;
                   set_objective_full (ESumSq (EVar n)) ;;
                   par <- new_param "target_return" false t ;;
                   need_mu ;;
                   add_constraint (CFun (fun v => CIneq (EPar par) (ESum (EDot m (EVar v))))) ;;
                   add_split d p n ;;
                   make_weight_sum_constraint mn) ;;
                solve_and_output sv
            end
        end
    | _ => raise ValueError
    end.
End Semi.

(** efficient_semivariance.py 249-279 [portfolio_performance]: return, semideviation and Sortino
    ratio ([None] when dividing by zero); without weights or expected returns numpy's matrix product
    raises ValueError *)
Definition semi_performance (d : semi) (o : ef) (rf : R) : res (R * R * option R) :=
  match e_weights o, e_mu o with
  | Some x, Some m =>
      let mu := dot m x in
      let drops := map (fun y => Rmin (y - sd_bench d) 0) (matvec (sd_returns d) x) in
      let semivariance := vsum (map (fun y => y * y) drops) / INR (sd_T d) * sd_freq d in
      let dev := sqrt semivariance in
      Ok (mu, dev, if Reqb dev 0 then None else Some ((mu - rf) / dev))
  | _, _ => Err ValueError
  end.

(** ** EfficientCVaR *)
(** efficient_cvar.py 88-91 *)
Record cvar_data := mkCVaR { cv_returns : list (list R); cv_beta : R; cv_alpha : nat; cv_u : nat }.

(** efficient_cvar.py 96-105 and efficient_cdar.py 96-105 [_validate_beta]; the warning is in MWarn.v *)
Definition validate_beta (b : R) : res R := if Rleb 0 b && Rltb b 1 then Ok b else Err ValueError.

(** efficient_cvar.py 49-91 *)
Definition cvar_init (mu : mu_in) (r : returns_arg) (beta : R) (b : bounds_arg) (w0 : world)
    : world * res (ef * cvar_data) :=
  match r with
  | ROther => (w0, Err AttributeError)
  | RTable ncols _ =>
      match ef_init mu (CIn (CovArray (zeros ncols))) b w0 with
      | (w1, Err e) => (w1, Err e)
      | (w1, Ok o) =>
          match validate_returns (e_mu o) r with
          | Err e => (w1, Err e)
          | Ok rows =>
              match validate_beta beta with
              | Err e => (w1, Err e)
              | Ok bt =>
                  let w2 := mkWorld (w_sizes w1 ++ [1%nat; List.length rows]) (w_val w1) (w_params w1) (w_next w1) in
                  (w2, Ok (o, mkCVaR rows bt (List.length (w_sizes w1)) (S (List.length (w_sizes w1)))))
              end
          end
      end
  end.

(** efficient_cvar.py 126-128, efficient_cdar.py 126-128: [alpha + 1.0 / (T * (1 - beta)) * cp.sum(u)] *)
Definition tail_e (T : nat) (beta : R) (alpha u : nat) : expr :=
  EAdd (EVar alpha) (EMul (EScalar (1 / (INR T * (1 - beta)))) (ESum (EVar u))).
(** efficient_cvar.py 126-128 *)
Definition cvar_e (d : cvar_data) : expr :=
  tail_e (List.length (cv_returns d)) (cv_beta d) (cv_alpha d) (cv_u d).
(** efficient_cvar.py 133-136: [u >= 0.0] and [returns @ w + alpha + u >= 0.0] *)
Definition cvar_shortfall (d : cvar_data) (v : nat) : con :=
  CIneq (EScalar 0) (EAdd (EAdd (ELin (cv_returns d) (EVar v)) (EVar (cv_alpha d))) (EVar (cv_u d))).
(** efficient_cvar.py 133-136, 167-170, 212-215 *)
Definition add_cvar (d : cvar_data) : M ef unit :=
  add_constraint (CFun (fun _ => nonneg_var (cv_u d))) ;;
  add_constraint (CFun (cvar_shortfall d)).

(** efficient_cvar.py 172, efficient_cdar.py 158: [self.expected_returns.T @ self._w] *)
Definition need_mu_T : M ef (list R) :=
  o <- get ;;
  match e_mu o with
  | None => raise AttributeError
  | Some m => if (List.length m =? e_n o)%nat then ret m else raise ShapeError
  end.

Section CVaR.
  Context (sv : solver_t) (d : cvar_data).

  (** efficient_cvar.py 116-139 *)
  Definition min_cvar (mn : bool) : M ef (dict R) :=
    set_objective_full (cvar_e d) ;;
    add_cvar d ;;
    make_weight_sum_constraint mn ;;
    solve_and_output sv.

  (** efficient_cvar.py 141-177 *)
  Definition cvar_efficient_return (target : R) (mn : bool) : M ef (dict R) :=
    upd <- is_parameter_defined "target_return" ;;
    (if upd then
       validate_market_neutral mn ;;
       update_parameter_value "target_return" target
     else
       set_objective_full (cvar_e d) ;;
       add_cvar d ;;
       m <- need_mu_T ;;
       par <- new_param "target_return" false target ;;
       add_constraint (CFun (fun v => CIneq (EPar par) (EDot m (EVar v)))) ;;
       make_weight_sum_constraint mn) ;;
    solve_and_output sv.

  (** efficient_cvar.py 179-218; the parameter is [nonneg] *)
  Definition cvar_efficient_risk (target : R) (mn : bool) : M ef (dict R) :=
    upd <- is_parameter_defined "target_cvar" ;;
    (if upd then
       validate_market_neutral mn ;;
       update_parameter_value "target_cvar" target
     else
       o <- get ;;
       m <- need_mu ;;
       set_objective_full (portfolio_return_e (EVar (e_w o)) m true) ;;
       par <- new_param "target_cvar" true target ;;
       add_constraint (CFun (fun _ => CIneq (cvar_e d) (EPar par))) ;;
       add_cvar d ;;
       make_weight_sum_constraint mn) ;;
    solve_and_output sv.
End CVaR.

(** efficient_cvar.py 238, efficient_cdar.py 231: the [value] of an expression, if its variables have values *)
Definition value_of (w : world) (e : expr) : option R :=
  if forallb (fun v => match w_val w v with Some _ => true | None => false end) (evars e)
  then Some (evals (fun v => match w_val w v with Some x => x | None => [] end) (par_values w) e)
  else None.
(** efficient_cvar.py 220-244 and efficient_cdar.py 213-237 [portfolio_performance] *)
Definition tail_performance (e : expr) (w : world) (o : ef) : res (R * option R) :=
  match e_weights o, e_mu o with
  | Some x, Some m => Ok (dot m x, value_of w e)
  | _, _ => Err ValueError
  end.
(** efficient_cvar.py 220-244 *)
Definition cvar_performance (d : cvar_data) := tail_performance (cvar_e d).

(** ** EfficientCDaR *)
(** efficient_cdar.py 87-91 *)
Record cdar_data := mkCDaR { cd_returns : list (list R); cd_beta : R; cd_alpha : nat; cd_u : nat; cd_z : nat }.
(** efficient_cdar.py 90-91 *)
Definition cd_T (d : cdar_data) : nat := List.length (cd_returns d).

(** efficient_cdar.py 48-91; [len(expected_returns)] comes first *)
Definition cdar_init (mu : mu_in) (r : returns_arg) (beta : R) (b : bounds_arg) (w0 : world)
    : world * res (ef * cdar_data) :=
  match mu with
  | MInOther => (w0, Err TypeError)
  | MIn m0 =>
      match mu_values m0 with
      | None => (w0, Err TypeError)
      | Some l =>
          match ef_init mu (CIn (CovArray (zeros (List.length l)))) b w0 with
          | (w1, Err e) => (w1, Err e)
          | (w1, Ok o) =>
              match validate_returns (e_mu o) r with
              | Err e => (w1, Err e)
              | Ok rows =>
                  match validate_beta beta with
                  | Err e => (w1, Err e)
                  | Ok bt =>
                      let k := List.length (w_sizes w1) in
                      let w2 := mkWorld (w_sizes w1 ++ [1%nat; S (List.length rows); List.length rows])
                                  (w_val w1) (w_params w1) (w_next w1) in
                      (w2, Ok (o, mkCDaR rows bt k (S k) (S (S k))))
                  end
              end
          end
      end
  end.

(** efficient_cdar.py 126-128 *)
Definition cdar_e (d : cdar_data) : expr := tail_e (cd_T d) (cd_beta d) (cd_alpha d) (cd_z d).
(** efficient_cdar.py 204-211 [_add_cdar_constraints] *)
Definition u_tail (d : cdar_data) : expr := EIndex (seq 1 (cd_T d)) (EVar (cd_u d)).
(** efficient_cdar.py 207 *)
Definition u_init (d : cdar_data) : expr := EIndex (seq 0 (cd_T d)) (EVar (cd_u d)).
(** efficient_cdar.py 205 *)
Definition cdar_con1 (d : cdar_data) : con := CIneq (ESub (u_tail d) (EVar (cd_alpha d))) (EVar (cd_z d)).
(** efficient_cdar.py 206-208 *)
Definition cdar_con2 (d : cdar_data) (v : nat) : con :=
  CIneq (ESub (u_init d) (ELin (cd_returns d) (EVar v))) (u_tail d).
(** efficient_cdar.py 209 *)
Definition cdar_con3 (d : cdar_data) : con := CEq (EIndex [0%nat] (EVar (cd_u d))) (EScalar 0).
(** efficient_cdar.py 204-211 *)
Definition add_cdar (d : cdar_data) : M ef unit :=
  add_constraint (CFun (fun _ => cdar_con1 d)) ;;
  add_constraint (CFun (cdar_con2 d)) ;;
  add_constraint (CFun (fun _ => cdar_con3 d)) ;;
  add_constraint (CFun (fun _ => nonneg_var (cd_z d))) ;;
  add_constraint (CFun (fun _ => CIneq (EScalar 0) (u_tail d))).

Section CDaR.
  Context (sv : solver_t) (d : cdar_data).

  (** efficient_cdar.py 116-135 *)
  Definition min_cdar (mn : bool) : M ef (dict R) :=
    set_objective_full (cdar_e d) ;;
    add_cdar d ;;
    make_weight_sum_constraint mn ;;
    solve_and_output sv.

  (** efficient_cdar.py 137-163; the parameter is [nonneg] *)
  Definition cdar_efficient_return (target : R) (mn : bool) : M ef (dict R) :=
    upd <- is_parameter_defined "target_return" ;;
    if upd then
      validate_market_neutral mn ;;
      update_parameter_value "target_return" target ;;
      solve_and_output sv
    else
      m <- need_mu_T ;;
      par <- new_param "target_return" true target ;;
      add_constraint (CFun (fun v => CIneq (EPar par) (EDot m (EVar v)))) ;;
      min_cdar mn.

  (** efficient_cdar.py 165-202; the parameter is [nonneg] *)
  Definition cdar_efficient_risk (target : R) (mn : bool) : M ef (dict R) :=
    upd <- is_parameter_defined "target_cdar" ;;
    (if upd then
       validate_market_neutral mn ;;
       update_parameter_value "target_cdar" target
     else
       o <- get ;;
       m <- need_mu ;;
       set_objective_full (portfolio_return_e (EVar (e_w o)) m true) ;;
       par <- new_param "target_cdar" true target ;;
       add_constraint (CFun (fun _ => CIneq (cdar_e d) (EPar par))) ;;
       add_cdar d ;;
       make_weight_sum_constraint mn) ;;
    solve_and_output sv.
End CDaR.
(** efficient_cdar.py 213-237 *)
Definition cdar_performance (d : cdar_data) := tail_performance (cdar_e d).
