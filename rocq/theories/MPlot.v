(** * Model of the efficient frontier plot: the points handed to matplotlib or plotly

    plotting.py 214-261.  Drawing itself (axes, labels, assets) is not modelled. *)
From Coq Require Import ZArith List String Bool Reals.
From Verif Require Import Num Py MBase MConvex MEF.
Import ListNotations.
Local Open Scope R_scope.
Local Open Scope m_scope.

(** plotting.py 237-261 [_plot_ef], the loop.  [methods] gives for a known [ef_param] what the chosen
    method does to the optimizer; [performance] is [ef.portfolio_performance()] without the Sharpe
    ratio, which the loop drops.  The warning on ValueError is in MWarn.v. *)
Section Loop.
  Context {St : Type} (methods : string -> option (R -> M St unit)) (performance : St -> res (option R * R)).
  (** plotting.py 239-257 *)
  Definition attempt (ef_param : string) (v : R) : M St unit :=
    match methods ef_param with Some m => m v | None => raise NotImplementedError end.
  (** plotting.py 237-261 *)
  Fixpoint plot_loop (ef_param : string) (vs : list R) (w : world) (s : St) : world * St * res (list (option R * R)) :=
    match vs with
    | [] => (w, s, Ok [])
    | v :: vs' =>
        match attempt ef_param v w s with
        | (w1, s1, Err OptimizationError) => plot_loop ef_param vs' w1 s1
        | (w1, s1, Ok _) | (w1, s1, Err ValueError) =>
            match performance s1 with
            | Err e => (w1, s1, Err e)
            | Ok p =>
                match plot_loop ef_param vs' w1 s1 with
                | (w2, s2, Ok ps) => (w2, s2, Ok (p :: ps))
                | (w2, s2, Err e) => (w2, s2, Err e)
                end
            end
        | (w1, s1, Err e) => (w1, s1, Err e)
        end
    end.
End Loop.

(** plotting.py 240-249: the three methods of EfficientFrontier behind the names, with their default [market_neutral];
    the values of an np.linspace are floats *)
Definition ef_methods (sv : solver_t) (pinv : list (list R) -> list (list R)) (name : string) : option (R -> M ef unit) :=
  if String.eqb name "utility" then Some (fun v => drop (max_quadratic_utility sv v false))
  else if String.eqb name "risk" then Some (fun v => drop (efficient_risk sv pinv (NFloat v) false))
  else if String.eqb name "return" then Some (fun v => drop (efficient_return sv (NFloat v) false))
  else None.
(** plotting.py 259: the default risk free rate of portfolio_performance is 0.02 *)
Definition ef_point (o : ef) : res (option R * R) :=
  do p <- ef_performance (2 / 100) o; Ok (fst (fst p), snd (fst p)).
(** plotting.py 228-261 *)
Definition plot_ef (sv : solver_t) (pinv : list (list R) -> list (list R)) : string -> list R -> world -> ef -> world * ef * res (list (option R * R)) :=
  plot_loop (ef_methods sv pinv) ef_point.

(** plotting.py 225: np.linspace(a, b, n): n evenly spaced numbers, both ends included *)
Definition linspace (a b : R) (n : nat) : list R :=
  match n with
  | O => []
  | 1%nat => [a]
  | _ => map (fun i => a + INR i * ((b - a) / INR (n - 1))) (seq 0 n)
  end.
(** plotting.py 214-226 [_ef_default_returns_range].  [points] is a natural number.  No expected
    returns: min_ret is None, but [_max_return] has raised ValueError before it is used. *)
Definition default_range (sv : solver_t) (points : nat) : M ef (list R) :=
  min_ret <- on_copy (drop (min_volatility sv) ;; o <- get ;; lift_res (do p <- ef_performance (2 / 100) o; Ok (fst (fst p)))) ;;
  max_ret <- on_copy (max_return sv) ;;
  match min_ret with
  | None => raise TypeError
  | Some a => ret (linspace a (max_ret - 1 / 10000) points)
  end.
(** plotting.py 355-366: the part of [plot_efficient_frontier] for an EfficientFrontier *)
Definition plot_frontier (sv : solver_t) (pinv : list (list R) -> list (list R)) (ef_param : string) (range : option (list R)) (points : nat)
    : M ef (list (option R * R)) :=
  vs <- match range with Some vs => ret vs | None => default_range sv points end ;;
  (fun w o => plot_ef sv pinv ef_param vs w o).
