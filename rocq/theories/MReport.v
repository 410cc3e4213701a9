(** * Model of what the library reports about an allocation: the root mean square error printed
      by [verbose=True] (discrete_allocation.py 98-130) and the bars of plotting.py 385-411 *)
From Coq Require Import ZArith List Bool Arith Reals.
From Verif Require Import Num Py MAlloc.
Import ListNotations.
Local Open Scope num_scope.

Section Report.
Context {A : Type} {N : Num A}.

(** discrete_allocation.py 109-111 *)
Fixpoint portfolio_val (prices : dict A) (al : dict Z) (acc : A) : res A :=
  match al with
  | [] => Ok acc
  | (t, n) :: al' => do p <- dgetE t prices ; portfolio_val prices al' (acc + nofZ n * p)
  end.

(** discrete_allocation.py 115-120.  The prices are numpy floats, so a quotient by a value of zero
    is NaN or infinite and nothing is raised: [None] *)
Definition allocation_weight (prices : dict A) (al : dict Z) (v : A) (t : label) : res (fval (A:=A)) :=
  match dget t al with
  | Some n => do p <- dgetE t prices ;
              if v =? n0 then Ok None else Ok (Some (nofZ n * p / v))
  | None => Ok (Some n0)
  end.

(** discrete_allocation.py 113-121: the sum of square errors; not a finite number once one term is
    not *)
Fixpoint sse (prices : dict A) (al : dict Z) (v : A) (ws : dict A) (acc : fval (A:=A)) : res (fval (A:=A)) :=
  match ws with
  | [] => Ok acc
  | (t, w) :: ws' =>
      do a <- allocation_weight prices al v t ;
      sse prices al v ws'
        (match acc, a with Some s, Some x => Some (s + (w - x) * (w - x)) | _, _ => None end)
  end.

(** discrete_allocation.py 98-130 up to the square root of line 128: AttributeError if nothing has
    been allocated yet; without weights [0 / 0] is a division of Python integers *)
Definition mean_square_error (d : da (A:=A)) : res (fval (A:=A)) :=
  match da_alloc d with
  | None => Err AttributeError
  | Some al =>
      do v <- portfolio_val (da_prices d) al n0 ;
      do s <- sse (da_prices d) al v (da_weights d) (Some n0) ;
      match da_weights d with
      | [] => Err ZeroDivisionError
      | ws => Ok (match s with Some x => Some (x / nofZ (Z.of_nat (length ws))) | None => None end)
      end
  end.

(** discrete_allocation.py 250-253, 337-340: with [verbose=True] the error is computed and printed
    at the end of the branch without short positions; an exception in there replaces the result.
    Sub-allocations are made without [verbose] (170, 179, 291, 300). *)
Definition report (x : da (A:=A) * res (dict Z * A)) (shorts : bool) : da (A:=A) * res (dict Z * A) :=
  match x with
  | (d, Ok r) => if shorts then x
                 else match mean_square_error d with Ok _ => x | Err e => (d, Err e) end
  | _ => x
  end.

(** discrete_allocation.py 132-253 with [verbose=True]; the test of line 149 *)
Definition greedy_verbose (fuel : nat) (d : da (A:=A)) (reinvest : bool) : da (A:=A) * res (dict Z * A) :=
  let x := greedy_portfolio fuel d reinvest in
  report x (match last_weight (da_weights (fst x)) with Some w => w <? n0 | None => false end).

(** discrete_allocation.py 255-340 with [verbose=True]; the test of line 270 *)
Definition lp_verbose (solver : lp (A:=A) -> lp_outcome (A:=A)) (d : da (A:=A)) (reinvest : bool)
  : da (A:=A) * res (dict Z * A) :=
  let x := lp_portfolio solver d reinvest in
  report x (existsb (fun kv => snd kv <? n0) (da_weights (fst x))).

(** plotting.py 398-404: labels and lengths of the bars, from top to bottom (line 408 turns the
    axis round) *)
Definition weight_bars (w : dict A) : list label * list A :=
  let desc := isort (fun a b => snd b <=? snd a) w in
  (map fst desc, map snd desc).
End Report.

(** discrete_allocation.py 128-130 *)
Definition allocation_rmse (d : da (A:=R)) : res (option R) :=
  do m <- mean_square_error d ; Ok (match m with Some x => Some (sqrt x) | None => None end).
