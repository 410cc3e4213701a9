(** * Model of pypfopt/discrete_allocation.py *)
From Coq Require Import ZArith List Bool Arith.
From Verif Require Import Num Py.
Import ListNotations.
Local Open Scope num_scope.

Section Alloc.
Context {A : Type} {N : Num A}.

(** discrete_allocation.py 71-73: Values that may be NaN: [None] is NaN. *)
Definition fval := option A.

(** Constructor arguments (discrete_allocation.py 52-68): a dict or something else; a pd.Series or
    something else.  [int_dtype] says that the series has an integer dtype. *)
Inductive weights_arg := WDict (d : dict fval) | WNotDict.
(** discrete_allocation.py 52-68, 73 *)
Inductive prices_arg := PSeries (int_dtype : bool) (s : dict fval) | PNotSeries.

(** Object state: discrete_allocation.py 81-87.  [da_alloc] is [self.allocation], unset at first. *)
Record da := mkDA {
  da_weights : dict A;
  da_prices : dict A;
  da_int : bool;
  da_total : A;
  da_short_ratio : A;
  da_alloc : option (dict Z)
}.

(** discrete_allocation.py 71-73 *)
Fixpoint all_some (d : dict fval) : option (dict A) :=
  match d with
  | [] => Some []
  | (k, None) :: _ => None
  | (k, Some v) :: d' =>
      match all_some d' with Some r => Some ((k, v) :: r) | None => None end
  end.

(** discrete_allocation.py 85: [sum((-x[1] for x in self.weights if x[1] < 0))] *)
Definition default_short_ratio (w : dict A) : A :=
  vsum (map (fun kv => - snd kv) (filter (fun kv => snd kv <? n0) w)).

(** discrete_allocation.py 69-87, checks in source order *)
Definition da_init (w : weights_arg) (p : prices_arg) (total : A) (sr : option A) : res da :=
  match w with
  | WNotDict => Err TypeError
  | WDict d =>
      match all_some d with
      | None => Err ValueError
      | Some ws =>
          match p with
          | PNotSeries => Err TypeError
          | PSeries b s =>
              match all_some s with
              | None => Err TypeError
              | Some ps =>
                  if total <=? n0 then Err ValueError
                  else match sr with
                       | None => Ok (mkDA ws ps b total (default_short_ratio ws) None)
                       | Some r => if r <? n0 then Err ValueError
                                   else Ok (mkDA ws ps b total r None)
                       end
              end
          end
      end
  end.

(** discrete_allocation.py 96 *)
Definition remove_zero_positions (al : dict Z) : dict Z :=
  filter (fun kv => negb (Z.eqb (snd kv) 0)) al.

(** discrete_allocation.py 146: stable sort, largest weight first *)
Definition sort_weights (w : dict A) : dict A :=
  isort (fun a b => snd b <=? snd a) w.

(** discrete_allocation.py 195-206.  Division by a zero price is numpy division: the quotient is
    NaN or infinite and [int()] raises ValueError or OverflowError. *)
Fixpoint first_round (prices : dict A) (total : A) (ws : dict A) (avail : A)
  : res (A * list Z * list A) :=
  match ws with
  | [] => Ok (avail, [], [])
  | (t, w) :: ws' =>
      do price <- dgetE t prices ;
      if price =? n0 then (if w * total =? n0 then Err ValueError else Err OverflowError)
      else
        let n_shares := ntrunc (w * total / price) in
        let cost := nofZ n_shares * price in
        if cost <=? avail then
          do r <- first_round prices total ws' (avail - cost) ;
          let '(av, ss, ps) := r in Ok (av, n_shares :: ss, price :: ps)
        else Err AssertionError
  end.

(** discrete_allocation.py 218, 227: numpy argmax: first NaN if there is one, else first maximum.  The loop keeps the best value
    so far and moves on a candidate x when [not (x <= best)]. *)
Fixpoint argmax_go (l : list fval) (i : nat) (best : fval) (bi : nat) : nat :=
  match best with
  | None => bi
  | Some b =>
      match l with
      | [] => bi
      | None :: _ => i
      | Some x :: l' => if x <=? b then argmax_go l' (S i) best bi
                        else argmax_go l' (S i) (Some x) i
      end
  end.
(** discrete_allocation.py 218, 227 *)
Definition argmax (l : list fval) : nat :=
  match l with [] => O | x :: l' => argmax_go l' 1 x 0 end.

(** discrete_allocation.py 231: comparisons with NaN are false *)
Definition fneg (x : fval) : bool := match x with Some v => v <? n0 | None => false end.
(** discrete_allocation.py 238 *)
Definition fnonpos (x : fval) : bool := match x with Some v => v <=? n0 | None => false end.

(** discrete_allocation.py 219-220, 231-235 *)
Definition at_idx (d : list fval) (i : nat) : fval := nth i d (Some n0).

(** discrete_allocation.py 212-215.  When nothing has been bought the division is 0/0 and every
    deficit is NaN; a zero sum with non-zero terms gives infinities and is not modelled further. *)
Definition deficits (ws : dict A) (buy_prices : list A) (shares : list Z) : res (list fval) :=
  let cur := map2 (fun p n => p * nofZ n) buy_prices shares in
  let s := vsum cur in
  if s =? n0 then
    (if forallb (fun c => c =? n0) cur then Ok (map (fun _ => None) ws) else Err FloatSpecial)
  else Ok (map2 (fun kv c => Some (snd kv - c / s)) ws cur).

(** discrete_allocation.py 225-236: the inner loop, returning (deficit, idx, price, counter) *)
Fixpoint inner (fuel : nat) (ws : dict A) (prices : dict A) (avail : A)
         (deficit : list fval) (idx : nat) (price : A) (counter : nat)
  : res (list fval * nat * A * nat) :=
  match fuel with
  | O => Err OutOfFuel
  | S f =>
      if avail <? price then
        let deficit' := list_set idx (Some n0) deficit in
        let idx' := argmax deficit' in
        if fneg (at_idx deficit' idx') || Nat.eqb counter 10 then Ok (deficit', idx', price, counter)
        else
          match nth_error ws idx' with
          | None => Err IndexError
          | Some (t, _) =>
              do price' <- dgetE t prices ;
              inner f ws prices avail deficit' idx' price' (S counter)
          end
      else Ok (deficit, idx, price, counter)
  end.

(** discrete_allocation.py 224-236: the counter makes the inner loop run at most 12 times *)
Definition inner_fuel : nat := 12.

(** discrete_allocation.py 209-244.  [int_prices]: with an integer dtype the in-place division of
    line 213 raises TypeError (UFuncTypeError). *)
Fixpoint second_round (fuel : nat) (int_prices : bool) (ws : dict A) (prices : dict A)
         (buy_prices : list A) (shares : list Z) (avail : A) : res (A * list Z) :=
  match fuel with
  | O => Err OutOfFuel
  | S f =>
      if n0 <? avail then
        if int_prices then Err TypeError
        else
          do deficit <- deficits ws buy_prices shares ;
          let idx := argmax deficit in
          match nth_error ws idx with
          | None => Err IndexError
          | Some (t, _) =>
              do price <- dgetE t prices ;
              do r <- inner inner_fuel ws prices avail deficit idx price 0 ;
              let '(deficit', idx', price', counter) := r in
              if fnonpos (at_idx deficit' idx') || Nat.eqb counter 10 then Ok (avail, shares)
              else second_round f int_prices ws prices buy_prices
                     (list_set idx' (nth idx' shares 0%Z + 1)%Z shares) (avail - price')
          end
      else Ok (avail, shares)
  end.

(** discrete_allocation.py 190-253 on sorted weights *)
Definition greedy_long (fuel : nat) (d : da) : res (dict Z * A) :=
  do r <- first_round (da_prices d) (da_total d) (da_weights d) (da_total d) ;
  let '(av, ss, ps) := r in
  do r2 <- second_round fuel (da_int d) (da_weights d) (da_prices d) ps ss av ;
  let '(av', ss') := r2 in
  Ok (remove_zero_positions (dict_of_pairs (combine (map fst (da_weights d)) ss')), av').

(** discrete_allocation.py 150-151 (and 271-272) *)
Definition longs_of (w : dict A) : dict A := filter (fun kv => n0 <=? snd kv) w.
(** discrete_allocation.py 151, 272 *)
Definition shorts_of (w : dict A) : dict A :=
  map (fun kv => (fst kv, - snd kv)) (filter (fun kv => snd kv <? n0) w).

(** discrete_allocation.py 154-157: Python float division *)
Definition normalise (w : dict A) : res (dict A) :=
  let s := vsum (map snd w) in
  if s =? n0 then (match w with [] => Ok [] | _ => Err ZeroDivisionError end)
  else Ok (map (fun kv => (fst kv, snd kv / s)) w).

(** discrete_allocation.py 168, 176, 289, 297: [self.latest_prices[keys]] *)
Definition select_prices (p : dict A) (keys : list label) : res (dict A) :=
  mapM (fun k => do v <- dgetE k p ; Ok (k, v)) keys.

(** discrete_allocation.py 168, 176, 289, 297 *)
Definition some_dict (d : dict A) : dict fval := map (fun kv => (fst kv, Some (snd kv))) d.

(** A sub-allocation object: discrete_allocation.py 167-169, 174-178, 288-290, 295-299 *)
Definition sub_da (parent : da) (w : dict A) (total : A) : res da :=
  do ps <- select_prices (da_prices parent) (map fst w) ;
  da_init (WDict (some_dict w)) (PSeries (da_int parent) (some_dict ps)) total None.

(** discrete_allocation.py 149 *)
Definition last_weight (w : dict A) : option A :=
  match rev w with [] => None | kv :: _ => Some (snd kv) end.

(** discrete_allocation.py 146 *)
Definition set_weights_da (d : da) (w : dict A) : da :=
  mkDA w (da_prices d) (da_int d) (da_total d) (da_short_ratio d) (da_alloc d).
(** discrete_allocation.py 185, 246-248, 306, 331-335 *)
Definition set_alloc (d : da) (al : dict Z) : da :=
  mkDA (da_weights d) (da_prices d) (da_int d) (da_total d) (da_short_ratio d) (Some al).

(** discrete_allocation.py 180, 301 *)
Definition negate_alloc (al : dict Z) : dict Z := map (fun kv => (fst kv, (- snd kv)%Z)) al.

(** discrete_allocation.py 132-253.  Returns the object afterwards (its weights are sorted in
    place even if the call raises) and the result.  [depth] bounds the nesting of sub-allocations
    (two levels suffice: the sub-portfolios have no negative weight). *)
Fixpoint greedy_at (depth fuel : nat) (d0 : da) (reinvest : bool) : da * res (dict Z * A) :=
  match depth with
  | O => (d0, Err OutOfFuel)
  | S depth' =>
      let d := set_weights_da d0 (sort_weights (da_weights d0)) in
      match last_weight (da_weights d) with
      | None => (d, Err IndexError)
      | Some wl =>
          if wl <? n0 then
            let r :=
              do longs <- normalise (longs_of (da_weights d)) ;
              do shorts <- normalise (shorts_of (da_weights d)) ;
              let short_val := da_total d * da_short_ratio d in
              let long_val := if reinvest then da_total d + short_val else da_total d in
              do da1 <- sub_da d longs long_val ;
              do rl <- snd (greedy_at depth' fuel da1 false) ;
              do da2 <- sub_da d shorts short_val ;
              do rs <- snd (greedy_at depth' fuel da2 false) ;
              let '(long_alloc, long_leftover) := rl in
              let '(short_alloc, short_leftover) := rs in
              Ok (remove_zero_positions (dupdate long_alloc (negate_alloc short_alloc)),
                  long_leftover + short_leftover) in
            match r with
            | Ok (al, lo) => (set_alloc d al, Ok (al, lo))
            | Err e => (d, Err e)
            end
          else
            match greedy_long fuel d with
            | Ok (al, lo) => (set_alloc d al, Ok (al, lo))
            | Err e => (d, Err e)
            end
      end
  end.

(** discrete_allocation.py 132-253 *)
Definition greedy_portfolio (fuel : nat) (d : da) (reinvest : bool) : da * res (dict Z * A) :=
  greedy_at 2 fuel d reinvest.

(** ** lp_portfolio: discrete_allocation.py 255-340 *)

(** discrete_allocation.py 314-322: The mixed-integer program handed to cvxpy (lines 309-324): variables x (integer) and u of
    length [length lp_p]; minimise sum(u) + r subject to
    eta <= u, eta >= -u, x >= 0, r >= 0 with eta = w*T - x.p (pointwise) and r = T - p.x. *)
Record lp := mkLP { lp_p : list A; lp_w : list A; lp_T : A }.

(** discrete_allocation.py 324-328 *)
Inductive lp_outcome :=
| LPAnswer (x u : list A)          (* status optimal or optimal_inaccurate, x.value, u.value *)
| LPBadStatus                      (* any other status *)
| LPRaises (e : exn).              (* cvxpy raises, e.g. solver not installed *)

(** discrete_allocation.py 316 *)
Definition lp_r (P : lp) (x : list A) : A := lp_T P - dot (lp_p P) x.
(** discrete_allocation.py 319 *)
Definition lp_eta (P : lp) (x : list A) : list A :=
  map2 (fun a b => a - b) (map (fun w => w * lp_T P) (lp_w P)) (map2 (fun a b => a * b) x (lp_p P)).

(** discrete_allocation.py 309-340: Simplification: if the price series and the weights differ in length cvxpy
    rejects the shapes with ValueError (scalar broadcasting for length one is not modelled). *)
Definition lp_long (solver : lp -> lp_outcome) (d : da) : res (dict Z * A) :=
  let P := mkLP (map snd (da_prices d)) (map snd (da_weights d)) (da_total d) in
  if negb (Nat.eqb (length (lp_p P)) (length (lp_w P))) then Err ValueError
  else match solver P with
       | LPRaises e => Err e
       | LPBadStatus => Err OptimizationError
       | LPAnswer x u =>
           Ok (remove_zero_positions
                 (dict_of_pairs (combine (map fst (da_weights d)) (map nrint x))),
               lp_r P x)
       end.

(** discrete_allocation.py 255-340 *)
Fixpoint lp_at (depth : nat) (solver : lp -> lp_outcome) (d : da) (reinvest : bool)
  : da * res (dict Z * A) :=
  match depth with
  | O => (d, Err OutOfFuel)
  | S depth' =>
      if existsb (fun kv => snd kv <? n0) (da_weights d) then
        let r :=
          do longs <- normalise (longs_of (da_weights d)) ;
          do shorts <- normalise (shorts_of (da_weights d)) ;
          let short_val := da_total d * da_short_ratio d in
          let long_val := if reinvest then da_total d + short_val else da_total d in
          do da1 <- sub_da d longs long_val ;
          do rl <- snd (lp_at depth' solver da1 false) ;
          do da2 <- sub_da d shorts short_val ;
          do rs <- snd (lp_at depth' solver da2 false) ;
          let '(long_alloc, long_leftover) := rl in
          let '(short_alloc, short_leftover) := rs in
          Ok (remove_zero_positions (dupdate long_alloc (negate_alloc short_alloc)),
              long_leftover + short_leftover) in
        match r with
        | Ok (al, lo) => (set_alloc d al, Ok (al, lo))
        | Err e => (d, Err e)
        end
      else
        match lp_long solver d with
        | Ok (al, lo) => (set_alloc d al, Ok (al, lo))
        | Err e => (d, Err e)
        end
  end.

(** discrete_allocation.py 255-340 *)
Definition lp_portfolio (solver : lp -> lp_outcome) (d : da) (reinvest : bool)
  : da * res (dict Z * A) := lp_at 2 solver d reinvest.

(** ** get_latest_prices: discrete_allocation.py 15-28.  A frame is its list of columns labels
    and rows of possibly missing values; [ffill] carries the last known value forward and
    [iloc[-1]] takes the last row, raising IndexError when there is none. *)
Definition frame := (list label * list (list fval))%type.

(** discrete_allocation.py 28 *)
Definition ffill_row (prev row : list fval) : list fval :=
  map2 (fun p x => match x with Some _ => x | None => p end) prev row.

(** discrete_allocation.py 28 *)
Fixpoint ffill_from (prev : list fval) (rows : list (list fval)) : list (list fval) :=
  match rows with
  | [] => []
  | r :: rows' => let r' := ffill_row prev r in r' :: ffill_from r' rows'
  end.

(** discrete_allocation.py 28 *)
Definition ffill (f : frame) : frame :=
  (fst f, ffill_from (map (fun _ => None) (fst f)) (snd f)).

(** discrete_allocation.py 15-28 *)
Definition get_latest_prices (f : option frame) : res (dict fval) :=
  match f with
  | None => Err TypeError              (* not a DataFrame *)
  | Some f =>
      match rev (snd (ffill f)) with
      | [] => Err IndexError
      | last :: _ => Ok (combine (fst f) last)
      end
  end.

End Alloc.
