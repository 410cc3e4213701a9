(** * Specification for C119 and C120: tables with missing entries *)
From Coq Require Import List Bool Reals.
From Verif Require Import Py SLin MFrame SHRP SReturns.
Import ListNotations.
Local Open Scope R_scope.

(** the table whose entry for asset [t] in row [k] is [x t k]; [None] is a missing entry *)
Definition gappy (T : nat) (dates names : list label) (x : label -> nat -> option R) : frame (option R) :=
  mkFrame dates names (map (fun k => map (fun t => x t k) names) (seq 0 T)).
Definition known_at (x : nat -> option R) (k : nat) : bool := match x k with Some _ => true | None => false end.
Definition value (x : nat -> option R) (k : nat) : R := match x k with Some v => v | None => 0 end.
(** the rows with an entry, and the entries *)
Definition known (T : nat) (x : nat -> option R) : list nat := filter (known_at x) (seq 0 T).
Definition numbers (T : nat) (x : nat -> option R) : list R := map (value x) (known T x).
(** the rows with an entry in both columns *)
Definition common (T : nat) (x y : nat -> option R) : list nat := filter (fun k => known_at x k && known_at y k) (seq 0 T).
(** sample covariance over the common rows; it needs two of them *)
Definition common_covariance (T : nat) (x y : nat -> option R) : option R :=
  let ks := common T x y in
  if (2 <=? length ks)%nat then Some (sample_covariance (map (value x) ks) (map (value y) ks)) else None.

(** a number is followed by a missing entry *)
Definition interrupted (T : nat) (x : nat -> option R) : Prop :=
  exists i j v, (i < j < T)%nat /\ x i = Some v /\ x j = None.

(** what one period multiplies an investment by *)
Definition gain (log : bool) (v : R) : R := if log then exp v else 1 + v.
Definition compounded (g : R -> R) (l : list R) : R := fold_right (fun v w => g v * w) 1 l.
(** value in row [k] of 1 invested in row 0 *)
Definition pseudo_price (g : R -> R) (x : nat -> option R) (k : nat) : option R :=
  match k with
  | O => Some 1
  | S _ => if known_at x k then Some (compounded g (map (value x) (filter (known_at x) (seq 1 k)))) else None
  end.

(** return between row [k] and row [k+1] *)
Definition step_return (log : bool) (p : nat -> option R) (k : nat) : option R :=
  match p k, p (S k) with Some a, Some b => Some (if log then ln (b / a) else b / a - 1) | _, _ => None end.
(** the periods in which some asset has a return *)
Definition kept (T : nat) (names : list label) (r : label -> nat -> option R) : list nat :=
  filter (fun k => existsb (fun t => known_at (r t) k) names) (seq 0 T).

(** exponentially weighted average of the known entries: an entry of age a has weight d^a *)
Definition aged_average (d : R) (T : nat) (x : nat -> option R) : R :=
  total (map (fun k => d ^ (T - 1 - k) * value x k) (known T x)) / total (map (fun k => d ^ (T - 1 - k)) (known T x)).

(** [y k] is the entry of the column [q] of another table under the date of row [k]; missing if there is no such date *)
Definition dated (T : nat) (dates mdates : list label) (q y : nat -> option R) : Prop :=
  forall k d, (k < T)%nat -> nth_error dates k = Some d ->
  (forall j, nth_error mdates j = Some d -> y k = q j) /\ (~ In d mdates -> y k = None).

(** a price whose returns are numbers *)
Definition priced (log : bool) (v : R) : Prop := if log then 0 < v else v <> 0.
(** [v] is the growth rate per [fr] periods behind the returns [l]: 0 without returns, -1 after a total loss *)
Definition column_rate (fr : R) (l : list R) (v : option R) : Prop :=
  (l = [] -> v = Some 0) /\ (In (-1) l -> v = Some (-1)) /\
  (l <> [] -> Forall (fun v => -1 < v) l -> v = Some (Rpower (growth_factor l) (fr / INR (length l)) - 1)).
(** the mean return of the market *)
Definition market_mean (compounding : bool) (fr : R) (l : list R) (m : option R) : Prop :=
  if compounding then column_rate fr l m else m = match l with [] => None | _ => Some (average l * fr) end.
(** the CAPM estimate for the returns [x] next to the market returns [y] with mean [m]: risk free rate plus beta times the
    excess return of the market, beta from the rows where both are known; missing if the market does not vary *)
Definition capm_value (T : nat) (rf : R) (x y : nat -> option R) (m : option R) : option R :=
  match common_covariance T x y, common_covariance T y y, m with
  | Some c, Some v, Some m' => if Req_EM_T v 0 then None else Some (rf + c / v * (m' - rf))
  | _, _, _ => None
  end.
(** the average of the known entries of a row *)
Definition row_average (names : list label) (x : label -> nat -> option R) (k : nat) : option R :=
  match map (fun t => value (x t) k) (filter (fun t => known_at (x t) k) names) with [] => None | l => Some (average l) end.

(** exponentially weighted covariance over the common rows; the means are those of each whole column *)
Definition common_ema (T : nat) (span : R) (x y : nat -> option R) : R :=
  let d := (span - 1) / (span + 1) in
  total (map (fun k => d ^ (T - 1 - k) * ((value x k - average (numbers T x)) * (value y k - average (numbers T y)))) (common T x y)) /
  total (map (fun k => d ^ (T - 1 - k)) (common T x y)).
(** the rows with at least one entry, missing entries replaced by 0 *)
Definition zero_filled (T : nat) (names : list label) (x : label -> nat -> option R) : list (list R) :=
  map (fun k => map (fun t => value (x t) k) names) (kept T names x).
