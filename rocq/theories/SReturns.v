(** * Specification of the return estimates (C66-C69, C80-C82), independent of the model's helpers *)
From Coq Require Import List Reals.
From Verif Require Import Py SLin MFrame SHRP.
Import ListNotations.
Local Open Scope R_scope.

(** simple and logarithmic returns of a price series *)
Fixpoint simple_returns (p : list R) : list R :=
  match p with a :: (b :: _) as p' => (b / a - 1) :: simple_returns p' | _ => [] end.
Fixpoint logarithmic_returns (p : list R) : list R :=
  match p with a :: (b :: _) as p' => ln (b / a) :: logarithmic_returns p' | _ => [] end.
(** wealth of 1 invested just before the listed returns *)
Fixpoint wealth (w : R) (r : list R) : list R :=
  match r with [] => [] | x :: r' => w * (1 + x) :: wealth (w * (1 + x)) r' end.
(** growth rate per period of [frequency] steps between the first and the last price *)
Definition growth_rate (frequency : R) (p : list R) : R :=
  Rpower (last p 0 / hd 0 p) (frequency / INR (length p - 1)) - 1.

(** exponentially weighted average: weight d^age *)
Fixpoint decayed_sum (d : R) (l : list (option R)) (f : R -> R) : R :=
  match l with
  | [] => 0
  | x :: l' => match x with Some v => d ^ (length l') * f v | None => 0 end + decayed_sum d l' f
  end.
Definition decayed_average (d : R) (l : list (option R)) : R :=
  decayed_sum d l (fun v => v) / decayed_sum d l (fun _ => 1).
(** relative weight of the observation number k of T *)
Definition decay_weight (d : R) (T k : nat) : R := d ^ (T - 1 - k) / total (map (fun j => d ^ j) (seq 0 T)).

(** the equally weighted market *)
Definition market (T : nat) (names : list label) (x : label -> list R) : list R :=
  map (fun k => average (map (fun t => nth k (x t) 0) names)) (seq 0 T).
Definition market_beta (x m : list R) : R := sample_covariance x m / sample_covariance m m.
(** final wealth of 1 after the listed returns *)
Fixpoint growth_factor (r : list R) : R := match r with [] => 1 | x :: r' => (1 + x) * growth_factor r' end.

(** exponential average with the given span of a complete series *)
Definition ema_value (span : R) (x : list R) : R :=
  total (map (fun k => decay_weight ((span - 1) / (span + 1)) (length x) k * nth k x 0) (seq 0 (length x))).
(** no single period loses more than a factor e *)
Definition tame (p : list R) : Prop := Forall (fun x => exp (-1) < 1 + x) (simple_returns p).
