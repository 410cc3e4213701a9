(** * Specification of the Ledoit-Wolf shrinkage intensities (C75), after Ledoit and Wolf (2001, 2003), independent of
    the model's helpers.  [xs i] is the return series of asset number i *)
From Coq Require Import List Reals.
From Verif Require Import SLin SHRP.
Import ListNotations.
Local Open Scope R_scope.

(** average over T periods; deviation of a series from its average *)
Definition mean_over (T : nat) (f : nat -> R) : R := total (map f (seq 0 T)) / INR T.
Definition deviation (x : list R) (k : nat) : R := nth k x 0 - average x.
(** covariance with divisor T *)
Definition plain_covariance (T : nat) (x y : list R) : R := mean_over T (fun k => deviation x k * deviation y k).
(** estimated asymptotic covariance of the entries [s] = s(a, b) and [s'] = s(c, d) of the covariance matrix *)
Definition asymptotic (T : nat) (a b : list R) (s : R) (c d : list R) (s' : R) : R :=
  mean_over T (fun k => (deviation a k * deviation b k - s) * (deviation c k * deviation d k - s')).
(** sums over all pairs, and over all pairs of different assets *)
Definition over_pairs (n : nat) (g : nat -> nat -> R) : R := total (map (fun i => total (map (g i) (seq 0 n))) (seq 0 n)).
Definition over_different (n : nat) (g : nat -> nat -> R) : R := over_pairs n (fun i j => if Nat.eqb i j then 0 else g i j).

(** pi: the sum of the asymptotic variances of the entries *)
Definition lw_pi (T n : nat) (xs : nat -> list R) (s : nat -> nat -> R) : R :=
  over_pairs n (fun i j => asymptotic T (xs i) (xs j) (s i j) (xs i) (xs j) (s i j)).
(** its part on the diagonal *)
Definition lw_diagonal (T n : nat) (xs : nat -> list R) (s : nat -> nat -> R) : R :=
  total (map (fun i => asymptotic T (xs i) (xs i) (s i i) (xs i) (xs i) (s i i)) (seq 0 n)).
(** rho: the sum of the asymptotic covariances of the entries of the target with the entries of the sample covariance;
    the target has correlation [r] everywhere (2003), or is explained by the market [m] (2001) *)
Definition rho_constant (T n : nat) (xs : nat -> list R) (s : nat -> nat -> R) (r : R) : R :=
  lw_diagonal T n xs s +
  over_different n (fun i j => r / 2 * (sqrt (s j j / s i i) * asymptotic T (xs i) (xs i) (s i i) (xs i) (xs j) (s i j)
                                      + sqrt (s i i / s j j) * asymptotic T (xs j) (xs j) (s j j) (xs i) (xs j) (s i j))).
Definition rho_market (T n : nat) (xs : nat -> list R) (m : list R) (s : nat -> nat -> R) : R :=
  let b i := plain_covariance T (xs i) m in
  let v := plain_covariance T m m in
  lw_diagonal T n xs s +
  over_different n (fun i j => b j / v * asymptotic T (xs i) m (b i) (xs i) (xs j) (s i j)
                             + b i / v * asymptotic T (xs j) m (b j) (xs i) (xs j) (s i j)
                             - b i * b j / (v * v) * asymptotic T m m v (xs i) (xs j) (s i j)).
(** gamma: squared distance of the target from the sample covariance *)
Definition lw_gamma (n : nat) (s f : nat -> nat -> R) : R := over_different n (fun i j => (f i j - s i j) * (f i j - s i j)).
(** the intensity *)
Definition lw_intensity (T : nat) (p r g : R) : R := Rmax 0 (Rmin 1 ((p - r) / g / INR T)).
