(** * Specification of the risk models (C70-C75), independent of the model's helpers *)
From Coq Require Import List Reals String.
From Verif Require Import Py SLin MFrame SHRP SReturns Sums.
Import ListNotations.
Local Open Scope R_scope.

(** an eigendecomposition: orthonormal columns of V, M = V diag(q) V' *)
Definition eigen_of (n : nat) (M : list (list R)) (q : list R) (V : list (list R)) : Prop :=
  List.length q = n /\ square n V /\
  (forall a b, (a < n)%nat -> (b < n)%nat -> sumn n (fun i => entry V i a * entry V i b) = if Nat.eqb a b then 1 else 0) /\
  (forall i j, (i < n)%nat -> (j < n)%nat -> sumn n (fun k => entry V i k * entry V j k) = if Nat.eqb i j then 1 else 0) /\
  (forall i j, (i < n)%nat -> (j < n)%nat -> entry M i j = sumn n (fun k => entry V i k * nth k q 0 * entry V j k)).

(** squared Frobenius distance *)
Definition distance2 (n : nat) (A B : list (list R)) : R :=
  sumn n (fun i => sumn n (fun j => (entry A i j - entry B i j) * (entry A i j - entry B i j))).

(** positive semidefinite up to a tolerance: w' M w >= - eps |w|^2 *)
Definition nearly_psd (eps : R) (n : nat) (M : list (list R)) : Prop :=
  square n M /\ forall w, List.length w = n -> - eps * inner w w <= qform M w.

(** the return series of a portfolio with weights w *)
Definition portfolio_series (T : nat) (names : list label) (x : label -> list R) (w : list R) : list R :=
  map (fun k => inner w (map (fun t => nth k (x t) 0) names)) (seq 0 T).

(** a table with missing values *)
Definition partial_history (T : nat) (dates names : list label) (x : label -> list (option R)) : frame (option R) :=
  mkFrame dates names (map (fun k => map (fun t => nth k (x t) None) names) (seq 0 T)).
(** average product of the shortfalls below the benchmark of two complete series *)
Definition semi (b : R) (x y : list R) : R :=
  total (map (fun k => Rmin (nth k x 0 - b) 0 * Rmin (nth k y 0 - b) 0) (seq 0 (List.length x))) / INR (List.length x).
(** exponentially weighted average product of the deviations from the plain averages *)
Definition ema_covariance (span : R) (x y : list R) : R :=
  total (map (fun k => decay_weight ((span - 1) / (span + 1)) (List.length x) k * ((nth k x 0 - average x) * (nth k y 0 - average y))) (seq 0 (List.length x))).

(** trace of an array *)
Definition trace (n : nat) (M : list (list R)) : R := total (map (fun i => entry M i i) (seq 0 n)).

(** the sample covariance matrix of the assets as an array *)
Definition sample_matrix (names : list label) (x : label -> list R) : list (list R) :=
  map (fun t => map (fun u => sample_covariance (x t) (x u)) names) names.
(** average correlation between two different assets *)
Definition mean_correlation (n : nat) (V : list (list R)) : R :=
  total (map (fun i => total (map (fun j => if Nat.eqb i j then 0 else entry V i j / (sqrt (entry V i i) * sqrt (entry V j j))) (seq 0 n))) (seq 0 n))
  / (INR n * (INR n - 1)).

(** an estimator (scikit-learn) that only returns symmetric positive semidefinite n x n arrays *)
Definition psd_oracle (n : nat) (sk : list (list R) -> list (list R) * R) : Prop :=
  forall X, psd n (fst (sk X)) /\ symmetric n (fst (sk X)).

(** the documented method names of risk_matrix, and the alias "semivariance" *)
Definition known_methods : list string :=
  ["sample_cov"; "semicovariance"; "semivariance"; "exp_cov"; "ledoit_wolf"; "ledoit_wolf_constant_variance"; "ledoit_wolf_single_factor"; "ledoit_wolf_constant_correlation"; "oracle_approximating"]%string.

(** shortfall of a possibly missing return below the benchmark, a missing one counting as none; average
    product over all T rows *)
Definition shortfall (b : R) (c : option R) : R := match c with Some v => Rmin (v - b) 0 | None => 0 end.
Definition semi_partial (T : nat) (b : R) (x y : list (option R)) : R :=
  total (map (fun k => shortfall b (nth k x None) * shortfall b (nth k y None)) (seq 0 T)) / INR T.
