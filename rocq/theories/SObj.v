(** * Specifications for the objective functions *)
From Coq Require Import List Reals.
From Verif Require Import SLin SHRP MConvex.
Import ListNotations.
Local Open Scope R_scope.

(** point on the segment from [x] to [y] *)
Fixpoint blend (t : R) (x y : list R) : list R :=
  match x, y with a :: x', b :: y' => (1 - t) * a + t * b :: blend t x' y' | _, _ => [] end.
Definition convex_on (n : nat) (f : list R -> R) : Prop :=
  forall x y t, length x = n -> length y = n -> 0 <= t <= 1 -> f (blend t x y) <= (1 - t) * f x + t * f y.
Definition concave_on (n : nat) (f : list R -> R) : Prop := convex_on n (fun x => - f x).
Definition nonneg_on (n : nat) (f : list R -> R) : Prop := forall x, length x = n -> 0 <= f x.

(** difference *)
Fixpoint differences (x y : list R) : list R :=
  match x, y with a :: x', b :: y' => a - b :: differences x' y' | _, _ => [] end.
(** variance of a series (mean squared deviation from the mean) *)
Definition variance_of (l : list R) : R := average (map (fun x => (x - average l) ^ 2) l).
(** returns of a portfolio above the benchmark, one row of asset returns per period *)
Definition excess_series (hist : list (list R)) (bench w : list R) : list R :=
  differences (map (fun row => inner row w) hist) bench.
(** an objective of the model as a function of the weights, with parameter values [ps] *)
Definition as_function (ps : list R) (e : expr -> expr) (x : list R) : R := evals (fun _ => []) ps (e (EConst x)).
