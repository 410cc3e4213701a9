(** * Elementary linear algebra used in specifications, independent of the model's helpers *)
From Coq Require Import List Reals.
Import ListNotations.
Local Open Scope R_scope.

(** sum of a list *)
Fixpoint total (l : list R) : R := match l with [] => 0 | x :: l' => x + total l' end.

(** inner product of two lists *)
Fixpoint inner (x y : list R) : R :=
  match x, y with a :: x', b :: y' => a * b + inner x' y' | _, _ => 0 end.

(** quadratic form sum_i w_i * (sum_j M_ij w_j) *)
Definition qform (M : list (list R)) (w : list R) : R := inner w (map (fun row => inner row w) M).

(** [M] is an n x n array *)
Definition square (n : nat) (M : list (list R)) : Prop :=
  length M = n /\ Forall (fun row => length row = n) M.

(** positive semidefinite *)
Definition psd (n : nat) (M : list (list R)) : Prop :=
  square n M /\ forall w, length w = n -> 0 <= qform M w.

(** entry of an array *)
Definition entry (M : list (list R)) (i j : nat) : R := nth j (nth i M []) 0.
Definition symmetric (n : nat) (M : list (list R)) : Prop :=
  forall i j, (i < n)%nat -> (j < n)%nat -> entry M i j = entry M j i.

(** matrix times vector, and: [P] is a right inverse of [M] *)
Definition mat_vec (M : list (list R)) (x : list R) : list R := map (fun row => inner row x) M.
Definition right_inverse (n : nat) (M P : list (list R)) : Prop :=
  square n P /\ forall x, length x = n -> mat_vec M (mat_vec P x) = x.
