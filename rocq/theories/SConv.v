(** * Specification: data that are converted on the way in (C100, C111, C121), independent of the model's helpers *)
From Coq Require Import ZArith List String Reals.
From Verif Require Import Py MFrame.
Import ListNotations.
Local Open Scope R_scope.

(** the table with one column that a Series is: it is called like the Series, or 0 if the Series has no name *)
Definition one_column (ix : list label) (name : option label) (vals : list (option R)) (f : frame (option R)) : Prop :=
  f_index f = ix /\ (exists l, f_cols f = [l] /\ (name = Some l \/ name = None /\ l = LInt 0)) /\
  Forall2 (fun v row => row = [v]) vals (f_rows f).
(** the linkage methods of scipy *)
Definition known_method (m : string) : Prop :=
  m = "single"%string \/ m = "complete"%string \/ m = "average"%string \/ m = "centroid"%string \/ m = "median"%string \/ m = "ward"%string \/ m = "weighted"%string.
(** [C] is the covariance matrix with the correlations [M] and the standard deviations [s] *)
Definition rescaled (n : nat) (M : list (list R)) (s : list R) (C : list (list R)) : Prop :=
  forall i j, (i < n)%nat -> (j < n)%nat -> nth j (nth i C nil) 0 = nth j (nth i M nil) 0 * (nth i s 0 * nth j s 0).
