(** * Specifications for Black-Litterman, independent of the model
    (which only provides the record type of the solvers) *)
From Coq Require Import List Reals.
From Verif Require Import Py SLin MBL.
Import ListNotations.
Local Open Scope R_scope.

(** [M] is an r x c array *)
Definition shaped (r c : nat) (M : list (list R)) : Prop :=
  length M = r /\ Forall (fun row => length row = c) M.

(** positive definite *)
Definition pos_def (n : nat) (M : list (list R)) : Prop :=
  square n M /\ forall w, length w = n -> w <> repeat 0 n -> 0 < qform M w.

(** a matrix of zeros *)
Definition zero_matrix (k : nat) : list (list R) := repeat (repeat 0 k) k.

(** difference of two vectors *)
Fixpoint minus_vec (x y : list R) : list R :=
  match x, y with a :: x', b :: y' => a - b :: minus_vec x' y' | _, _ => [] end.
Definition sum_squares (x : list R) : R := inner x x.

(** what is assumed of [np.linalg.solve] and [np.linalg.lstsq] in exact arithmetic: [solve] solves exactly the
    systems whose matrix is invertible, [lstsq] minimises the sum of the squared residuals *)
Definition invertible (k : nat) (A : list (list R)) : Prop := exists B, right_inverse k A B.
Definition exact_solver (solve : list (list R) -> list R -> option (list R)) : Prop :=
  forall k A b, square k A -> length b = k ->
    (invertible k A -> exists x, solve A b = Some x /\ length x = k /\ mat_vec A x = b) /\
    (~ invertible k A -> solve A b = None).
Definition exact_lstsq (lstsq : list (list R) -> list R -> list R) : Prop :=
  forall k A b, square k A -> length b = k ->
    length (lstsq A b) = k /\
    forall y, length y = k ->
      sum_squares (minus_vec (mat_vec A (lstsq A b)) b) <= sum_squares (minus_vec (mat_vec A y) b).

Definition exact_linalg (la : linalg) : Prop := exact_solver (la_solve la) /\ exact_lstsq (la_lstsq la).

(** the objective of the Bayesian estimate: distance to the prior in units of the prior's uncertainty plus
    distance of the views in units of the views' uncertainty.  [precS] and [precO] are the inverses of
    [tau * sigma] and [omega]. *)
Definition bayes_loss (precS precO P : list (list R)) (pi Q mu : list R) : R :=
  qform precS (minus_vec mu pi) + qform precO (minus_vec Q (mat_vec P mu)).

(** sum of two vectors *)
Definition plus_vec (x y : list R) : list R := map (fun p => fst p + snd p) (combine x y).

(** transposed matrix times vector: the combination of the rows of [P] with coefficients [y] *)
Fixpoint combine_rows (n : nat) (P : list (list R)) (y : list R) : list R :=
  match P, y with
  | row :: P', c :: y' => plus_vec (map (Rmult c) row) (combine_rows n P' y')
  | _, _ => repeat 0 n
  end.

(** every entry of a matrix multiplied by a number *)
Definition scale_matrix (c : R) (M : list (list R)) : list (list R) := map (map (Rmult c)) M.

(** portfolio of weights proportional to market capitalisation *)
Definition proportions (caps : list R) : list R := map (fun c => c / total caps) caps.

(** the same arguments with another tau *)
Definition with_tau (a : bl_args) (t : R) : bl_args :=
  mkArgs (a_cov a) (a_pi a) (a_views a) (a_Q a) (a_P a) (a_omega a) (a_conf a) t (a_ra a) (a_caps a) (a_rf a).

(** the share of a label in the market *)
Definition cap_weight (caps : dict R) (l : label) : R := match dget l caps with Some c => c / total (map snd caps) | None => 0 end.

(** the numbers given as confidences *)
Definition conf_list (c : conf_arg) : list R := match c with ConfNone => [] | ConfList l => l | ConfArr l => l end.
