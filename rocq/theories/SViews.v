(** * What it means to write the same views differently (C122), independent of how the model computes
    (the model only provides the records of arguments and objects, and the calls that are compared) *)
From Coq Require Import List Reals.
From Verif Require Import Py MBase SLin SBL MBL.
Import ListNotations.
Local Open Scope R_scope.

(** the same arguments with other views, given as arrays *)
Definition with_views (a : bl_args) (Q : list R) (P : list (list R)) (om : omega_arg) (c : conf_arg) : bl_args :=
  mkArgs (a_cov a) (a_pi a) VNone (Some Q) (Some P) om c (a_tau a) (a_ra a) (a_caps a) (a_rf a).
(** the same arguments with other views, given as a dictionary *)
Definition with_dict (a : bl_args) (d : dict R) (om : omega_arg) (c : conf_arg) : bl_args :=
  mkArgs (a_cov a) (a_pi a) (VDict d) None None om c (a_tau a) (a_ra a) (a_caps a) (a_rf a).

(** two models give the same posterior returns, the same posterior covariance matrix and, when the weights are
    determined, the same weights *)
Definition same_covariance (la : linalg) (o o' : bl) : Prop := snd (bl_cov la o') = snd (bl_cov la o).
Definition same_returns (la : linalg) (o o' : bl) : Prop :=
  snd (bl_returns la o') = snd (bl_returns la o) /\
  (invertible (bl_n o) (bl_sigma o) -> forall ra, match ra with Some d => d <> 0 | None => True end ->
     snd (bl_weights la o' ra) = snd (bl_weights la o ra)).

(** the views do not contradict each other with certainty: either every combination of them is uncertain, or the
    covariance matrix is positive definite and there are returns that meet them all *)
Definition answerable (o : bl) : Prop :=
  pos_def (length (bl_Q o)) (bl_omega o) \/
  (pos_def (bl_n o) (bl_sigma o) /\ exists mu, length mu = bl_n o /\ mat_vec (bl_P o) mu = bl_Q o).

(** linear recombination of views: row [i] of [D] holds the coefficients of new view [i]; [D] loses nothing *)
Definition one_to_one (k : nat) (D : list (list R)) : Prop :=
  forall x, length x = k -> Forall (fun y => y = 0) (mat_vec D x) -> x = repeat 0 k.
Definition combined_omega (D Om : list (list R)) : list (list R) :=
  map (fun r => map (fun r' => inner r (mat_vec Om r')) D) D.

(** the elements of a list at the places [s] *)
Definition pick {X : Type} (d : X) (s : list nat) (l : list X) : list X := map (fun i => nth i l d) s.
Definition pick_omega (s : list nat) (om : omega_arg) : omega_arg :=
  match om with OmArr m => OmArr (map (pick 0 s) (pick [] s m)) | _ => om end.
Definition pick_conf (s : list nat) (c : conf_arg) : conf_arg :=
  match c with ConfNone => ConfNone | ConfList l => ConfList (pick 0 s l) | ConfArr l => ConfArr (pick 0 s l) end.

(** row [i] of a table, or number [i] of a list, multiplied by [c_i] *)
Fixpoint scaled (c x : list R) : list R := match c, x with a :: c', b :: x' => a * b :: scaled c' x' | _, _ => [] end.
Fixpoint scaled_rows (c : list R) (M : list (list R)) : list (list R) :=
  match c, M with a :: c', r :: M' => map (Rmult a) r :: scaled_rows c' M' | _, _ => [] end.

(** no view is held with certainty: the default uncertainty, or confidences below one *)
Definition uncertain (om : omega_arg) (c : conf_arg) (k : nat) : Prop :=
  om = OmDefault \/ forall i, (i < k)%nat -> nth i (conf_list c) 0 < 1.
