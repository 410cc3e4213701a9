(** * Concrete cases for the theorems in PropertiesCopy.v *)
From Coq Require Import ZArith List String Bool Reals Lra Lia.
From Verif Require Import Num Py MBase MConvex MEF MDown MCopy SLin SBase SConvex SDown SCopy PEFW PDownW PCopy PCopyW PropertiesCopy.
Import ListNotations.
Local Open Scope R_scope.

(** one constructed optimizer satisfies the hypotheses; after copying it, both have lists of their own *)
Example ex_owns : own_lists pair_heap [pair_obj]. Proof. exact pair_owns. Qed.
(** a program: copy, then a constraint on the copy and a minimum volatility call on it *)
Definition limit (v : nat) : con := CIneq (EIndex [0%nat] (EVar v)) (EScalar (1/3)).
Definition program : list op :=
  [OCopy 0; OCall 1 (run best_solver (fun q => (nlp_x0 q, true)) (fun m => m) (KAddConstraint (CFun limit))) false;
   OCall 1 (run best_solver (fun q => (nlp_x0 q, true)) (fun m => m) KMinVol) false].
Example ex_program : spares 0 program /\ all_growing program.
Proof.
  split.
  - apply Forall_cons; [exact I|]. apply Forall_cons; [discriminate|]. apply Forall_cons; [discriminate|apply Forall_nil].
  - apply Forall_cons; [exact I|]. apply Forall_cons; [apply c40_methods_grow|]. apply Forall_cons; [apply c40_methods_grow|apply Forall_nil].
Qed.
(** the copy has the constraint, the original does not *)
Example ex_original : forall w' h' xs' rs, steps (firstn 2 program) cvar2_world pair_heap [pair_obj] = (w', h', xs', rs) ->
  map (fun x => List.length (e_cons (load h' x))) xs' = [2; 3]%nat.
Proof. intros w' h' xs' rs H. cbn in H. inversion H; subst. reflexivity. Qed.
Example ex_open : open_ef cvar2_world (load pair_heap pair_obj) [] /\ cvar_ready cvar2_world (load pair_heap pair_obj) [] pair_data.
Proof. exact pair_ready. Qed.
(** the solver of the interference exists *)
Example ex_solver : exists sv, exact_solver sv /\ complete_solver sv.
Proof. exists best_solver. split; [exact best_solver_exact|exact best_solver_complete]. Qed.
