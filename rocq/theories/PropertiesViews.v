(** * Property C122: the same views written differently *)
From Coq Require Import ZArith List Bool Reals Permutation.
From Verif Require Import Num Py MBase SLin SBL SViews MBL PViews2 PViews3 PViews4 PViews5 PViewsW.
Import ListNotations.
Local Open Scope R_scope.

(** C122: views recombined by any one-to-one linear map, with the uncertainty recombined likewise *)
Theorem c122_recombined : forall la a Q P Om c o D k', exact_linalg la -> bl_init (with_views a Q P (OmArr Om) c) = Ok o ->
  psd (bl_n o) (bl_sigma o) -> symmetric (bl_n o) (bl_sigma o) -> psd (length Q) Om -> symmetric (length Q) Om ->
  shaped k' (length Q) D -> one_to_one (length Q) D ->
  exists o', bl_init (with_views a (mat_vec D Q) (map (combine_rows (bl_n o) P) D) (OmArr (combined_omega D Om)) c) = Ok o' /\
    same_covariance la o o' /\ (answerable o -> same_returns la o o').
Proof. exact recombined. Qed.
Print Assumptions c122_recombined.
(** views in another order *)
Theorem c122_reordered : forall la a Q P om c o s, exact_linalg la -> bl_init (with_views a Q P om c) = Ok o ->
  psd (bl_n o) (bl_sigma o) -> symmetric (bl_n o) (bl_sigma o) -> psd (length Q) (bl_omega o) -> symmetric (length Q) (bl_omega o) ->
  Permutation s (seq 0 (length Q)) ->
  exists o', bl_init (with_views a (pick 0 s Q) (pick [] s P) (pick_omega s om) (pick_conf s c)) = Ok o' /\ same_covariance la o o' /\ same_returns la o o'.
Proof. exact reordered. Qed.
Print Assumptions c122_reordered.
(** views in other units, or with the other sign: default uncertainty and positive confidences *)
Theorem c122_rescaled : forall la a Q P om c o cs, exact_linalg la -> bl_init (with_views a Q P om c) = Ok o ->
  psd (bl_n o) (bl_sigma o) -> symmetric (bl_n o) (bl_sigma o) ->
  om = OmDefault \/ (om = OmIdzorek /\ forall i, (i < length Q)%nat -> 0 < nth i (conf_list c) 0) ->
  length cs = length Q -> Forall (fun x => x <> 0) cs ->
  exists o', bl_init (with_views a (scaled cs Q) (scaled_rows cs P) om c) = Ok o' /\ same_covariance la o o' /\
    (answerable o \/ uncertain om c (length Q) -> same_returns la o o').
Proof. exact rescaled. Qed.
Print Assumptions c122_rescaled.
(** views given as a dictionary in another order, with the uncertainties or confidences in that order *)
Theorem c122_dict_order : forall la a d om c o s, exact_linalg la -> bl_init (with_dict a d om c) = Ok o ->
  psd (bl_n o) (bl_sigma o) -> symmetric (bl_n o) (bl_sigma o) -> psd (length d) (bl_omega o) -> symmetric (length d) (bl_omega o) ->
  Permutation s (seq 0 (length d)) ->
  exists o', bl_init (with_dict a (pick (LInt 0%Z, 0) s d) (pick_omega s om) (pick_conf s c)) = Ok o' /\ same_covariance la o o' /\ same_returns la o o'.
Proof. exact dict_order. Qed.
Print Assumptions c122_dict_order.
(** the order of a dictionary of views is irrelevant with the default uncertainty *)
Theorem c122_dict_order_default : forall la a d d' c o, exact_linalg la -> bl_init (with_dict a d OmDefault c) = Ok o ->
  psd (bl_n o) (bl_sigma o) -> symmetric (bl_n o) (bl_sigma o) -> Permutation d d' ->
  exists o', bl_init (with_dict a d' OmDefault c) = Ok o' /\ same_covariance la o o' /\ same_returns la o o'.
Proof. exact dict_order_default. Qed.
Print Assumptions c122_dict_order_default.
(** with the default uncertainty a view counts as often as it is stated *)
Theorem c122_repeated : forall la a p q c m o, exact_linalg la -> bl_init (with_views a (repeat q m) (repeat p m) OmDefault c) = Ok o ->
  psd (bl_n o) (bl_sigma o) -> symmetric (bl_n o) (bl_sigma o) -> 0 < qform (bl_sigma o) p -> (0 < m)%nat ->
  inner p (snd (bl_returns la o)) = inner p (bl_pi o) + INR m / (INR m + 1) * (q - inner p (bl_pi o)).
Proof. exact repeated. Qed.
Print Assumptions c122_repeated.
(** the default uncertainty is not recombined with the views *)
Theorem c122_recombined_refuted : forall la, exact_linalg la -> exists a Q P D o o', one_to_one (length Q) D /\ square (length Q) D /\
  bl_init (with_views a Q P OmDefault ConfNone) = Ok o /\
  bl_init (with_views a (mat_vec D Q) (map (combine_rows (bl_n o) P) D) OmDefault ConfNone) = Ok o' /\
  pos_def (bl_n o) (bl_sigma o) /\ symmetric (bl_n o) (bl_sigma o) /\ snd (bl_returns la o) = [1/2; 0] /\ snd (bl_returns la o') = [4/7; 1/7].
Proof. exact recombined_default. Qed.
Print Assumptions c122_recombined_refuted.
(** a view held with confidence zero depends on its units *)
Theorem c122_rescaled_refuted : forall la a q p c o o' x, exact_linalg la -> bl_init (with_views a [q] [p] OmIdzorek c) = Ok o ->
  bl_init (with_views a [x * q] [map (Rmult x) p] OmIdzorek c) = Ok o' ->
  psd (bl_n o) (bl_sigma o) -> symmetric (bl_n o) (bl_sigma o) -> nth_error (conf_list c) 0 = Some 0 ->
  0 < qform (bl_sigma o) p -> q <> inner p (bl_pi o) -> x <> 0 -> x * x <> 1 -> snd (bl_returns la o') <> snd (bl_returns la o).
Proof. exact rescaled_zero. Qed.
Print Assumptions c122_rescaled_refuted.
