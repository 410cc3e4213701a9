(** * Views changed: concrete cases meeting the hypotheses of the theorems *)
From Coq Require Import List String Reals Lra Lia Arith Bool ZArith.
From Verif Require Import Num Py RBase PyLemmas MBase SLin SBL Sums Mat MRisk MBL PCov1 PBL2 PBL3 PBL4 PBL6 PBLW SViews PViews2 SToward PToward2 PTowardW PropertiesToward.
Import ListNotations.
Local Open Scope R_scope.

Definition half2 : list (list R) := [[1;1/2];[1/2;1]].
Lemma half2_ok : pos_def 2 half2 /\ symmetric 2 half2.
Proof. apply pair_pos; lra. Qed.
Lemma half2_omega : forall q1 q2, set_omega 2 half2 [q1;q2] eye2 1 OmDefault ConfNone = Ok (default_omega 2 2 half2 eye2 1).
Proof. intros q1 q2. unfold set_omega. cbv zeta. cbn [List.length rbind]. unfold default_omega. rewrite (proj2 (has_shape_true 2 2 _)) by shape. reflexivity. Qed.
Lemma half2_returns : forall la q1 q2, exact_linalg la -> let o := pair_obj half2 [q1;q2] (default_omega 2 2 half2 eye2 1) in
  snd (bl_returns la o) = [(7 * q1 + 2 * q2) / 15; (2 * q1 + 7 * q2) / 15].
Proof.
  intros la q1 q2 Hla o. unfold o, half2.
  rewrite (pair_returns la 1 (1/2) (1/2) 1 _ q1 q2 2 (1/2) (1/2) 2 ((8 * q1 - 2 * q2) / 15) ((8 * q2 - 2 * q1) / 15) Hla); [lists; field| |lra|field|field].
  unfold system_matrix, default_omega, eye2. cbn. unfold view_variance, entry. cbn. lists; field.
Qed.

(** the view on the first of two correlated assets raised from 0 to 15: its posterior return rises by 7, that of the other by 2 *)
Example ex_c136_raised : forall la, exact_linalg la -> exists o o',
  bl_init (with_views (pair_args half2) [0;0] eye2 OmDefault ConfNone) = Ok o /\ bl_init (with_views (pair_args half2) [15;0] eye2 OmDefault ConfNone) = Ok o' /\
  psd (bl_n o) (bl_sigma o) /\ symmetric (bl_n o) (bl_sigma o) /\ raised_view 0 15 [0;0] [15;0] /\ uncorrelated 2 (bl_omega o) /\
  snd (bl_returns la o) = [0;0] /\ snd (bl_returns la o') = [7;2].
Proof.
  intros la Hla. exists (pair_obj half2 [0;0] (default_omega 2 2 half2 eye2 1)), (pair_obj half2 [15;0] (default_omega 2 2 half2 eye2 1)).
  assert (H0 : bl_init (with_views (pair_args half2) [0;0] eye2 OmDefault ConfNone) = Ok (pair_obj half2 [0;0] (default_omega 2 2 half2 eye2 1))) by apply pair_init, half2_omega.
  split; [exact H0|]. split; [apply pair_init, half2_omega|]. split; [apply pos_def_psd, half2_ok|]. split; [apply half2_ok|].
  split; [repeat split; cbn; try lia; try lra; intros [|[|i]] Hi; [contradiction|reflexivity|reflexivity]|].
  split; [apply (chosen_uncorrelated _ _ _ _ _ _ H0); left; reflexivity|].
  rewrite !half2_returns by exact Hla. split; lists; field.
Qed.
(** a third of the way from the views 0, 0 to the views 15, 45: a third of the way to the answer *)
Example ex_c136_part_way : forall la, exact_linalg la -> part_way (1/3) [0;0] [15;45] = [5;15] /\
  snd (bl_returns la (pair_obj half2 [15;45] (default_omega 2 2 half2 eye2 1))) = [13;23] /\
  snd (bl_returns la (pair_obj half2 [5;15] (default_omega 2 2 half2 eye2 1))) = [13/3;23/3].
Proof. intros la Hla. rewrite !half2_returns by exact Hla. cbn. repeat split; lists; field. Qed.
(** a dictionary of views on two tickers *)
Definition dict_args : bl_args := mkArgs (CovFrame [LStr "A"; LStr "B"] half2) (PiArr [0;0]) VNone None None OmDefault ConfNone 1 1 None 0.
Example ex_c136_dict : exists o, bl_init (with_dict dict_args ([] ++ (LStr "B", 1) :: [(LStr "A", 2)]) OmDefault ConfNone) = Ok o /\
  psd (bl_n o) (bl_sigma o) /\ symmetric (bl_n o) (bl_sigma o) /\ List.length (cov_tickers (a_cov dict_args)) = bl_n o /\ bl_Q o = [1;2] /\ bl_P o = [[0;1];[1;0]].
Proof.
  eexists. split.
  - unfold bl_init, with_dict. cbn [a_cov a_views a_Q a_P a_ra a_pi a_caps a_rf a_tau a_omega a_conf dict_args cov_values b_tickers base_init cov_tickers List.length app half2].
    unfold parse_views. cbn [mapM fst snd index_of label_eqb String.eqb Ascii.eqb Bool.eqb option_map rbind map pick_row].
    rewrite (proj2 (Rleb_false 1 0)) by lra. cbn [rbind set_pi]. rewrite (proj2 (Rltb_false 1 1)) by lra. cbn [orb rbind]. unfold check_dimensions.
    cbn [List.length Nat.eqb has_shape forallb andb rbind pick_row map seq]. unfold set_omega. cbv zeta. cbn [List.length rbind]. unfold default_omega.
    rewrite (proj2 (has_shape_true 2 2 _)) by shape. reflexivity.
  - cbn [bl_n bl_sigma bl_Q bl_P]. split; [apply pos_def_psd, half2_ok|]. split; [apply half2_ok|]. repeat split.
Qed.
(** a single view on the difference of the assets *)
Example ex_c136_single : forall la, exact_linalg la -> let a := with_views (pair_args half2) [4] [[1;-1]] OmDefault ConfNone in exists o, bl_init a = Ok o /\
  List.length (bl_Q o) = 1%nat /\ psd (bl_n o) (bl_sigma o) /\ symmetric (bl_n o) (bl_sigma o) /\
  bl_tau o * qform (bl_sigma o) [1;-1] = 1 /\ entry (bl_omega o) 0 0 = 1.
Proof.
  intros la Hla a. exists (mkBL (base_init 2 (Some (cov_tickers (CovArray half2)))) half2 2 [4] [[1;-1]] [0;0] (default_omega 2 1 half2 [[1;-1]] 1) 1 1 None None None None).
  split.
  - apply (init_arrays (CovArray half2)); [shape|reflexivity|shape|lra|lra|]. unfold set_omega. cbv zeta. cbn [List.length rbind].
    unfold default_omega. rewrite (proj2 (has_shape_true 1 1 _)) by shape. reflexivity.
  - split; [reflexivity|]. split; [apply pos_def_psd, half2_ok|]. split; [apply half2_ok|]. split.
    + unfold qform, half2. cbn. field.
    + unfold default_omega, diag_matrix, entry, view_variance, half2. cbn. unfold entry. cbn. field.
Qed.
(** both matrices invertible *)
Example ex_c136_nearer : pos_def 2 half2 /\ right_inverse 2 (scale_matrix 1 half2) [[4/3;-2/3];[-2/3;4/3]] /\ right_inverse 2 eye2 eye2 /\ pos_def 2 eye2 /\ symmetric 2 eye2.
Proof.
  destruct (pair_pos 1 0 1) as [E1 E2]; [lra|lra|]. split; [apply half2_ok|]. split; [|split; [|split; [exact E1|exact E2]]].
  - split; [shape|]. intros [|x [|y [|]]] Hx; try discriminate Hx. unfold half2. cbn. lists; field.
  - split; [shape|]. intros [|x [|y [|]]] Hx; try discriminate Hx. cbn. lists; ring.
Qed.
