(** * The same views written differently: concrete cases meeting the hypotheses of the theorems *)
From Coq Require Import List String Reals Lra Lia Arith Bool ZArith Permutation.
From Verif Require Import Num Py RBase PyLemmas MBase SLin SBL Sums Mat MRisk MBL PCov1 PBL3 PBL6 PBLW SViews PViews2 PViews3 PViewsW PropertiesViews.
Import ListNotations.
Local Open Scope R_scope.

Lemma id2_pos : pos_def 2 [[1;0];[0;1]].
Proof.
  split; [shape|]. intros [|x [|y [|]]] Hw Hx; try discriminate Hw. unfold qform. cbn.
  assert (H : x <> 0 \/ y <> 0) by (destruct (Req_dec x 0) as [->|]; [right; intros ->; apply Hx; reflexivity|auto]).
  pose proof (Rle_0_sqr x) as S1. pose proof (Rle_0_sqr y) as S2. destruct H as [H|H]; apply Rsqr_pos_lt in H; unfold Rsqr in *; lra.
Qed.
Lemma id2_psd : psd 2 [[1;0];[0;1]].
Proof. split; [shape|]. intros w Hw. destruct id2_pos as [_ H]. destruct w as [|x [|y [|]]]; try discriminate Hw. unfold qform. cbn. pose proof (Rle_0_sqr x). pose proof (Rle_0_sqr y). unfold Rsqr in *. lra. Qed.
Lemma id2_sym : symmetric 2 [[1;0];[0;1]].
Proof. intros i j Hi Hj. destruct i as [|[|]]; try lia; destruct j as [|[|]]; try lia; reflexivity. Qed.
Definition id2 : list (list R) := [[1;0];[0;1]].
Lemma id2_init : forall Q P om c Om, shaped (List.length Q) 2 P -> set_omega 2 id2 Q P 1 om c = Ok Om -> bl_init (with_views mixed_args Q P om c) = Ok (mixed_obj Q P Om).
Proof. intros Q P om c Om HP HO. apply (init_arrays (CovArray id2)); [shape|reflexivity|exact HP|lra|lra|exact HO]. Qed.

(** two views, the sum and the first of them *)
Example ex_c122_recombined : let o := mixed_obj [1;0] id2 id2 in
  bl_init (with_views mixed_args [1;0] id2 (OmArr id2) ConfNone) = Ok o /\ psd 2 (bl_sigma o) /\ symmetric 2 (bl_sigma o) /\ psd 2 id2 /\ symmetric 2 id2 /\
  shaped 2 2 mixing /\ one_to_one 2 mixing /\ answerable o /\ mat_vec mixing [1;0] = [1;1] /\ combined_omega mixing id2 = [[1;1];[1;2]].
Proof.
  intros o. split; [apply id2_init; [shape|apply set_omega_arr; shape]|]. split; [exact id2_psd|]. split; [exact id2_sym|]. split; [exact id2_psd|]. split; [exact id2_sym|].
  split; [shape|]. split; [|split; [left; exact id2_pos|split; cbn; lists; ring]].
  intros [|x [|y [|]]] Hx HF; try discriminate Hx. cbn in HF. inversion HF as [|? ? E1 HF1]; subst. inversion HF1 as [|? ? E2 _]; subst. cbn. lists; lra.
Qed.
(** one view written twice with the same error: no new information, unlike [ex_c122_repeated] *)
Example ex_c122_copied : one_to_one 1 [[1];[1]] /\ combined_omega [[1];[1]] [[3]] = [[3;3];[3;3]] /\ mat_vec [[1];[1]] [5] = [5;5].
Proof.
  split; [|split; cbn; lists; ring]. intros [|x [|]] Hx HF; try discriminate Hx. cbn in HF. inversion HF as [|? ? E1 _]; subst. cbn. lists; lra.
Qed.
(** Idzorek's confidences one half and one quarter, exchanged with the views *)
Example ex_c122_reordered : exists Om, bl_init (with_views mixed_args [1;0] [[1;0];[1;1]] OmIdzorek (ConfList [1/2;1/4])) = Ok (mixed_obj [1;0] [[1;0];[1;1]] Om) /\
  psd 2 Om /\ symmetric 2 Om /\ Permutation [1;0]%nat (seq 0 2) /\ pick 0 [1;0]%nat [1;0] = [0;1] /\ pick [] [1;0]%nat [[1;0];[1;1]] = [[1;1];[1;0]] /\
  pick_conf [1;0]%nat (ConfList [1/2;1/4]) = ConfList [1/4;1/2].
Proof.
  set (f := fun a => if Reqb (nth a [1/2;1/4] 0) 0 then 10 ^ 6 else 1 * idz (nth a [1/2;1/4] 0) * view_variance 2 id2 [[1;0];[1;1]] a a).
  assert (E : idzorek_method 2 2 id2 [[1;0];[1;1]] 1 [1/2;1/4] = Ok (diag_matrix 2 f)).
  { apply idzorek_conv; [cbn; lia|]. intros [|[|]] Ha; cbn; try lra; lia. }
  exists (diag_matrix 2 f). split; [|split; [|split]].
  - apply id2_init; [shape|]. unfold set_omega. cbv zeta. cbn [List.length Nat.eqb rbind]. rewrite E. cbn [rbind]. rewrite diag_shape. reflexivity.
  - apply diag_psd. unfold f. intros [|[|]] Ha; try lia; cbn [nth].
    + rewrite (proj2 (Reqb_false (1/2) 0)) by lra. unfold idz, view_variance, entry. cbn. lra.
    + rewrite (proj2 (Reqb_false (1/4) 0)) by lra. unfold idz, view_variance, entry. cbn. lra.
  - apply diag_symmetric.
  - split; [apply perm_swap|]. cbn. auto.
Qed.
(** the second view stated with the other sign and in percent *)
Example ex_c122_rescaled : bl_init (with_views mixed_args [1;0] id2 OmDefault ConfNone) = Ok (mixed_obj [1;0] id2 (default_omega 2 2 id2 id2 1)) /\
  Forall (fun x => x <> 0) [2;-100] /\ scaled [2;-100] [1;3] = [2;-300] /\ scaled_rows [2;-100] id2 = [[2;0];[0;-100]] /\ uncertain OmDefault ConfNone 2.
Proof.
  split; [apply id2_init; [shape|]|].
  - unfold set_omega. cbv zeta. cbn [List.length rbind]. unfold default_omega. rewrite diag_shape. reflexivity.
  - split; [repeat constructor; lra|]. split; [cbn; lists; ring|]. split; [cbn; lists; ring|]. left. reflexivity.
Qed.
(** stated once a view is met half way, stated twice to two thirds *)
Example ex_c122_repeated : forall la, exact_linalg la ->
  (exists o, bl_init (with_views mixed_args [6] [[1;0]] OmDefault ConfNone) = Ok o /\ inner [1;0] (snd (bl_returns la o)) = 3) /\
  (exists o, bl_init (with_views mixed_args [6;6] [[1;0];[1;0]] OmDefault ConfNone) = Ok o /\ inner [1;0] (snd (bl_returns la o)) = 4).
Proof.
  intros la Hla.
  assert (G : forall m, (0 < m)%nat -> exists o, bl_init (with_views mixed_args (repeat 6 m) (repeat [1;0] m) OmDefault ConfNone) = Ok o /\ inner [1;0] (snd (bl_returns la o)) = INR m / (INR m + 1) * 6).
  { intros m Hm. set (Om := default_omega 2 m id2 (repeat [1;0] m) 1).
    assert (HI : bl_init (with_views mixed_args (repeat 6 m) (repeat [1;0] m) OmDefault ConfNone) = Ok (mixed_obj (repeat 6 m) (repeat [1;0] m) Om)).
    { apply id2_init.
      - rewrite repeat_length. split; [apply repeat_length|]. apply Forall_forall. intros r Hr. apply repeat_spec in Hr. subst. reflexivity.
      - unfold set_omega. cbv zeta. rewrite repeat_length. cbn [rbind]. unfold default_omega. rewrite diag_shape. reflexivity. }
    eexists. split; [exact HI|]. rewrite (c122_repeated la mixed_args [1;0] 6 ConfNone m _ Hla HI); [|exact id2_psd|exact id2_sym| |exact Hm].
    - cbn [bl_pi mixed_obj]. cbn. ring.
    - unfold qform. cbn. lra. }
  split.
  - destruct (G 1%nat ltac:(lia)) as (o & H & E). exists o. split; [exact H|]. rewrite E. cbn. field.
  - destruct (G 2%nat ltac:(lia)) as (o & H & E). exists o. split; [exact H|]. rewrite E. cbn. field.
Qed.
(** a dictionary of two views in both orders *)
Definition named : bl_args := mkArgs (CovFrame [LStr "A"; LStr "B"] id2) (PiArr [0;0]) VNone None None OmDefault ConfNone 1 1 None 0.
Example ex_c122_dict_order : let d := [(LStr "B", 1); (LStr "A", 2)] in exists o, bl_init (with_dict named d OmDefault ConfNone) = Ok o /\
  bl_n o = 2%nat /\ bl_sigma o = id2 /\ bl_Q o = [1;2] /\ bl_P o = [[0;1];[1;0]] /\ psd 2 (bl_omega o) /\ symmetric 2 (bl_omega o) /\
  Permutation d [(LStr "A", 2); (LStr "B", 1)] /\ pick (LInt 0%Z, 0) [1;0]%nat d = [(LStr "A", 2); (LStr "B", 1)].
Proof.
  intros d. exists (mkBL (base_init 2 (Some [LStr "A"; LStr "B"])) id2 2 [1;2] [[0;1];[1;0]] [0;0] (default_omega 2 2 id2 [[0;1];[1;0]] 1) 1 1 None None None None).
  assert (HI : bl_init (with_dict named d OmDefault ConfNone) =
    Ok (mkBL (base_init 2 (Some [LStr "A"; LStr "B"])) id2 2 [1;2] [[0;1];[1;0]] [0;0] (default_omega 2 2 id2 [[0;1];[1;0]] 1) 1 1 None None None None)).
  { transitivity (bl_init (with_views named [1;2] [[0;1];[1;0]] OmDefault ConfNone)).
    - unfold bl_init. cbn [with_dict with_views named a_cov a_views a_Q a_P a_ra a_pi a_caps a_rf a_tau a_omega a_conf]. reflexivity.
    - apply (init_arrays (CovFrame [LStr "A"; LStr "B"] id2)); [shape|reflexivity|shape|lra|lra|].
      unfold set_omega. cbv zeta. cbn [List.length rbind]. unfold default_omega. rewrite diag_shape. reflexivity. }
  split; [exact HI|]. cbn [bl_n bl_sigma bl_Q bl_P bl_omega]. repeat (split; [reflexivity|]). split; [|split; [apply diag_symmetric|split; [apply perm_swap|reflexivity]]].
  apply diag_psd. intros [|[|]] Ha; try lia; unfold view_variance, entry; cbn; lra.
Qed.
(** a view of 6 without confidence, and the same view in percent *)
Example ex_c122_zero : exists Om, bl_init (with_views mixed_args [6] [[1;0]] OmIdzorek (ConfList [0])) = Ok (mixed_obj [6] [[1;0]] Om) /\
  (exists o', bl_init (with_views mixed_args [100 * 6] [map (Rmult 100) [1;0]] OmIdzorek (ConfList [0])) = Ok o') /\
  nth_error (conf_list (ConfList [0])) 0 = Some 0 /\ 0 < qform id2 [1;0] /\ 6 <> inner [1;0] [0;0] /\ 100 <> 0 /\ 100 * 100 <> 1.
Proof.
  assert (G : forall q p, List.length p = 2%nat -> exists Om, bl_init (with_views mixed_args [q] [p] OmIdzorek (ConfList [0])) = Ok (mixed_obj [q] [p] Om)).
  { intros q p Lp. assert (EI := idzorek_conv 2 1 id2 [p] 1 [0]). eexists. apply id2_init.
    - split; [reflexivity|]. repeat constructor. exact Lp.
    - unfold set_omega. cbv zeta. cbn [List.length Nat.eqb rbind]. rewrite EI; [|cbn; lia|intros [|] Ha; cbn; lra || lia]. cbn [rbind]. rewrite diag_shape. reflexivity. }
  destruct (G 6 [1;0] eq_refl) as [Om E]. exists Om. split; [exact E|]. split; [destruct (G (100 * 6) (map (Rmult 100) [1;0]) eq_refl) as [Om' E']; eexists; exact E'|].
  split; [reflexivity|]. unfold qform. cbn. repeat split; lra.
Qed.
