(** * Recombined views with the default uncertainty: a witness (C122) *)
From Coq Require Import List Reals Lra Lia Arith Bool.
From Verif Require Import Num Py RBase PyLemmas MBase SLin SBL Sums Mat MRisk MBL PCov1 PCov2 PBL1 PBL3 PBL4 PBLW SViews PViews2.
Import ListNotations.
Local Open Scope R_scope.

(** two uncorrelated assets, the first view on the first of them *)
Definition mixed_args : bl_args := mkArgs (CovArray [[1;0];[0;1]]) (PiArr [0;0]) VNone None None OmDefault ConfNone 1 1 None 0.
Definition mixing : list (list R) := [[1;0];[1;1]].
(** black-litterman object of the views [Q], [P] with uncertainty [Om] *)
Definition mixed_obj (Q : list R) (P Om : matrix) : bl := mkBL (base_init 2 (Some (cov_tickers (CovArray [[1;0];[0;1]])))) [[1;0];[0;1]] 2 Q P [0;0] Om 1 1 None None None None.
Lemma mixed_init : forall Q P Om, shaped (length Q) 2 P -> set_omega 2 [[1;0];[0;1]] Q P 1 OmDefault ConfNone = Ok Om ->
  bl_init (with_views mixed_args Q P OmDefault ConfNone) = Ok (mixed_obj Q P Om).
Proof. intros Q P Om HP HO. apply (init_arrays (CovArray [[1;0];[0;1]])); [shape|reflexivity|exact HP|lra|lra|exact HO]. Qed.
Lemma mixed_returns : forall la Om q1 q2 p1 p2 p3 p4 a b c d x y, exact_linalg la ->
  let o := mixed_obj [q1;q2] [[p1;p2];[p3;p4]] Om in tau_sigma_P o = [[p1;p3];[p2;p4]] -> system_matrix o [[p1;p3];[p2;p4]] = [[a;b];[c;d]] -> a * d - b * c <> 0 ->
  a * x + b * y = q1 -> c * x + d * y = q2 -> snd (bl_returns la o) = [p1 * x + p3 * y; p2 * x + p4 * y].
Proof.
  intros la Om q1 q2 p1 p2 p3 p4 a b c d x y [H1 _] o ET EA Hd E1 E2. unfold bl_returns, fill. change (bl_tsp o) with (@None matrix). change (bl_A o) with (@None matrix). cbv beta iota zeta.
  rewrite ET, EA. unfold o. cbn [bl_n bl_Q bl_P bl_pi mixed_obj length seq map sumn nth snd]. unfold entry. cbn [nth]. unfold solve_or_lstsq.
  destruct (H1 2%nat [[a;b];[c;d]] [q1;q2]) as [HI _]; [shape|reflexivity|]. destruct HI as (z & Ez & Lz & Vz).
  { exists [[d / (a * d - b * c); - b / (a * d - b * c)]; [- c / (a * d - b * c); a / (a * d - b * c)]]. split; [shape|].
    intros [|u [|v [|]]] Hy; try discriminate Hy. cbn. lists; field; exact Hd. }
  replace (q1 - (0 + p1 * 0 + p2 * 0)) with q1 by ring. replace (q2 - (0 + p3 * 0 + p4 * 0)) with q2 by ring. rewrite Ez.
  destruct z as [|z1 [|z2 [|]]]; try discriminate Lz. cbn in Vz. injection Vz as V1 V2.
  assert (Z1 : z1 = x). { apply Rmult_eq_reg_l with (a * d - b * c); [|exact Hd]. replace ((a * d - b * c) * z1) with (d * (a * z1 + (b * z2 + 0)) - b * (c * z1 + (d * z2 + 0))) by ring. rewrite V1, V2, <- E1, <- E2. ring. }
  assert (Z2 : z2 = y). { apply Rmult_eq_reg_l with (a * d - b * c); [|exact Hd]. replace ((a * d - b * c) * z2) with (a * (c * z1 + (d * z2 + 0)) - c * (a * z1 + (b * z2 + 0))) by ring. rewrite V1, V2, <- E1, <- E2. ring. }
  subst. cbn. lists; ring.
Qed.
Theorem recombined_default : forall la, exact_linalg la -> exists a Q P D o o', one_to_one (length Q) D /\ square (length Q) D /\
  bl_init (with_views a Q P OmDefault ConfNone) = Ok o /\
  bl_init (with_views a (mat_vec D Q) (map (combine_rows (bl_n o) P) D) OmDefault ConfNone) = Ok o' /\
  pos_def (bl_n o) (bl_sigma o) /\ symmetric (bl_n o) (bl_sigma o) /\ snd (bl_returns la o) = [1/2; 0] /\ snd (bl_returns la o') = [4/7; 1/7].
Proof.
  intros la Hla. set (Q := [1;0]). set (P := [[1;0];[0;1]]).
  set (o := mixed_obj Q P (default_omega 2 2 [[1;0];[0;1]] P 1)).
  set (P' := map (combine_rows 2 P) mixing). set (Q' := mat_vec mixing Q).
  assert (EP' : P' = [[1;0];[1;1]]) by (unfold P', P, mixing, plus_vec; cbn; lists; ring). assert (EQ' : Q' = [1;1]) by (unfold Q', mixing, Q; cbn; lists; ring).
  set (o' := mixed_obj Q' P' (default_omega 2 2 [[1;0];[0;1]] P' 1)).
  assert (HO : forall q p, length q = 2%nat -> set_omega 2 [[1;0];[0;1]] q p 1 OmDefault ConfNone = Ok (default_omega 2 2 [[1;0];[0;1]] p 1)).
  { intros q p Lq. unfold set_omega. cbv zeta. rewrite Lq. cbn [rbind]. unfold default_omega. rewrite (proj2 (has_shape_true 2 2 _)) by shape. reflexivity. }
  exists mixed_args, Q, P, mixing, o, o'. split; [|split; [shape|split; [|split; [|split; [|split; [|split]]]]]].
  - intros [|x [|y [|]]] Hx HF; try discriminate Hx. cbn in HF. inversion HF as [|? ? E1 HF1]; subst. inversion HF1 as [|? ? E2 _]; subst. cbn. lists; lra.
  - apply mixed_init; [shape|]. apply HO. reflexivity.
  - change (bl_n o) with 2%nat. fold P' Q'. apply mixed_init; [rewrite EP'; shape|]. apply HO. reflexivity.
  - split; [shape|]. intros [|x [|y [|]]] Hw Hx; try discriminate Hw. unfold qform. cbn.
    assert (H : x <> 0 \/ y <> 0) by (destruct (Req_dec x 0) as [->|]; [right; intros ->; apply Hx; reflexivity|auto]).
    pose proof (Rle_0_sqr x) as S1. pose proof (Rle_0_sqr y) as S2. destruct H as [H|H]; apply Rsqr_pos_lt in H; unfold Rsqr in *; lra.
  - intros i j Hi Hj. destruct i as [|[|]]; try (cbn in Hi; lia); destruct j as [|[|]]; try (cbn in Hj; lia); reflexivity.
  - unfold o, Q. rewrite (mixed_returns la _ 1 0 1 0 0 1 2 0 0 2 (1/2) 0 Hla); [lists; field| | |lra|lra|lra].
    + cbn. lists; ring.
    + cbn. unfold view_variance, entry. cbn. lists; ring.
  - unfold o'. rewrite EP', EQ'. rewrite (mixed_returns la _ 1 1 1 0 1 1 2 1 1 4 (3/7) (1/7) Hla); [lists; field| | |lra|lra|lra].
    + cbn. lists; ring.
    + cbn. unfold view_variance, entry. cbn. lists; ring.
Qed.
