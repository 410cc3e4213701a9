(** * A view that is answered the other way: witnesses (C136) *)
From Coq Require Import List Reals Lra Lia Arith Bool.
From Verif Require Import Num Py RBase PyLemmas MBase SLin SBL Sums Mat MRisk MBL PCov1 PCov2 PBL1 PBL3 PBL4 PBLW SViews PViews2 SToward.
Import ListNotations.
Local Open Scope R_scope.

Definition eye2 : list (list R) := [[1;0];[0;1]].
(** two assets, prior returns zero, a view on each *)
Definition pair_args (S : list (list R)) : bl_args := mkArgs (CovArray S) (PiArr [0;0]) VNone None None OmDefault ConfNone 1 1 None 0.
(** the object constructed from them *)
Definition pair_obj (S : list (list R)) (Q : list R) (Om : list (list R)) : bl :=
  mkBL (base_init 2 (Some (cov_tickers (CovArray S)))) S 2 Q eye2 [0;0] Om 1 1 None None None None.
Lemma pair_init : forall s1 s2 s3 s4 q1 q2 om Om, let S := [[s1;s2];[s3;s4]] in set_omega 2 S [q1;q2] eye2 1 om ConfNone = Ok Om ->
  bl_init (with_views (pair_args S) [q1;q2] eye2 om ConfNone) = Ok (pair_obj S [q1;q2] Om).
Proof. intros s1 s2 s3 s4 q1 q2 om Om S HO. apply (init_arrays (CovArray S)); [shape|reflexivity|shape|lra|lra|exact HO]. Qed.
Lemma pair_returns : forall la s1 s2 s3 s4 Om q1 q2 a b c d x y, exact_linalg la -> let S := [[s1;s2];[s3;s4]] in
  let o := pair_obj S [q1;q2] Om in system_matrix o S = [[a;b];[c;d]] -> a * d - b * c <> 0 ->
  a * x + b * y = q1 -> c * x + d * y = q2 -> snd (bl_returns la o) = [s1 * x + s2 * y; s3 * x + s4 * y].
Proof.
  intros la s1 s2 s3 s4 Om q1 q2 a b c d x y [H1 _] S o EA Hd E1 E2.
  assert (ET : tau_sigma_P o = S) by (unfold tau_sigma_P, o, S, eye2; cbn; lists; ring).
  unfold bl_returns, fill. change (bl_tsp o) with (@None matrix). change (bl_A o) with (@None matrix). cbv beta iota zeta.
  rewrite ET, EA. unfold o, eye2, S. cbn [bl_n bl_Q bl_P bl_pi pair_obj length seq map sumn nth snd]. unfold entry. cbn [nth]. unfold solve_or_lstsq.
  destruct (H1 2%nat [[a;b];[c;d]] [q1;q2]) as [HI _]; [shape|reflexivity|]. destruct HI as (z & Ez & Lz & Vz).
  { exists [[d / (a * d - b * c); - b / (a * d - b * c)]; [- c / (a * d - b * c); a / (a * d - b * c)]]. split; [shape|].
    intros [|u [|v [|]]] Hy; try discriminate Hy. cbn. lists; field; exact Hd. }
  unfold eye2. cbn [nth]. replace (q1 - (0 + 1 * 0 + 0 * 0)) with q1 by ring. replace (q2 - (0 + 0 * 0 + 1 * 0)) with q2 by ring. rewrite Ez.
  destruct z as [|z1 [|z2 [|]]]; try discriminate Lz. cbn in Vz. injection Vz as V1 V2.
  assert (Z1 : z1 = x). { apply Rmult_eq_reg_l with (a * d - b * c); [|exact Hd]. replace ((a * d - b * c) * z1) with (d * (a * z1 + (b * z2 + 0)) - b * (c * z1 + (d * z2 + 0))) by ring. rewrite V1, V2, <- E1, <- E2. ring. }
  assert (Z2 : z2 = y). { apply Rmult_eq_reg_l with (a * d - b * c); [|exact Hd]. replace ((a * d - b * c) * z2) with (a * (c * z1 + (d * z2 + 0)) - c * (a * z1 + (b * z2 + 0))) by ring. rewrite V1, V2, <- E1, <- E2. ring. }
  subst. cbn. lists; ring.
Qed.
Lemma pair_pos : forall s1 s2 s3, 0 < s1 -> s2 * s2 < s1 * s3 -> pos_def 2 [[s1;s2];[s2;s3]] /\ symmetric 2 [[s1;s2];[s2;s3]].
Proof.
  intros s1 s2 s3 H1 H2. split; [split; [shape|]|].
  - intros [|x [|y [|]]] Hw Hx; try discriminate Hw. unfold qform. cbn.
    assert (E : s1 * (x * (s1 * x + (s2 * y + 0)) + (y * (s2 * x + (s3 * y + 0)) + 0)) = (s1 * x + s2 * y) * (s1 * x + s2 * y) + (s1 * s3 - s2 * s2) * (y * y)) by ring.
    apply Rmult_lt_reg_l with s1; [exact H1|]. rewrite Rmult_0_r, E.
    pose proof (Rle_0_sqr (s1 * x + s2 * y)) as S1. unfold Rsqr in S1.
    destruct (Req_dec y 0) as [->|Hy].
    + assert (Hx0 : x <> 0) by (intros ->; apply Hx; reflexivity). assert (P1 : s1 * x <> 0) by (apply Rmult_integral_contrapositive_currified; lra).
      apply Rsqr_pos_lt in P1. unfold Rsqr in P1. replace ((s1 * x + s2 * 0) * (s1 * x + s2 * 0)) with (s1 * x * (s1 * x)) by ring. lra.
    + apply Rsqr_pos_lt in Hy. unfold Rsqr in Hy. assert (0 < (s1 * s3 - s2 * s2) * (y * y)) by (apply Rmult_lt_0_compat; lra). lra.
  - intros i j Hi Hj. destruct i as [|[|]]; try (cbn in Hi; lia); destruct j as [|[|]]; try (cbn in Hj; lia); reflexivity.
Qed.

(** the view on the first asset is above its prior return, its posterior return below *)
Theorem own_view_away : forall la, exact_linalg la -> exists a Q P o, bl_init (with_views a Q P OmDefault ConfNone) = Ok o /\
  pos_def (bl_n o) (bl_sigma o) /\ symmetric (bl_n o) (bl_sigma o) /\ (forall x, length x = bl_n o -> mat_vec P x = x) /\
  nth 0 (bl_pi o) 0 = 0 /\ nth 0 Q 0 = 1 /\ nth 0 (snd (bl_returns la o)) 0 = - 3 / 5.
Proof.
  intros la Hla. set (S := [[1;1/2];[1/2;1]]). set (Om := default_omega 2 2 S eye2 1).
  exists (pair_args S), [1;-8], eye2, (pair_obj S [1;-8] Om).
  assert (HO : set_omega 2 S [1;-8] eye2 1 OmDefault ConfNone = Ok Om).
  { unfold set_omega. cbv zeta. cbn [length rbind]. fold Om. unfold Om, default_omega. rewrite (proj2 (has_shape_true 2 2 _)) by shape. reflexivity. }
  destruct (pair_pos 1 (1/2) 1) as [Hp Hs]; [lra|lra|].
  split; [apply pair_init; exact HO|]. split; [exact Hp|]. split; [exact Hs|]. split.
  { intros [|x [|y [|]]] Hx; try discriminate Hx. cbn. lists; ring. }
  split; [reflexivity|]. split; [reflexivity|].
  unfold S. rewrite (pair_returns la 1 (1/2) (1/2) 1 Om 1 (-8) 2 (1/2) (1/2) 2 (8/5) (-22/5) Hla); [cbn; field| |lra|lra|lra].
  unfold system_matrix, Om, default_omega, S, eye2. cbn. unfold view_variance, entry. cbn. lists; field.
Qed.
(** correlated errors: the view on the first asset is raised, its posterior return falls *)
Theorem raise_falls : forall la, exact_linalg la -> exists a Q Q' P Om o o', bl_init (with_views a Q P (OmArr Om) ConfNone) = Ok o /\ bl_init (with_views a Q' P (OmArr Om) ConfNone) = Ok o' /\
  pos_def (bl_n o) (bl_sigma o) /\ symmetric (bl_n o) (bl_sigma o) /\ pos_def (length Q) Om /\ symmetric (length Q) Om /\ (forall x, length x = bl_n o -> mat_vec P x = x) /\
  raised_view 0 17 Q Q' /\ nth 0 (snd (bl_returns la o)) 0 = 0 /\ nth 0 (snd (bl_returns la o')) 0 = - 1.
Proof.
  intros la Hla. set (S := [[1;1];[1;2]]). set (Om := [[10;3];[3;1]]).
  exists (pair_args S), [0;0], [17;0], eye2, Om, (pair_obj S [0;0] Om), (pair_obj S [17;0] Om).
  destruct (pair_pos 1 1 2) as [Hp Hs]; [lra|lra|]. destruct (pair_pos 10 3 1) as [Hp' Hs']; [lra|lra|].
  split; [apply pair_init, set_omega_arr; shape|]. split; [apply pair_init, set_omega_arr; shape|].
  split; [exact Hp|]. split; [exact Hs|]. split; [exact Hp'|]. split; [exact Hs'|]. split.
  { intros [|x [|y [|]]] Hx; try discriminate Hx. cbn. lists; ring. }
  split; [repeat split; cbn; try lia; try lra; intros [|[|i]] Hi; [contradiction|reflexivity|reflexivity]|].
  assert (EA : forall q1 q2, system_matrix (pair_obj S [q1;q2] Om) S = [[11;4];[4;3]]).
  { intros q1 q2. unfold system_matrix, Om, S, eye2. cbn. unfold entry. cbn. lists; ring. }
  split; unfold S.
  - rewrite (pair_returns la 1 1 1 2 Om 0 0 11 4 4 3 0 0 Hla (EA 0 0)); [cbn; ring|lra|lra|lra].
  - rewrite (pair_returns la 1 1 1 2 Om 17 0 11 4 4 3 3 (-4) Hla (EA 17 0)); [cbn; ring|lra|lra|lra].
Qed.
