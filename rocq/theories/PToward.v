(** * How the posterior returns answer to a change of the views (C136) *)
From Coq Require Import List Reals Lra Lia Arith Bool.
From Verif Require Import Num Py RBase PyLemmas MBase SLin SBL Sums Mat MRisk MBL PCov1 PCov2 PHRP2 PBL1 PBL2 PBL3 PBL4 PBL5 PBL6 PBL9 PBL10 SViews PViews2 PViews5 SToward.
Import ListNotations.
Local Open Scope R_scope.

Lemma zero_squares : forall m (f : nat -> R), sumn m (fun c => f c * f c) = 0 -> forall c, (c < m)%nat -> f c = 0.
Proof.
  intros m f H c Hc. pose proof (sumn_term_le m (fun c => f c * f c) c (fun i _ => Rle_0_sqr (f i)) Hc) as H1. pose proof (Rle_0_sqr (f c)) as H2.
  apply Rsqr_0_uniq. unfold Rsqr in *. lra.
Qed.

(** ** One view raised, on functions *)
Section Raise.
  Variables (n k : nat) (S P Om : nat -> nat -> R).
  Hypothesis S_sym : sym n S.
  Hypothesis S_psd : psdf n S.
  Hypothesis Om_sym : sym k Om.
  Hypothesis Om_psd : psdf k Om.
  Let A := sysA n S P Om.
  Let T := sysT n S P.

  (** the normal equations of two right-hand sides that do not differ *)
  Lemma null_twice : forall x, (forall a, (a < k)%nat -> app k A (app k A x) a = 0) -> forall a, (a < k)%nat -> app k A x a = 0.
  Proof.
    intros x H a Ha.
    assert (E : sumn k (fun c => app k A x c * app k A x c) = 0).
    { transitivity (bil k A (app k A x) x); [rewrite bil_app; reflexivity|].
      rewrite bil_sym by (apply (A_sym n k S P Om S_sym Om_sym)). rewrite bil_app. apply sumn_zero. intros i Hi. rewrite H by exact Hi. ring. }
    apply (zero_squares k (app k A x) E a Ha).
  Qed.

  Variables (r : nat -> R) (j : nat) (d : R).
  Hypothesis Hj : (j < k)%nat.
  Hypothesis Hdiag : forall i, (i < k)%nat -> i <> j -> Om j i = 0.
  Hypothesis Hd : 0 <= d.
  Hypothesis Hr : forall a, (a < k)%nat -> app k A (fun c => app k A r c - d * delta j c) a = 0.

  Lemma Om_row : forall x, app k Om x j = Om j j * x j.
  Proof.
    intros x. unfold app. rewrite (sumn_ext k _ (fun i => delta j i * (Om j j * x j))).
    - rewrite (sumn_delta_r k j (fun _ => Om j j * x j)) by exact Hj. reflexivity.
    - intros i Hi. unfold delta. destruct (Nat.eqb_spec j i) as [->|Hne]; [ring|]. rewrite Hdiag by (auto; lia). ring.
  Qed.
  Lemma Om_jj : 0 <= Om j j.
  Proof. pose proof (Om_psd (delta j)) as H. rewrite bil_unit, Om_row in H by exact Hj. unfold delta in H. rewrite Nat.eqb_refl in H. lra. Qed.
  (** the part of a quadratic form that a single uncorrelated entry carries *)
  Lemma Om_one : forall x, Om j j * (x j * x j) <= bil k Om x x.
  Proof.
    intros x. set (y := fun i => x i - x j * delta j i). pose proof (Om_psd y) as H.
    assert (E : bil k Om y y = bil k Om x x - Om j j * (x j * x j)).
    { unfold y. rewrite bil_minus_l, !bil_minus_r, !bil_scal_l, !bil_scal_r.
      rewrite (bil_sym k Om x (delta j) Om_sym). rewrite !bil_unit, !Om_row by exact Hj. unfold delta at 1. rewrite Nat.eqb_refl. ring. }
    lra.
  Qed.

  Let z := fun c => app k A r c - d * delta j c.
  Lemma z_square : sumn k (fun c => z c * z c) = - d * z j.
  Proof.
    assert (E1 : sumn k (fun c => app k A r c * z c) = 0).
    { rewrite (sumn_ext k _ (fun c => z c * app k A r c)) by (intros; ring).
      rewrite <- bil_app, bil_sym by (apply (A_sym n k S P Om S_sym Om_sym)). rewrite bil_app. apply sumn_zero. intros i Hi. unfold z. rewrite Hr by exact Hi. ring. }
    assert (E2 : sumn k (fun c => delta j c * z c) = z j) by (apply (sumn_delta_r k j z); exact Hj).
    rewrite (sumn_ext k _ (fun c => app k A r c * z c - d * (delta j c * z c))) by (intros; unfold z; ring).
    rewrite sumn_minus, sumn_scal, E1, E2. ring.
  Qed.
  Lemma z_uncertain : 0 < Om j j -> forall c, (c < k)%nat -> z c = 0.
  Proof.
    intros Hp. assert (E : bil k A z z = 0) by (rewrite bil_app; apply sumn_zero; intros i Hi; unfold z at 2; rewrite Hr by exact Hi; ring).
    unfold A in E. rewrite A_bil in E. pose proof (S_psd (rows k P z)) as H1. pose proof (Om_one z) as H2. pose proof (Rle_0_sqr (z j)) as H3. unfold Rsqr in H3.
    assert (H4 : Om j j * (z j * z j) = 0) by (apply Rle_antisym; [lra|apply Rmult_le_pos; lra]).
    assert (H5 : z j = 0) by (apply Rsqr_0_uniq; unfold Rsqr; apply Rmult_integral in H4; destruct H4; lra).
    assert (E0 : sumn k (fun c => z c * z c) = 0) by (rewrite z_square, H5; ring).
    apply (zero_squares k z E0).
  Qed.
  (** the return of the view portfolio moves the same way, and by no more *)
  Lemma raise_core : 0 <= app n P (app k T r) j <= d.
  Proof.
    assert (E : app n P (app k T r) j = app k A r j - Om j j * r j).
    { unfold A. rewrite A_apply, Om_row. rewrite (app_ext n P (app k T r) (app n S (rows k P r))); [ring|]. intros i _. unfold T. apply T_apply. }
    rewrite E. pose proof Om_jj as H0. destruct (Rle_lt_or_eq_dec _ _ H0) as [Hp|Hz].
    - assert (Ez : forall c, (c < k)%nat -> app k A r c = d * delta j c) by (intros c Hc; pose proof (z_uncertain Hp c Hc) as Hz; unfold z in Hz; lra).
      assert (Eb : bil k A r r = d * r j).
      { rewrite bil_app. rewrite (sumn_ext k _ (fun i => delta j i * (d * r i))) by (intros i Hi; rewrite Ez by exact Hi; ring).
        apply (sumn_delta_r k j (fun i => d * r i)). exact Hj. }
      unfold A in Eb. rewrite A_bil in Eb. pose proof (S_psd (rows k P r)) as H1. pose proof (Om_one r) as H2.
      rewrite Ez by exact Hj. unfold delta. rewrite Nat.eqb_refl.
      assert (H3 : 0 <= d * r j) by (rewrite <- Eb; pose proof (Om_psd r); lra).
      assert (H4 : Om j j * (r j * r j) <= d * r j) by lra.
      destruct (Rle_lt_or_eq_dec _ _ Hd) as [Hd'|<-].
      + assert (H5 : 0 <= r j) by (apply Rmult_le_reg_l with d; lra).
        destruct (Rle_lt_or_eq_dec _ _ H5) as [H6|<-]; [|lra].
        assert (H7 : Om j j * r j <= d) by (apply Rmult_le_reg_r with (r j); lra).
        assert (0 <= Om j j * r j) by (apply Rmult_le_pos; lra). lra.
      + assert (H5 : Om j j * (r j * r j) = 0) by (apply Rle_antisym; [lra|apply Rmult_le_pos; [lra|apply Rle_0_sqr]]).
        apply Rmult_integral in H5. destruct H5 as [H5|H5]; [lra|]. assert (r j = 0) by (apply Rsqr_0_uniq; exact H5). rewrite H. lra.
    - rewrite <- Hz. pose proof z_square as E2.
      assert (E3 : z j = app k A r j - d) by (unfold z, delta; rewrite Nat.eqb_refl; ring).
      assert (H1 : z j * z j <= sumn k (fun c => z c * z c)) by (apply (sumn_term_le k (fun c => z c * z c) j); [intros; apply Rle_0_sqr|exact Hj]).
      assert (H2 : z j * z j <= - d * z j) by lra.
      assert (H3 : z j <= 0).
      { destruct (Rle_lt_dec (z j) 0) as [|C]; [assumption|]. assert (0 < z j * z j) by (apply Rmult_lt_0_compat; lra). assert (0 <= d * z j) by (apply Rmult_le_pos; lra). lra. }
      assert (H4 : - d <= z j).
      { destruct (Rle_lt_or_eq_dec _ _ H3) as [C|C]; [|lra]. apply Rmult_le_reg_r with (- z j); lra. }
      lra.
  Qed.
End Raise.

(** ** Two objects that differ in the values of the views only *)
Definition other_views (o o' : bl) : Prop :=
  bl_n o' = bl_n o /\ bl_sigma o' = bl_sigma o /\ bl_P o' = bl_P o /\ bl_pi o' = bl_pi o /\ bl_omega o' = bl_omega o /\ bl_tau o' = bl_tau o /\
  length (bl_Q o') = length (bl_Q o).
Lemma other_regular : forall n k o o', other_views o o' -> regular n k o -> wf n k o' -> regular n k o'.
Proof.
  intros n k o o' (E1 & E2 & E3 & E4 & E5 & E6 & E7) [W R1 R2 R3 R4] W'. constructor; [exact W'| | | |]; rewrite ?E2, ?E5; assumption.
Qed.
Lemma other_sys : forall o o', other_views o o' -> oS o' = oS o /\ oA o' = oA o /\ oT o' = oT o.
Proof.
  intros o o' (E1 & E2 & E3 & E4 & E5 & E6 & E7). assert (ES : oS o' = oS o) by (unfold oS; rewrite E2, E6; reflexivity).
  split; [exact ES|]. unfold oA, oT. rewrite ES, E1, E3, E5. auto.
Qed.

Section Two.
  Variables (la : linalg) (n k : nat).
  Hypothesis Hla : exact_linalg la.
  (** *** part of the way from one list of views to another is part of the way between the answers *)
  Lemma affine_core : forall o1 o2 o3 t, regular n k o1 -> regular n k o2 -> regular n k o3 -> caches_ok la o1 -> caches_ok la o2 -> caches_ok la o3 ->
    other_views o1 o2 -> other_views o1 o3 -> (forall a, (a < k)%nat -> vec (bl_Q o3) a = (1 - t) * vec (bl_Q o1) a + t * vec (bl_Q o2) a) ->
    forall i, (i < n)%nat -> vec (snd (bl_returns la o3)) i = (1 - t) * vec (snd (bl_returns la o1)) i + t * vec (snd (bl_returns la o2)) i.
  Proof.
    intros o1 o2 o3 t R1 R2 R3 C1 C2 C3 O2 O3 HQ i Hi.
    destruct (returns_char la n k o1 Hla R1 C1) as (s1 & N1 & _ & _ & V1). destruct (returns_char la n k o2 Hla R2 C2) as (s2 & N2 & _ & _ & V2).
    destruct (returns_char la n k o3 Hla R3 C3) as (s3 & N3 & _ & _ & V3).
    destruct (other_sys _ _ O2) as (_ & A2 & T2). destruct (other_sys _ _ O3) as (_ & A3 & T3). rewrite A2 in N2. rewrite A3 in N3. rewrite T2 in V2. rewrite T3 in V3.
    rewrite V1, V2, V3 by exact Hi.
    destruct O2 as (E1 & _ & E3 & E4 & _). destruct O3 as (F1 & _ & F3 & F4 & _). rewrite E4, F4.
    set (x := fun a => s3 a - ((1 - t) * s1 a + t * s2 a)).
    assert (Ex : forall c, app k (oA o1) x c = app k (oA o1) s3 c - ((1 - t) * app k (oA o1) s1 c + t * app k (oA o1) s2 c)).
    { intros c. unfold x. rewrite app_minus, app_plus, !app_scal. reflexivity. }
    assert (HN : forall a, (a < k)%nat -> app k (oA o1) (app k (oA o1) x) a = 0).
    { intros a Ha.
      rewrite (app_ext k _ (app k (oA o1) x) (fun c => (app k (oA o1) s3 c - ob o3 c) - ((1 - t) * (app k (oA o1) s1 c - ob o1 c) + t * (app k (oA o1) s2 c - ob o2 c)))).
      - rewrite app_minus, app_plus, !app_scal. rewrite N1, N2, N3 by exact Ha. ring.
      - intros c Hc. rewrite Ex. assert (Eb : ob o3 c = (1 - t) * ob o1 c + t * ob o2 c).
        { unfold ob. rewrite HQ by exact Hc. rewrite E1, E3, E4, F1, F3, F4. ring. }
        rewrite Eb. ring. }
    assert (HT : app k (oT o1) x i = 0).
    { rewrite (oT_core n k o1 R1). apply (A_null n k (oS o1) (entry (bl_P o1)) (entry (bl_omega o1)) (oS_sym n k o1 R1) (oS_psd n k o1 R1) (oOm_psd n k o1 R1)); [|exact Hi].
      intros a Ha. apply (null_twice n k (oS o1) (entry (bl_P o1)) (entry (bl_omega o1)) (oS_sym n k o1 R1) (oOm_sym n k o1 R1)); [|exact Ha].
      rewrite <- (oA_core n k o1 R1). exact HN. }
    unfold x in HT. rewrite app_minus, app_plus, !app_scal in HT. lra.
  Qed.
  (** *** one view raised *)
  Lemma raise_objects : forall o o' j d, regular n k o -> regular n k o' -> caches_ok la o -> caches_ok la o' -> other_views o o' ->
    uncorrelated k (bl_omega o) -> raised_view j d (bl_Q o) (bl_Q o') -> 0 <= d ->
    let p := nth j (bl_P o) [] in 0 <= inner p (snd (bl_returns la o')) - inner p (snd (bl_returns la o)) <= d.
  Proof.
    intros o o' j d R R' C C' HO HU (Hj & _ & Hjd & Hne) Hd p.
    pose proof (rg_wf n k o R) as W. rewrite (wf_Q n k o W) in Hj.
    destruct (returns_char la n k o Hla R C) as (s & N & _ & L & V). destruct (returns_char la n k o' Hla R' C') as (s' & N' & _ & L' & V').
    destruct (other_sys _ _ HO) as (_ & EA & ET). rewrite EA in N'. rewrite ET in V'.
    destruct HO as (E1 & _ & E3 & E4 & _).
    set (r := fun a => s' a - s a).
    assert (HR : forall a, (a < k)%nat -> app k (oA o) (fun c => app k (oA o) r c - d * delta j c) a = 0).
    { intros a Ha.
      rewrite (app_ext k _ _ (fun c => (app k (oA o) s' c - ob o' c) - (app k (oA o) s c - ob o c))).
      - rewrite app_minus. rewrite N, N' by exact Ha. ring.
      - intros c Hc. unfold r. rewrite app_minus. assert (Eb : ob o' c = ob o c + d * delta j c).
        { unfold ob. rewrite E1, E3, E4. unfold vec at 1 3. unfold delta. destruct (Nat.eqb_spec j c) as [<-|Hn]; [rewrite Hjd; ring|]. rewrite Hne by lia. ring. }
        rewrite Eb. ring. }
    rewrite (oA_core n k o R) in HR.
    pose proof (raise_core n k (oS o) (entry (bl_P o)) (entry (bl_omega o)) (oS_sym n k o R) (oS_psd n k o R) (oOm_sym n k o R) (oOm_psd n k o R) r j d Hj
      (fun i Hi Hij => HU j i Hj Hi (fun e => Hij (eq_sym e))) Hd HR) as G.
    assert (Hp : length p = n) by (apply (shaped_row k n); [apply (wf_P n k o W)|exact Hj]).
    rewrite (inner_vec n p _ Hp L), (inner_vec n p _ Hp L'). rewrite <- sumn_minus.
    rewrite (sumn_ext n _ (fun i => entry (bl_P o) j i * app k (oT o) r i)); [rewrite (oT_core n k o R); exact G|].
    intros i Hi. rewrite V, V' by exact Hi. rewrite E4. unfold r. rewrite app_minus. unfold entry, vec, p. ring.
  Qed.
End Two.
