(** * Views reordered and rescaled (C122) *)
From Coq Require Import List Reals Lra Lia Arith Bool Permutation.
From Verif Require Import Num Py RBase PyLemmas MBase SLin SBL Sums Mat MRisk MBL PCov1 PCov2 PHRP2 PBL1 PBL2 PBL3 PBL4 PBL5 PBL6 PBL8 PBL9 SViews PViews1 PViews2.
Import ListNotations.
Local Open Scope R_scope.

(** ** Matrices with one entry in each row and column *)
Definition mono (c : nat -> R) (s : nat -> nat) (a b : nat) : R := (if Nat.eqb b (s a) then 1 else 0) * c a.
Lemma mono_app : forall k c s x a, (s a < k)%nat -> app k (mono c s) x a = c a * x (s a).
Proof.
  intros k c s x a H. unfold app, mono. rewrite (sumn_ext k _ (fun b => (if Nat.eqb b (s a) then 1 else 0) * (c a * x b))) by (intros; ring).
  apply (sumn_delta k (s a) (fun b => c a * x b)). exact H.
Qed.
Lemma mono_inj : forall k k' c s, (forall a, (a < k')%nat -> (s a < k)%nat /\ c a <> 0) -> (forall b, (b < k)%nat -> exists a, (a < k')%nat /\ s a = b) ->
  forall x, (forall a, (a < k')%nat -> app k (mono c s) x a = 0) -> forall b, (b < k)%nat -> x b = 0.
Proof.
  intros k k' c s H1 H2 x Hx b Hb. destruct (H2 b Hb) as (a & Ha & <-). specialize (Hx a Ha). destruct (H1 a Ha) as [Hs Hc].
  rewrite mono_app in Hx by exact Hs. destruct (Rmult_integral _ _ Hx); [contradiction|assumption].
Qed.
Lemma mono_P : forall k c s (P : nat -> nat -> R) a j, (s a < k)%nat -> sumn k (fun b => mono c s a b * P b j) = c a * P (s a) j.
Proof. intros k c s P a j H. exact (mono_app k c s (fun b => P b j) a H). Qed.
Lemma mono_O : forall k c s (Om : nat -> nat -> R) a e, (s a < k)%nat -> (s e < k)%nat ->
  sumn k (fun i => mono c s a i * sumn k (fun j => Om i j * mono c s e j)) = c a * c e * Om (s a) (s e).
Proof.
  intros k c s Om a e Ha He. etransitivity; [exact (mono_app k c s (fun i => sumn k (fun j => Om i j * mono c s e j)) a Ha)|]. cbv beta.
  rewrite (sumn_ext k _ (fun j => mono c s e j * Om (s a) j)) by (intros; ring).
  pose proof (mono_app k c s (fun j => Om (s a) j) e He) as E. unfold app in E. rewrite E. ring.
Qed.
(** permutations *)
Lemma perm_places : forall k s, Permutation s (seq 0 k) -> length s = k /\ (forall a, (a < k)%nat -> (nth a s O < k)%nat) /\
  (forall b, (b < k)%nat -> exists a, (a < k)%nat /\ nth a s O = b).
Proof.
  intros k s H. assert (L : length s = k) by (rewrite (Permutation_length H); apply seq_length). split; [exact L|]. split.
  - intros a Ha. assert (In (nth a s O) (seq 0 k)) by (apply (Permutation_in _ H), nth_In; lia). apply in_seq in H0. lia.
  - intros b Hb. assert (In b s) by (apply (Permutation_in _ (Permutation_sym H)), in_seq; lia). apply (In_nth _ _ O) in H0. destruct H0 as (a & Ha & E). exists a. rewrite <- L. auto.
Qed.
Lemma perm_sum : forall k s f, Permutation s (seq 0 k) -> sumn k (fun a => f (nth a s O)) = sumn k f.
Proof.
  intros k s f H. destruct (perm_places k s H) as (L & _).
  assert (G : forall l, total (map f l) = sumn (length l) (fun a => f (nth a l O))).
  { induction l as [|x l IH]; [reflexivity|]. cbn [map total length]. rewrite sumn_split_first, IH. reflexivity. }
  rewrite <- L at 1. rewrite <- G.
  assert (E : total (map f s) = total (map f (seq 0 k))).
  { assert (HP : Permutation (map f s) (map f (seq 0 k))) by (apply Permutation_map, H). clear - HP. induction HP; cbn; try lra. }
  rewrite E, G, seq_length. apply sumn_ext. intros i Hi. rewrite seq_nth by exact Hi. reflexivity.
Qed.

(** ** Idzorek's matrix *)
Lemma idzorek_conv : forall n k sigma P tau l, (k <= length l)%nat -> (forall a, (a < k)%nat -> 0 <= nth a l 0 <= 1) ->
  idzorek_method n k sigma P tau l = Ok (diag_matrix k (fun a => if Reqb (nth a l 0) 0 then 10 ^ 6 else tau * idz (nth a l 0) * view_variance n sigma P a a)).
Proof.
  intros n k sigma P tau l HL HR. unfold idzorek_method.
  set (f := fun a => if Reqb (nth a l 0) 0 then 10 ^ 6 else tau * idz (nth a l 0) * view_variance n sigma P a a).
  assert (G : forall q, (forall a, In a q -> (a < k)%nat) -> mapM (idzorek_entry n sigma P tau l) q = Ok (map f q)).
  { induction q as [|a q IH]; intros Hq; [reflexivity|]. cbn [mapM map]. assert (Ha : (a < k)%nat) by (apply Hq; left; reflexivity).
    assert (E : idzorek_entry n sigma P tau l a = Ok (f a)).
    { unfold idzorek_entry, f. rewrite (nth_error_nth' l 0) by lia. specialize (HR a Ha). rewrite (proj2 (Rltb_false (nth a l 0) 0)) by lra.
      rewrite (proj2 (Rltb_false 1 (nth a l 0))) by lra. cbn [orb]. destruct (Reqb (nth a l 0) 0); reflexivity. }
    rewrite E. cbn [rbind]. rewrite IH by (intros; apply Hq; right; assumption). reflexivity. }
  rewrite G by (intros a Ha; apply in_seq in Ha; lia). cbn [rbind]. f_equal. unfold diag_matrix, array. apply map_ext_in. intros a Ha. apply map_ext_in. intros b Hb.
  destruct (Nat.eqb a b); [|reflexivity]. apply in_seq in Ha. change (nth a (map f (seq 0 k)) 0) with (vec (map f (seq 0 k)) a). rewrite vec_map_seq by lia. reflexivity.
Qed.
Lemma diag_shape : forall k f, has_shape k k (diag_matrix k f) = true.
Proof. intros k f. apply has_shape_true, square_shaped, diag_square. Qed.
Lemma view_variance_mono : forall n sigma P P' c a b, (forall j, (j < n)%nat -> entry P' a j = c * entry P b j) ->
  view_variance n sigma P' a a = c * c * view_variance n sigma P b b.
Proof.
  intros n sigma P P' c a b H. rewrite !view_variance_bil. rewrite (bil_ext n _ _ _ (fun j => c * entry P b j) (fun j => c * entry P b j)) by exact H.
  rewrite bil_scal_l, bil_scal_r. ring.
Qed.
Lemma pick_length : forall (X : Type) (d : X) s l, length (pick d s l) = length s.
Proof. intros. apply map_length. Qed.
Lemma pick_nth : forall (X : Type) (d : X) s l i, (i < length s)%nat -> nth i (pick d s l) d = nth (nth i s O) l d.
Proof.
  intros X d s l i Hi. unfold pick. rewrite (nth_indep _ d (nth O l d)) by (rewrite map_length; exact Hi). apply (map_nth (fun i => nth i l d)).
Qed.
Lemma pick_shaped : forall r n s M, shaped r n M -> (forall i, In i s -> (i < r)%nat) -> shaped (length s) n (pick [] s M).
Proof.
  intros r n s M HM Hs. split; [apply pick_length|]. apply Forall_forall. intros x Hx. unfold pick in Hx. apply in_map_iff in Hx. destruct Hx as (i & <- & Hi).
  apply (shaped_row r n M i HM). apply Hs, Hi.
Qed.

Theorem reordered : forall la a Q P om c o s, exact_linalg la -> bl_init (with_views a Q P om c) = Ok o ->
  psd (bl_n o) (bl_sigma o) -> symmetric (bl_n o) (bl_sigma o) -> psd (length Q) (bl_omega o) -> symmetric (length Q) (bl_omega o) ->
  Permutation s (seq 0 (length Q)) ->
  exists o', bl_init (with_views a (pick 0 s Q) (pick [] s P) (pick_omega s om) (pick_conf s c)) = Ok o' /\ same_covariance la o o' /\ same_returns la o o'.
Proof.
  intros la a Q P om c o s Hla H Hp Hs Hop Hos HP. pose proof (init_views _ _ H) as HV. unfold views_of in HV. cbn in HV. injection HV as EQ EP.
  destruct (perm_places _ s HP) as (Ls & Hin & Hsur). pose proof (init_wf _ _ H) as W. set (n := bl_n o) in *. set (k := length Q) in *.
  assert (Hk : length (bl_Q o) = k) by (rewrite <- EQ; reflexivity). rewrite Hk in W.
  assert (Hin' : forall i, In i s -> (i < k)%nat) by (intros i Hi; apply (Permutation_in _ HP), in_seq in Hi; lia).
  assert (HPs : shaped k n P) by (rewrite EP; apply (wf_P n k o W)).
  assert (LQ : length (pick 0 s Q) = k) by (rewrite pick_length; exact Ls).
  assert (HP' : shaped k n (pick [] s P)) by (rewrite <- Ls at 1; apply (pick_shaped k); assumption).
  assert (EP' : forall x j, (x < k)%nat -> entry (pick [] s P) x j = entry P (nth x s O) j) by (intros x j Hx; unfold entry; rewrite pick_nth by lia; reflexivity).
  assert (HVV : forall x, (x < k)%nat -> view_variance n (bl_sigma o) (pick [] s P) x x = view_variance n (bl_sigma o) P (nth x s O) (nth x s O)).
  { intros x Hx. rewrite (view_variance_mono n _ P _ 1 x (nth x s O)); [ring|]. intros j _. rewrite EP' by exact Hx. ring. }
  assert (HOm : exists Om', set_omega n (bl_sigma o) (pick 0 s Q) (pick [] s P) (bl_tau o) (pick_omega s om) (pick_conf s c) = Ok Om' /\ shaped k k Om' /\
    forall x y, (x < k)%nat -> (y < k)%nat -> entry Om' x y = entry (bl_omega o) (nth x s O) (nth y s O)).
  { destruct (bl_init_inv _ _ H) as (E1 & E2 & _ & E4 & _ & _ & _ & _ & _ & _ & HO & _). pose proof (omega_inv _ _ H) as HI. cbn [with_views a_omega a_conf] in HO, HI.
    rewrite <- EQ in HI. fold k n in HI.
    assert (HD : forall f g, (forall x, (x < k)%nat -> f x = g (nth x s O)) -> forall x y, (x < k)%nat -> (y < k)%nat ->
       entry (diag_matrix k f) x y = entry (diag_matrix k g) (nth x s O) (nth y s O)).
    { intros f g Hfg x y Hx Hy. rewrite !diag_entry by auto. rewrite <- Hfg by exact Hx. destruct (Nat.eqb_spec x y) as [->|N]; [rewrite Nat.eqb_refl; reflexivity|].
      destruct (Nat.eqb_spec (nth x s O) (nth y s O)) as [E|_]; [|reflexivity]. exfalso. apply N.
      apply (NoDup_nth s O); try lia. apply (Permutation_NoDup (Permutation_sym HP)), seq_NoDup. }
    destruct om as [|m| |]; cbn [pick_omega] in *.
    - exists (default_omega n k (bl_sigma o) (pick [] s P) (bl_tau o)). unfold set_omega. cbv zeta. rewrite LQ. cbn [rbind]. unfold default_omega at 1. rewrite diag_shape.
      split; [reflexivity|]. split; [apply square_shaped, diag_square|]. rewrite HI, <- EP. unfold default_omega. apply HD. intros x Hx. rewrite HVV by exact Hx. reflexivity.
    - assert (Em : bl_omega o = m). { unfold set_omega in HO. cbv zeta in HO. cbn [rbind] in HO. destruct (has_shape _ _ m); [|discriminate]. injection HO as HO. symmetry; exact HO. }
      assert (Hm : shaped k k m) by (rewrite <- Em; apply (wf_omega n k o W)).
      assert (Hm' : shaped k k (map (pick 0 s) (pick [] s m))).
      { split; [rewrite map_length, pick_length; exact Ls|]. apply Forall_forall. intros r Hr. apply in_map_iff in Hr. destruct Hr as (r0 & <- & _). rewrite pick_length. exact Ls. }
      exists (map (pick 0 s) (pick [] s m)). unfold set_omega. cbv zeta. rewrite LQ. cbn [rbind]. rewrite (proj2 (has_shape_true _ _ _) Hm'). split; [reflexivity|]. split; [exact Hm'|].
      intros x y Hx Hy. rewrite Em. unfold entry. rewrite (nth_indep _ [] (pick 0 s [])) by (rewrite map_length, pick_length; lia). rewrite (map_nth (pick 0 s)).
      rewrite pick_nth by lia. rewrite pick_nth by lia. reflexivity.
    - destruct (idzorek_inv _ _ _ _ _ _ _ HI) as (HL & HR & EO). set (l := conf_list c) in *.
      assert (EL : conf_list (pick_conf s c) = pick 0 s l \/ c = ConfNone) by (destruct c; cbn; auto).
      destruct EL as [EL|EL].
      2: { subst c. unfold set_omega in HO. cbn [rbind] in HO. discriminate. }
      set (Om' := diag_matrix k (fun x => if Reqb (nth x (pick 0 s l) 0) 0 then 10 ^ 6 else bl_tau o * idz (nth x (pick 0 s l) 0) * view_variance n (bl_sigma o) (pick [] s P) x x)).
      assert (EI : idzorek_method n k (bl_sigma o) (pick [] s P) (bl_tau o) (pick 0 s l) = Ok Om').
      { apply idzorek_conv; [rewrite pick_length; lia|]. intros x Hx. rewrite pick_nth by lia. apply HR, Hin, Hx. }
      exists Om'. split; [|split; [apply square_shaped, diag_square|]].
      + unfold set_omega. cbv zeta. rewrite LQ.
        assert (EC : match pick_conf s c with ConfNone => Err ValueError | ConfList q => if Nat.eqb (length q) k then Ok q else Err ValueError | ConfArr q => Ok q end = Ok (pick 0 s l)).
        { destruct c as [|q|q]; [discriminate HO| |reflexivity]. cbn [pick_conf conf_list] in *. rewrite pick_length, Ls, Nat.eqb_refl. reflexivity. }
        rewrite EC. cbn [rbind]. rewrite EI. cbn [rbind]. unfold Om'. rewrite diag_shape. reflexivity.
      + rewrite EO. apply HD. intros x Hx. rewrite pick_nth by lia. rewrite HVV by exact Hx. rewrite <- EP. reflexivity.
    - unfold set_omega in HO. cbn [rbind] in HO. discriminate. }
  destruct HOm as (Om' & HO1 & HO2 & HO3). set (D := mono (fun _ => 1) (fun x => nth x s O)).
  assert (FQ : forall x, (x < k)%nat -> vec (pick 0 s Q) x = app k D (vec (bl_Q o)) x).
  { intros x Hx. unfold D. rewrite mono_app by auto. unfold vec. rewrite pick_nth by lia. rewrite EQ. ring. }
  assert (FP : forall x j, (x < k)%nat -> (j < n)%nat -> entry (pick [] s P) x j = sumn k (fun b => D x b * entry (bl_P o) b j)).
  { intros x j Hx Hj. unfold D. rewrite (mono_P k _ _ (entry (bl_P o))) by auto. rewrite EP', EP by exact Hx. ring. }
  assert (FO : forall x y, (x < k)%nat -> (y < k)%nat -> entry Om' x y = sumn k (fun i => D x i * sumn k (fun j => entry (bl_omega o) i j * D y j))).
  { intros x y Hx Hy. unfold D. rewrite mono_O by auto. rewrite HO3 by assumption. ring. }
  assert (FI : forall x, (forall i, (i < k)%nat -> app k D x i = 0) -> forall b, (b < k)%nat -> x b = 0).
  { apply mono_inj; [|exact Hsur]. intros x Hx. split; [auto|lra]. }
  eexists. split; [|split].
  - apply (init_change _ o _ (pick 0 s Q) (pick [] s P) Om' H); [reflexivity|reflexivity|rewrite LQ; exact HP'|exact HO1].
  - apply (pair_cov la _ o _ _ _ D Hla H); rewrite ?Hk, ?LQ; assumption.
  - apply (pair_returns_normal la _ o _ _ _ D Hla H); rewrite ?Hk, ?LQ; try assumption.
    intros u b Hb. unfold back. rewrite (sumn_ext k _ (fun x => (fun i => (if Nat.eqb i b then 1 else 0) * u i) (nth x s O))).
    + rewrite (perm_sum k s (fun i => (if Nat.eqb i b then 1 else 0) * u i) HP). apply sumn_delta, Hb.
    + intros x Hx. unfold D. rewrite mono_app by auto. unfold mono. rewrite (Nat.eqb_sym b). ring.
Qed.
