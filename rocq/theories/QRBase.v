(** * The rational instance computes the same numbers as the real instance *)
From Coq Require Import ZArith QArith Qround Qreduction Qreals Reals Lra Lia Bool List.
From Verif Require Import Num Py RBase PyLemmas.
Import ListNotations.
Local Open Scope R_scope.

Local Notation qadd := (@nadd Q QNum).
Local Notation qsub := (@nsub Q QNum).
Local Notation qmul := (@nmul Q QNum).
Local Notation qdiv := (@ndiv Q QNum).

Lemma Q2R_Qred : forall x, Q2R (Qred x) = Q2R x.
Proof. intros x. apply Qeq_eqR. apply Qred_correct. Qed.

Lemma QR_add : forall x y, Q2R (qadd x y) = Q2R x + Q2R y.
Proof. intros; cbn [nadd nsub nmul nopp QNum]. rewrite Q2R_Qred. apply Q2R_plus. Qed.
Lemma QR_sub : forall x y, Q2R (qsub x y) = Q2R x - Q2R y.
Proof. intros; cbn [nadd nsub nmul nopp QNum]. rewrite Q2R_Qred. apply Q2R_minus. Qed.
Lemma QR_mul : forall x y, Q2R (qmul x y) = Q2R x * Q2R y.
Proof. intros; cbn [nadd nsub nmul nopp QNum]. rewrite Q2R_Qred. apply Q2R_mult. Qed.
Lemma QR_opp : forall x, Q2R (@nopp Q QNum x) = - Q2R x.
Proof. intros; cbn [nadd nsub nmul nopp QNum]. rewrite Q2R_Qred. apply Q2R_opp. Qed.
Lemma QR_div : forall x y, Q2R y <> 0 -> Q2R (qdiv x y) = Q2R x / Q2R y.
Proof.
  intros x y H; cbn [ndiv QNum]. rewrite Q2R_Qred. apply Q2R_div. intros E. apply H.
  rewrite <- RMicromega.Q2R_0. apply Qeq_eqR. exact E.
Qed.
Lemma QR_ofZ : forall z, Q2R (@nofZ Q QNum z) = IZR z.
Proof. intros z; simpl. unfold Q2R, inject_Z; simpl. lra. Qed.
Lemma QR_0 : Q2R (@n0 Q QNum) = 0.
Proof. apply RMicromega.Q2R_0. Qed.
Lemma QR_1 : Q2R (@n1 Q QNum) = 1.
Proof. apply RMicromega.Q2R_1. Qed.

Lemma QR_ltb : forall x y, Rltb (Q2R x) (Q2R y) = @nltb Q QNum x y.
Proof.
  intros x y; cbn [nltb nleb neqb QNum]. unfold Qltb. destruct (Qcompare_spec x y) as [E|E|E].
  - apply Rltb_false. apply Qeq_eqR in E. lra.
  - apply Rltb_true. apply Qlt_Rlt. exact E.
  - apply Rltb_false. apply Qlt_Rlt in E. lra.
Qed.
Lemma QR_leb : forall x y, Rleb (Q2R x) (Q2R y) = @nleb Q QNum x y.
Proof.
  intros x y; cbn [nltb nleb neqb QNum]. unfold Qleb. destruct (Qcompare_spec x y) as [E|E|E].
  - apply Rleb_true. apply Qeq_eqR in E. lra.
  - apply Rleb_true. apply Qlt_Rlt in E. lra.
  - apply Rleb_false. apply Qlt_Rlt in E. lra.
Qed.
Lemma QR_eqb : forall x y, Reqb (Q2R x) (Q2R y) = @neqb Q QNum x y.
Proof.
  intros x y; cbn [nltb nleb neqb QNum]. unfold Qeqb. destruct (Qcompare_spec x y) as [E|E|E].
  - apply Reqb_true. apply Qeq_eqR in E. lra.
  - apply Reqb_false. apply Qlt_Rlt in E. lra.
  - apply Reqb_false. apply Qlt_Rlt in E. lra.
Qed.

Lemma Q2R_floor : forall x, Int_part (Q2R x) = Qfloor x.
Proof.
  intros x. apply Int_part_unique.
  rewrite <- (QR_ofZ (Qfloor x)). cbn [nofZ QNum]. split.
  - apply Qle_Rle. apply Qfloor_le.
  - rewrite <- RMicromega.Q2R_1, <- Q2R_plus. apply Qlt_Rlt.
    eapply Qlt_le_trans; [apply Qlt_floor|]. rewrite inject_Z_plus. apply Qle_refl.
Qed.

Lemma QR_trunc : forall x, Rtrunc (Q2R x) = @ntrunc Q QNum x.
Proof.
  intros [n d]. simpl. unfold Rtrunc, Qtrunc. simpl.
  destruct (Rle_dec 0 (Q2R (n # d))) as [H|H].
  - rewrite Q2R_floor. simpl.
    assert (0 <= n)%Z.
    { rewrite <- RMicromega.Q2R_0 in H. apply Rle_Qle in H. unfold Qle in H. simpl in H. lia. }
    rewrite Z.quot_div_nonneg by lia. reflexivity.
  - rewrite <- Q2R_opp, Q2R_floor. simpl.
    assert (n < 0)%Z.
    { apply Rnot_le_lt in H. rewrite <- RMicromega.Q2R_0 in H. apply Rlt_Qlt in H.
      unfold Qlt in H. simpl in H. lia. }
    replace n with (- - n)%Z at 2 by lia. rewrite Z.quot_opp_l by lia.
    rewrite Z.quot_div_nonneg by lia. reflexivity.
Qed.

Lemma QR_rint : forall x, Rrint (Q2R x) = @nrint Q QNum x.
Proof.
  intros x. cbn [nrint QNum]. unfold Rrint, Qrint. rewrite Q2R_floor.
  assert (Hd : Q2R x - IZR (Qfloor x) = Q2R (Qred (x - inject_Z (Qfloor x)))).
  { rewrite Q2R_Qred, Q2R_minus. rewrite <- (QR_ofZ (Qfloor x)). reflexivity. }
  rewrite Hd. set (d := Qred (x - inject_Z (Qfloor x))).
  assert (H12 : 1 / 2 = Q2R (1 # 2)) by (unfold Q2R; simpl; lra). rewrite H12.
  destruct (Qcompare_spec d (1 # 2)) as [E|E|E].
  - apply Qeq_eqR in E. rewrite E.
    destruct (Rlt_dec (Q2R (1#2)) (Q2R (1#2))); [lra|]. reflexivity.
  - apply Qlt_Rlt in E. destruct (Rlt_dec (Q2R d) (Q2R (1 # 2))); [reflexivity|lra].
  - apply Qlt_Rlt in E. destruct (Rlt_dec (Q2R d) (Q2R (1 # 2))); [lra|].
    destruct (Rlt_dec (Q2R (1 # 2)) (Q2R d)); [reflexivity|lra].
Qed.

(** ** Containers *)
Definition qdict (d : dict Q) : dict R := map (fun kv => (fst kv, Q2R (snd kv))) d.
Definition qmap {X Y} (f : X -> Y) (r : res X) : res Y :=
  match r with Ok x => Ok (f x) | Err e => Err e end.

Lemma dget_qdict : forall k d, dget k (qdict d) = option_map Q2R (dget k d).
Proof. intros; unfold qdict. induction d as [|[k' v] d IH]; simpl; [reflexivity|]. destruct (label_eqb k k'); auto. Qed.
Lemma dgetE_qdict : forall k d, dgetE k (qdict d) = qmap Q2R (dgetE k d).
Proof. intros; unfold dgetE. rewrite dget_qdict. destruct (dget k d); reflexivity. Qed.
Lemma qdict_keys : forall d, map fst (qdict d) = map fst d.
Proof. intros; unfold qdict. rewrite map_map. reflexivity. Qed.

Lemma vsum_Q2R : forall l, vsum (map Q2R l) = Q2R (@vsum Q QNum l).
Proof.
  intros l. Transparent vsum. unfold vsum. Opaque vsum. change (@n0 R RNum) with 0.
  rewrite <- QR_0. generalize (@n0 Q QNum) as a.
  induction l as [|x l IH]; intros a; [reflexivity|]. cbn [map fold_left].
  change (@nadd R RNum (Q2R a) (Q2R x)) with (Q2R a + Q2R x).
  rewrite <- QR_add. apply IH.
Qed.

Lemma list_set_map : forall {X Y} (f : X -> Y) i v l, list_set i (f v) (map f l) = map f (list_set i v l).
Proof. intros X Y f i v l; revert i. induction l as [|x l IH]; intros [|i]; simpl; congruence. Qed.

Lemma isort_map : forall {X Y} (f : X -> Y) bx by_ l,
  (forall a b, by_ (f a) (f b) = bx a b) -> isort by_ (map f l) = map f (isort bx l).
Proof.
  intros X Y f bx by_ l H.
  assert (Hi : forall x l, insert by_ (f x) (map f l) = map f (insert bx x l)).
  { intros x m. induction m as [|y m IH]; simpl; [reflexivity|]. rewrite H. destruct (bx x y); simpl; congruence. }
  induction l as [|x l IH]; simpl; [reflexivity|]. rewrite IH. apply Hi.
Qed.
