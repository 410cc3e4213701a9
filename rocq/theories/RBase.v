(** * Basic lemmas for the real instance of the model *)
From Coq Require Import ZArith List Bool Reals Lra Lia Permutation.
From Verif Require Import Num Py.
Import ListNotations.
Local Open Scope R_scope.

Ltac runfold :=
  cbn [n0 n1 nadd nsub nmul ndiv nopp nltb nleb neqb nofZ ntrunc nrint RNum] in *.

Lemma Rltb_true : forall x y, Rltb x y = true <-> x < y.
Proof. intros x y; unfold Rltb; destruct (Rlt_dec x y); split; intros; try congruence; lra. Qed.
Lemma Rltb_false : forall x y, Rltb x y = false <-> y <= x.
Proof. intros x y; unfold Rltb; destruct (Rlt_dec x y); split; intros; try congruence; lra. Qed.
Lemma Rleb_true : forall x y, Rleb x y = true <-> x <= y.
Proof. intros x y; unfold Rleb; destruct (Rle_dec x y); split; intros; try congruence; lra. Qed.
Lemma Rleb_false : forall x y, Rleb x y = false <-> y < x.
Proof. intros x y; unfold Rleb; destruct (Rle_dec x y); split; intros; try congruence; lra. Qed.
Lemma Reqb_true : forall x y, Reqb x y = true <-> x = y.
Proof. intros x y; unfold Reqb; destruct (Req_EM_T x y); split; intros; congruence. Qed.
Lemma Reqb_false : forall x y, Reqb x y = false <-> x <> y.
Proof. intros x y; unfold Reqb; destruct (Req_EM_T x y); split; intros; congruence. Qed.

(** turn boolean comparisons in hypotheses and goal into propositions *)
Ltac rprop :=
  repeat match goal with
  | H : Rltb _ _ = true |- _ => apply Rltb_true in H
  | H : Rltb _ _ = false |- _ => apply Rltb_false in H
  | H : Rleb _ _ = true |- _ => apply Rleb_true in H
  | H : Rleb _ _ = false |- _ => apply Rleb_false in H
  | H : Reqb _ _ = true |- _ => apply Reqb_true in H
  | H : Reqb _ _ = false |- _ => apply Reqb_false in H
  | |- Rltb _ _ = true => apply Rltb_true
  | |- Rltb _ _ = false => apply Rltb_false
  | |- Rleb _ _ = true => apply Rleb_true
  | |- Rleb _ _ = false => apply Rleb_false
  | |- Reqb _ _ = true => apply Reqb_true
  | |- Reqb _ _ = false => apply Reqb_false
  end.

(** case analysis on the first comparison found *)
Ltac rcase :=
  match goal with
  | |- context [Rltb ?x ?y] => let E := fresh "E" in destruct (Rltb x y) eqn:E
  | |- context [Rleb ?x ?y] => let E := fresh "E" in destruct (Rleb x y) eqn:E
  | |- context [Reqb ?x ?y] => let E := fresh "E" in destruct (Reqb x y) eqn:E
  end; rprop.
Ltac rcase_in H :=
  match type of H with
  | context [Rltb ?x ?y] => let E := fresh "E" in destruct (Rltb x y) eqn:E
  | context [Rleb ?x ?y] => let E := fresh "E" in destruct (Rleb x y) eqn:E
  | context [Reqb ?x ?y] => let E := fresh "E" in destruct (Reqb x y) eqn:E
  end; rprop.

(** ** Sums *)
Lemma fold_left_Rplus_acc : forall l a, fold_left Rplus l a = a + fold_left Rplus l 0.
Proof.
  induction l as [|x l IH]; intros a; simpl; [lra|].
  rewrite (IH (a + x)), (IH (0 + x)); lra.
Qed.

Lemma vsum_nil : vsum (A:=R) [] = 0.
Proof. reflexivity. Qed.
Lemma vsum_cons : forall x l, vsum (A:=R) (x :: l) = x + vsum l.
Proof.
  intros x l. unfold vsum. runfold. simpl.
  change (fun a b : R => a + b) with Rplus.
  rewrite fold_left_Rplus_acc. lra.
Qed.
Lemma vsum_app : forall l m, vsum (A:=R) (l ++ m) = vsum l + vsum m.
Proof.
  induction l as [|x l IH]; intros m; [rewrite vsum_nil; simpl; lra|].
  rewrite <- app_comm_cons, !vsum_cons, IH; lra.
Qed.
#[global] Opaque vsum.

Lemma vsum_perm : forall l m, Permutation l m -> vsum (A:=R) l = vsum m.
Proof.
  induction 1; rewrite ?vsum_cons in *; try lra.
Qed.

Lemma vsum_nonneg : forall l, Forall (fun x => 0 <= x) l -> 0 <= vsum (A:=R) l.
Proof.
  induction 1; rewrite ?vsum_nil, ?vsum_cons; lra.
Qed.

Lemma vsum_pos : forall l, l <> [] -> Forall (fun x => 0 < x) l -> 0 < vsum (A:=R) l.
Proof.
  intros l Hne H. destruct l as [|x l]; [congruence|].
  inversion H; subst. rewrite vsum_cons.
  assert (0 <= vsum l) by (apply vsum_nonneg; eapply Forall_impl; [|eassumption]; simpl; intros; lra).
  lra.
Qed.

Lemma vsum_map_scale : forall {X} (f : X -> R) c l,
  vsum (map (fun x => f x * c) l) = vsum (map f l) * c.
Proof.
  induction l as [|x l IH]; simpl; rewrite ?vsum_nil, ?vsum_cons; [lra|].
  rewrite IH; lra.
Qed.

Lemma vsum_map_plus : forall {X} (f g : X -> R) l,
  vsum (map (fun x => f x + g x) l) = vsum (map f l) + vsum (map g l).
Proof.
  induction l as [|x l IH]; simpl; rewrite ?vsum_nil, ?vsum_cons; lra.
Qed.

Lemma vsum_map_le : forall {X} (f g : X -> R) l,
  (forall x, In x l -> f x <= g x) -> vsum (map f l) <= vsum (map g l).
Proof.
  induction l as [|x l IH]; simpl; intros H; rewrite ?vsum_nil, ?vsum_cons; [lra|].
  assert (f x <= g x) by (apply H; auto).
  assert (vsum (map f l) <= vsum (map g l)) by (apply IH; auto). lra.
Qed.

Lemma vsum_const0 : forall {X} (l : list X), vsum (map (fun _ => 0) l) = 0.
Proof. induction l; simpl; rewrite ?vsum_nil, ?vsum_cons; lra. Qed.

(** ** Truncation and rounding *)
Lemma Int_part_bounds : forall x, IZR (Int_part x) <= x < IZR (Int_part x) + 1.
Proof.
  intros x. destruct (base_Int_part x) as [H1 H2]. lra.
Qed.

Lemma Int_part_unique : forall x z, IZR z <= x < IZR z + 1 -> Int_part x = z.
Proof.
  intros x z [H1 H2]. destruct (Int_part_bounds x) as [H3 H4].
  assert (Hlt1 : IZR (Int_part x) < IZR (z + 1)) by (rewrite plus_IZR; lra).
  assert (Hlt2 : IZR z < IZR (Int_part x + 1)) by (rewrite plus_IZR; lra).
  apply lt_IZR in Hlt1. apply lt_IZR in Hlt2. lia.
Qed.

Lemma Rtrunc_nonneg : forall x, 0 <= x -> (0 <= Rtrunc x)%Z /\ IZR (Rtrunc x) <= x < IZR (Rtrunc x) + 1.
Proof.
  intros x Hx. unfold Rtrunc. destruct (Rle_dec 0 x); [|lra].
  destruct (Int_part_bounds x) as [H1 H2]. split; [|lra].
  assert (IZR (-1) < IZR (Int_part x)) by (simpl; lra).
  apply lt_IZR in H. lia.
Qed.

Lemma Rtrunc_IZR : forall z, Rtrunc (IZR z) = z.
Proof.
  intros z. unfold Rtrunc. destruct (Rle_dec 0 (IZR z)).
  - apply Int_part_unique; lra.
  - rewrite <- opp_IZR. rewrite (Int_part_unique (IZR (- z)) (- z)); [lia|lra].
Qed.

Lemma Rrint_close : forall x, Rabs (x - IZR (Rrint x)) <= 1/2.
Proof.
  intros x. destruct (Int_part_bounds x) as [H1 H2]. unfold Rrint.
  destruct (Rlt_dec (x - IZR (Int_part x)) (1/2)).
  - rewrite Rabs_right; lra.
  - destruct (Rlt_dec (1/2) (x - IZR (Int_part x))).
    + rewrite plus_IZR, Rabs_left1; lra.
    + destruct (Z.even (Int_part x)).
      * rewrite Rabs_right; lra.
      * rewrite plus_IZR, Rabs_left1; lra.
Qed.

Lemma Rrint_IZR : forall z, Rrint (IZR z) = z.
Proof.
  intros z. unfold Rrint.
  rewrite (Int_part_unique (IZR z) z) by lra.
  destruct (Rlt_dec (IZR z - IZR z) (1/2)); [reflexivity|lra].
Qed.

Lemma Rrint_unique : forall x z, Rabs (x - IZR z) < 1/2 -> Rrint x = z.
Proof.
  intros x z H. pose proof (Rrint_close x) as H'.
  assert (Rabs (IZR (Rrint x) - IZR z) < 1).
  { replace (IZR (Rrint x) - IZR z) with ((x - IZR z) - (x - IZR (Rrint x))) by lra.
    eapply Rle_lt_trans; [apply Rabs_triang|]. rewrite Rabs_Ropp. lra. }
  rewrite <- minus_IZR in H0. rewrite <- abs_IZR in H0. apply lt_IZR in H0. lia.
Qed.

Lemma Rrint_mono : forall x y, x <= y -> (Rrint x <= Rrint y)%Z.
Proof.
  intros x y Hxy. destruct (Z_le_gt_dec (Rrint x) (Rrint y)) as [|Hgt]; [assumption|exfalso].
  pose proof (Rrint_close x) as Hx. pose proof (Rrint_close y) as Hy.
  assert (IZR (Rrint y) + 1 <= IZR (Rrint x)).
  { rewrite <- plus_IZR. apply IZR_le. lia. }
  assert (Hx' : - (1/2) <= x - IZR (Rrint x) <= 1/2)
    by (unfold Rabs in Hx; destruct (Rcase_abs (x - IZR (Rrint x))); lra).
  assert (Hy' : - (1/2) <= y - IZR (Rrint y) <= 1/2)
    by (unfold Rabs in Hy; destruct (Rcase_abs (y - IZR (Rrint y))); lra).
  (* x >= rint x - 1/2 >= rint y + 1/2 >= y, so all equal: both are the same half-integer *)
  assert (x = y) by lra. subst. lia.
Qed.

Lemma Rrint_opp : forall x, Rrint (- x) = (- Rrint x)%Z.
Proof.
  intros x. destruct (Int_part_bounds x) as [H1 H2].
  unfold Rrint. set (f := Int_part x) in *.
  destruct (Req_EM_T x (IZR f)) as [E|NE].
  - assert (Int_part (- x) = (- f)%Z) as ->.
    { apply Int_part_unique. rewrite opp_IZR. lra. }
    rewrite opp_IZR.
    destruct (Rlt_dec (- x - - IZR f) (1/2)); [|lra].
    destruct (Rlt_dec (x - IZR f) (1/2)); [reflexivity|lra].
  - assert (Int_part (- x) = (- f - 1)%Z) as ->.
    { apply Int_part_unique. rewrite minus_IZR, opp_IZR. lra. }
    rewrite minus_IZR, opp_IZR.
    destruct (Rlt_dec (- x - (- IZR f - 1)) (1/2)).
    + destruct (Rlt_dec (x - IZR f) (1/2)); [lra|].
      destruct (Rlt_dec (1/2) (x - IZR f)); [lia|lra].
    + destruct (Rlt_dec (1/2) (- x - (- IZR f - 1))).
      * destruct (Rlt_dec (x - IZR f) (1/2)); [lia|lra].
      * destruct (Rlt_dec (x - IZR f) (1/2)); [lra|].
        destruct (Rlt_dec (1/2) (x - IZR f)); [lra|].
        replace (- f - 1)%Z with (- (f + 1))%Z by lia.
        rewrite Z.even_opp, Z.even_add. simpl.
        destruct (Z.even f); simpl; lia.
Qed.
