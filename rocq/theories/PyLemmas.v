(** * Lemmas about dictionaries, sorting and list updates *)
From Coq Require Import ZArith List Bool Lia Permutation Sorted.
From Verif Require Import Num Py.
Import ListNotations.

Lemma label_eqb_refl : forall k, label_eqb k k = true.
Proof. intros k; destruct (label_eqb_spec k k); congruence. Qed.

Lemma label_eqb_neq : forall a b, a <> b -> label_eqb a b = false.
Proof. intros a b H; destruct (label_eqb_spec a b); congruence. Qed.

Section DictLemmas.
  Context {V : Type}.
  Implicit Types (d : dict V) (k : label) (v : V).

  Lemma dget_In : forall d k v, dget k d = Some v -> In (k, v) d.
  Proof.
    induction d as [|[k' v'] d IH]; simpl; intros k v H; [discriminate|].
    destruct (label_eqb_spec k k'); [left; congruence|right; auto].
  Qed.

  Lemma In_dget : forall d k v, NoDup (map fst d) -> In (k, v) d -> dget k d = Some v.
  Proof.
    induction d as [|[k' v'] d IH]; simpl; intros k v Hnd Hin; [tauto|].
    inversion Hnd; subst. destruct Hin as [E|Hin].
    - inversion E; subst. rewrite label_eqb_refl. reflexivity.
    - rewrite label_eqb_neq; [auto|]. intros ->. apply H1.
      apply (in_map fst) in Hin. exact Hin.
  Qed.

  Lemma dget_None : forall d k, dget k d = None <-> ~ In k (map fst d).
  Proof.
    induction d as [|[k' v'] d IH]; simpl; intros k; [tauto|].
    destruct (label_eqb_spec k k') as [->|Hne].
    - split; [discriminate|tauto].
    - rewrite IH. split; [intros H [E|H']; [congruence|tauto]|tauto].
  Qed.

  Lemma dget_Some_iff : forall d k, (exists v, dget k d = Some v) <-> In k (map fst d).
  Proof.
    intros d k. destruct (dget k d) as [v|] eqn:E.
    - split; [intros _; apply dget_In in E; apply (in_map fst) in E; exact E|eauto].
    - apply dget_None in E. split; [intros [v H]; discriminate|tauto].
  Qed.

  Lemma dset_notin : forall d k v, ~ In k (map fst d) -> dset k v d = d ++ [(k, v)].
  Proof.
    induction d as [|[k' v'] d IH]; simpl; intros k v H; [reflexivity|].
    rewrite label_eqb_neq by (intros ->; tauto). rewrite IH by tauto. reflexivity.
  Qed.

  Lemma dget_dset_same : forall d k v, dget k (dset k v d) = Some v.
  Proof.
    induction d as [|[k' v'] d IH]; simpl; intros k v.
    - rewrite label_eqb_refl; reflexivity.
    - destruct (label_eqb_spec k k') as [->|Hne]; simpl.
      + rewrite label_eqb_refl. reflexivity.
      + rewrite label_eqb_neq by assumption. apply IH.
  Qed.

  Lemma dget_dset_other : forall d k k' v, k <> k' -> dget k (dset k' v d) = dget k d.
  Proof.
    induction d as [|[k1 v1] d IH]; simpl; intros k k' v H.
    - rewrite label_eqb_neq by assumption. reflexivity.
    - destruct (label_eqb_spec k' k1) as [->|Hne]; simpl.
      + rewrite !label_eqb_neq by assumption. reflexivity.
      + destruct (label_eqb k k1); [reflexivity|]. apply IH; assumption.
  Qed.

  Lemma dset_keys_in : forall d k v k', In k' (map fst (dset k v d)) <-> k' = k \/ In k' (map fst d).
  Proof.
    induction d as [|[k1 v1] d IH]; simpl; intros k v k'.
    - intuition.
    - destruct (label_eqb_spec k k1) as [->|Hne]; simpl; [intuition|].
      rewrite IH. intuition.
  Qed.

  Lemma dset_NoDup : forall d k v, NoDup (map fst d) -> NoDup (map fst (dset k v d)).
  Proof.
    induction d as [|[k1 v1] d IH]; simpl; intros k v H; [constructor; [tauto|constructor]|].
    inversion H; subst.
    destruct (label_eqb_spec k k1) as [->|Hne]; simpl; constructor; auto.
    rewrite dset_keys_in. intros [E|E]; [congruence|tauto].
  Qed.

  Lemma dupdate_NoDup : forall d2 d1, NoDup (map fst d1) -> NoDup (map fst (dupdate d1 d2)).
  Proof.
    induction d2 as [|[k v] d2 IH]; simpl; intros d1 H; [exact H|].
    apply IH. apply dset_NoDup. exact H.
  Qed.

  Lemma dupdate_disjoint : forall d2 d1,
    NoDup (map fst d2) -> (forall k, In k (map fst d2) -> ~ In k (map fst d1)) ->
    dupdate d1 d2 = d1 ++ d2.
  Proof.
    induction d2 as [|[k v] d2 IH]; simpl; intros d1 Hnd Hdis; [rewrite app_nil_r; reflexivity|].
    inversion Hnd; subst.
    unfold dupdate in *. simpl. rewrite dset_notin by (apply Hdis; auto).
    rewrite IH; [rewrite <- app_assoc; reflexivity|assumption|].
    intros k' Hk'. rewrite map_app, in_app_iff. simpl. intros [H|[H|[]]].
    - eapply Hdis; eauto.
    - subst. tauto.
  Qed.

  Lemma dict_of_pairs_NoDup : forall d, NoDup (map fst d) -> dict_of_pairs d = d.
  Proof.
    intros d H. unfold dict_of_pairs. rewrite dupdate_disjoint; auto.
  Qed.

  Lemma dgetE_Ok : forall k d v, dgetE k d = Ok v <-> dget k d = Some v.
  Proof. intros k d v; unfold dgetE; destruct (dget k d); split; intros H; inversion H; reflexivity. Qed.
End DictLemmas.

Lemma dget_map_val : forall {V W} (f : V -> W) (d : dict V) k,
  dget k (map (fun kv => (fst kv, f (snd kv))) d) = option_map f (dget k d).
Proof.
  induction d as [|[k' v'] d IH]; simpl; intros k; [reflexivity|].
  destruct (label_eqb k k'); [reflexivity|apply IH].
Qed.

Lemma map_fst_map_val : forall {V W} (f : label * V -> W) (d : dict V),
  map fst (map (fun kv => (fst kv, f kv)) d) = map fst d.
Proof. intros; rewrite map_map; simpl; reflexivity. Qed.

(** ** Lists *)
Lemma list_set_length : forall {X} i (v : X) l, length (list_set i v l) = length l.
Proof. induction i; destruct l; simpl; auto. Qed.

Lemma nth_list_set_same : forall {X} i (v d : X) l, (i < length l)%nat -> nth i (list_set i v l) d = v.
Proof. induction i; destruct l; simpl; intros H; try lia; auto. apply IHi; lia. Qed.

Lemma nth_list_set_other : forall {X} i j (v d : X) l, i <> j -> nth j (list_set i v l) d = nth j l d.
Proof.
  induction i; destruct l; simpl; intros H; try reflexivity.
  - destruct j; [congruence|reflexivity].
  - destruct j; [reflexivity|]. apply IHi; lia.
Qed.

Lemma nth_error_list_set_same : forall {X} i (v : X) l, (i < length l)%nat ->
  nth_error (list_set i v l) i = Some v.
Proof. induction i; destruct l; simpl; intros H; try lia; auto. apply IHi; lia. Qed.

Lemma nth_error_list_set_other : forall {X} i j (v : X) l, i <> j ->
  nth_error (list_set i v l) j = nth_error l j.
Proof.
  induction i; destruct l; simpl; intros H; try reflexivity.
  - destruct j; [congruence|reflexivity].
  - destruct j; [reflexivity|]. simpl. apply IHi; lia.
Qed.

Lemma list_set_out : forall {X} i (v : X) l, (length l <= i)%nat -> list_set i v l = l.
Proof. induction i; destruct l; simpl; intros H; try lia; auto. rewrite IHi by lia; reflexivity. Qed.

Lemma map2_length : forall {X Y Z} (f : X -> Y -> Z) l m,
  length (map2 f l m) = Nat.min (length l) (length m).
Proof. induction l; destruct m; simpl; auto. Qed.

Lemma map2_length_eq : forall {X Y Z} (f : X -> Y -> Z) l m,
  length l = length m -> length (map2 f l m) = length l.
Proof. intros; rewrite map2_length; lia. Qed.

Lemma nth_error_map2 : forall {X Y Z} (f : X -> Y -> Z) l m i,
  nth_error (map2 f l m) i =
  match nth_error l i, nth_error m i with
  | Some x, Some y => Some (f x y)
  | _, _ => None
  end.
Proof.
  induction l; destruct m; destruct i; simpl; auto.
  - destruct (nth_error l i); reflexivity.
Qed.

Lemma combine_map_fst : forall {X Y} (l : list X) (m : list Y),
  length l = length m -> map fst (combine l m) = l.
Proof. induction l; destruct m; simpl; intros H; try discriminate; auto. rewrite IHl; auto. Qed.

Lemma mapM_length : forall {X Y} (f : X -> res Y) l ys, mapM f l = Ok ys -> length ys = length l.
Proof.
  induction l as [|x l IH]; simpl; intros ys H.
  - inversion H; reflexivity.
  - destruct (f x); simpl in H; [|discriminate].
    destruct (mapM f l) eqn:E; simpl in H; [|discriminate].
    inversion H; subst; simpl. rewrite (IH _ eq_refl). reflexivity.
Qed.

(** ** Insertion sort *)
Section SortLemmas.
  Context {X : Type} (before : X -> X -> bool).

  Lemma insert_perm : forall x l, Permutation (insert before x l) (x :: l).
  Proof.
    induction l as [|y l IH]; simpl; [reflexivity|].
    destruct (before x y); [reflexivity|].
    rewrite IH. apply perm_swap.
  Qed.

  Lemma isort_perm : forall l, Permutation (isort before l) l.
  Proof.
    induction l as [|x l IH]; simpl; [reflexivity|].
    rewrite insert_perm. constructor. exact IH.
  Qed.

  Hypothesis before_total : forall x y, before x y = false -> before y x = true.

  Lemma insert_sorted : forall x l,
    Sorted (fun a b => before a b = true) l -> Sorted (fun a b => before a b = true) (insert before x l).
  Proof.
    induction l as [|y l IH]; simpl; intros H; [repeat constructor|].
    destruct (before x y) eqn:E; [constructor; [assumption|constructor; assumption]|].
    inversion H; subst. constructor; [auto|].
    destruct l as [|z l]; simpl in *; [constructor; auto|].
    destruct (before x z); constructor; auto. inversion H3; assumption.
  Qed.

  Lemma isort_sorted : forall l, Sorted (fun a b => before a b = true) (isort before l).
  Proof. induction l; simpl; [constructor|apply insert_sorted; assumption]. Qed.

  Lemma isort_id : forall l, Sorted (fun a b => before a b = true) l -> isort before l = l.
  Proof.
    induction l as [|x l IH]; simpl; intros H; [reflexivity|].
    inversion H; subst. rewrite IH by assumption.
    destruct l as [|y l]; simpl; [reflexivity|].
    inversion H3; subst. rewrite H1. reflexivity.
  Qed.

  Lemma isort_idem : forall l, isort before (isort before l) = isort before l.
  Proof. intros l; apply isort_id, isort_sorted. Qed.
End SortLemmas.

Lemma Forall2_length : forall {X Y} (P : X -> Y -> Prop) l m, Forall2 P l m -> length l = length m.
Proof. induction 1; simpl; congruence. Qed.

Lemma Forall2_impl_In : forall {X Y} (P Q : X -> Y -> Prop) l m,
  (forall x y, In x l -> In y m -> P x y -> Q x y) -> Forall2 P l m -> Forall2 Q l m.
Proof.
  intros X Y P Q l m H F. induction F as [|x y l m Hp F IH]; constructor.
  - apply H; simpl; auto.
  - apply IH. intros; apply H; simpl; auto.
Qed.
