(** * Facts about downside risk measures *)
From Coq Require Import List Reals Lra Lia Permutation.
From Verif Require Import SLin SDown Sums.
Import ListNotations.
Local Open Scope R_scope.

Lemma total_app : forall a b, total (a ++ b) = total a + total b.
Proof. induction a as [|x a IH]; intros b; cbn; [lra|]. rewrite IH. lra. Qed.
Lemma total_perm : forall a b, Permutation a b -> total a = total b.
Proof. intros a b H; induction H; cbn; lra. Qed.
Lemma total_nonneg : forall l, Forall (fun x => 0 <= x) l -> 0 <= total l.
Proof. intros l H; induction H; cbn; lra. Qed.
Lemma total_Forall2 : forall a b, Forall2 Rle a b -> total a <= total b.
Proof. intros a b H; induction H; cbn; lra. Qed.

(** ** sorting *)
Fixpoint desc (l : list R) : Prop :=
  match l with [] => True | a :: l' => Forall (fun b => b <= a) l' /\ desc l' end.
Lemma insert_perm : forall a l, Permutation (a :: l) (insert_desc a l).
Proof.
  induction l as [|b l IH]; cbn [insert_desc]; [reflexivity|]. destruct (Rle_dec b a); [reflexivity|].
  rewrite perm_swap. apply perm_skip. exact IH.
Qed.
Lemma sort_perm : forall l, Permutation l (sort_desc l).
Proof. induction l as [|a l IH]; cbn [sort_desc]; [reflexivity|]. rewrite <- insert_perm. apply perm_skip. exact IH. Qed.
Lemma sort_length : forall l, length (sort_desc l) = length l.
Proof. intros l. symmetry. apply Permutation_length. apply sort_perm. Qed.
Lemma insert_desc_desc : forall a l, desc l -> desc (insert_desc a l).
Proof.
  induction l as [|b l IH]; cbn [insert_desc desc]; intros H; [split; [constructor|exact I]|].
  destruct H as [H1 H2]. destruct (Rle_dec b a) as [Hle|Hgt]; cbn [desc].
  - split; [|split; assumption]. constructor; [exact Hle|]. eapply Forall_impl; [|exact H1]. cbn; intros; lra.
  - split; [|apply IH; exact H2].
    apply (Permutation_Forall (insert_perm a l)). constructor; [lra|exact H1].
Qed.
Lemma sort_is_desc : forall l, desc (sort_desc l).
Proof. induction l; cbn [sort_desc]; [exact I|]. apply insert_desc_desc. assumption. Qed.

(** ** the tail formula *)
Definition over (a : R) (l : list R) : R := total (map (fun y => Rmax (y - a) 0) l).
Lemma over_nonneg : forall a l, 0 <= over a l.
Proof. intros. apply total_nonneg. apply Forall_map. apply Forall_forall. intros; apply Rmax_r. Qed.
Lemma over_perm : forall a l l', Permutation l l' -> over a l = over a l'.
Proof. intros a l l' H. apply total_perm. apply Permutation_map. exact H. Qed.
Lemma first_below : forall l k a, 0 <= k <= INR (length l) -> first k l <= k * a + over a l.
Proof.
  unfold over. induction l as [|y l IH]; intros k a [H0 H1]; cbn [first map total].
  - cbn in H1. replace k with 0 by lra. lra.
  - destruct (Rle_dec k 1) as [Hk|Hk].
    + pose proof (over_nonneg a l) as Hn. unfold over in Hn. pose proof (Rmax_l (y - a) 0). pose proof (Rmax_r (y - a) 0).
      assert (k * (y - a) <= k * Rmax (y - a) 0) by (apply Rmult_le_compat_l; lra). nra.
    + cbn [length] in H1. rewrite S_INR in H1. specialize (IH (k - 1) a ltac:(lra)). pose proof (Rmax_l (y - a) 0). lra.
Qed.
Lemma over_all_below : forall a l, Forall (fun b => b <= a) l -> over a l = 0.
Proof.
  intros a l H. unfold over. induction H; cbn [map total]; [reflexivity|]. rewrite Rmax_right by lra. lra.
Qed.
Lemma first_reached : forall l k, desc l -> 0 < k <= INR (length l) -> exists a, In a l /\ first k l = k * a + over a l.
Proof.
  induction l as [|y l IH]; intros k Hd [H0 H1]; [cbn in H1; lra|]. destruct Hd as [Hy Hd]. cbn [first].
  destruct (Rle_dec k 1) as [Hk|Hk].
  - exists y. split; [left; reflexivity|]. unfold over. cbn [map total]. fold (over y l). rewrite (over_all_below y l Hy).
    rewrite Rmax_right by lra. lra.
  - cbn [length] in H1. rewrite S_INR in H1. destruct (IH (k - 1) Hd ltac:(lra)) as [a [Ha E]].
    exists a. split; [right; exact Ha|]. rewrite E. unfold over. cbn [map total]. fold (over a l).
    rewrite Forall_forall in Hy. specialize (Hy a Ha). rewrite Rmax_left by lra. lra.
Qed.

(** the mean of the worst share is the least value of [a + over a l / k] *)
Lemma worst_le : forall beta l a, 0 <= beta < 1 -> (0 < length l)%nat ->
  worst_mean beta l <= a + over a l / ((1 - beta) * INR (length l)).
Proof.
  intros beta l a Hb Hl. unfold worst_mean. cbv zeta.
  assert (HT : 0 < INR (length l)) by (apply lt_0_INR; exact Hl).
  set (k := (1 - beta) * INR (length l)). assert (Hk : 0 < k) by (unfold k; nra).
  assert (Hk1 : k <= INR (length l)) by (unfold k; nra).
  pose proof (first_below (sort_desc l) k a ltac:(rewrite sort_length; lra)) as H.
  rewrite <- (over_perm a _ _ (sort_perm l)) in H.
  replace (a + over a l / k) with ((k * a + over a l) / k) by (field; lra).
  unfold Rdiv. apply Rmult_le_compat_r; [|exact H]. left; apply Rinv_0_lt_compat; exact Hk.
Qed.
Lemma worst_reached : forall beta l, 0 <= beta < 1 -> (0 < length l)%nat ->
  exists a, worst_mean beta l = a + over a l / ((1 - beta) * INR (length l)).
Proof.
  intros beta l Hb Hl. unfold worst_mean. cbv zeta.
  assert (HT : 0 < INR (length l)) by (apply lt_0_INR; exact Hl).
  set (k := (1 - beta) * INR (length l)). assert (Hk : 0 < k) by (unfold k; nra).
  assert (Hk1 : k <= INR (length l)) by (unfold k; nra).
  destruct (first_reached (sort_desc l) k (sort_is_desc l) ltac:(rewrite sort_length; lra)) as [a [_ E]].
  exists a. rewrite E, <- (over_perm a _ _ (sort_perm l)). field. lra.
Qed.
(** monotone *)
Lemma over_mono : forall a l l', Forall2 Rle l l' -> over a l <= over a l'.
Proof.
  intros a l l' H. unfold over. apply total_Forall2. induction H; cbn [map]; constructor; auto.
  apply Rle_max_compat_r. lra.
Qed.
Lemma worst_mono : forall beta l l', 0 <= beta < 1 -> Forall2 Rle l l' -> (0 < length l)%nat -> worst_mean beta l <= worst_mean beta l'.
Proof.
  intros beta l l' Hb H Hl. assert (E : length l = length l') by (clear - H; induction H; cbn; congruence).
  destruct (worst_reached beta l' Hb ltac:(lia)) as [a Ea]. rewrite Ea, <- E.
  eapply Rle_trans; [apply (worst_le beta l a Hb Hl)|].
  assert (HT : 0 < (1 - beta) * INR (length l)) by (apply Rmult_lt_0_compat; [lra|apply lt_0_INR; exact Hl]).
  apply Rplus_le_compat_l. unfold Rdiv. apply Rmult_le_compat_r; [left; apply Rinv_0_lt_compat; exact HT|].
  apply over_mono. exact H.
Qed.

(** ** drawdowns *)
(** the recursion used in the optimisation *)
Fixpoint dd (u : R) (rs : list R) : list R :=
  match rs with [] => [] | r :: rs' => Rmax (u - r) 0 :: dd (Rmax (u - r) 0) rs' end.
Lemma dd_from : forall rs peak level, drawdowns_from peak level rs = dd (peak - level) rs.
Proof.
  induction rs as [|r rs IH]; intros peak level; cbn [drawdowns_from dd]; [reflexivity|].
  assert (E : Rmax peak (level + r) - (level + r) = Rmax (peak - level - r) 0).
  { unfold Rmax. destruct (Rle_dec peak (level + r)), (Rle_dec (peak - level - r) 0); lra. }
  rewrite IH, E. reflexivity.
Qed.
Lemma dd_length : forall rs u, length (dd u rs) = length rs.
Proof. induction rs as [|r rs IH]; intros u; cbn; [reflexivity|]. rewrite IH. reflexivity. Qed.
Lemma drawdowns_length : forall rs, length (drawdowns_from 0 0 rs) = length rs.
Proof. intros. rewrite dd_from. apply dd_length. Qed.
