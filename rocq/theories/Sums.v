(** * Finite sums of reals indexed by naturals, and lists as index functions *)
From Coq Require Import List Reals Lra Lia Arith.
From Verif Require Import SLin.
Import ListNotations.
Local Open Scope R_scope.

(** sum of f 0 .. f (n-1) *)
Fixpoint sumn (n : nat) (f : nat -> R) : R :=
  match n with O => 0 | S k => sumn k f + f k end.

Lemma sumn_ext : forall n f g, (forall i, (i < n)%nat -> f i = g i) -> sumn n f = sumn n g.
Proof. induction n; simpl; intros f g H; [reflexivity|]. rewrite (IHn f g), (H n); auto. Qed.
Lemma sumn_0 : forall n, sumn n (fun _ => 0) = 0.
Proof. induction n; simpl; lra. Qed.
Lemma sumn_zero : forall n f, (forall i, (i < n)%nat -> f i = 0) -> sumn n f = 0.
Proof. intros n f H. rewrite (sumn_ext n f (fun _ => 0)); [apply sumn_0|exact H]. Qed.
Lemma sumn_plus : forall n f g, sumn n (fun i => f i + g i) = sumn n f + sumn n g.
Proof. induction n; simpl; intros; [lra|rewrite IHn; lra]. Qed.
Lemma sumn_minus : forall n f g, sumn n (fun i => f i - g i) = sumn n f - sumn n g.
Proof. induction n; simpl; intros; [lra|rewrite IHn; lra]. Qed.
Lemma sumn_opp : forall n f, sumn n (fun i => - f i) = - sumn n f.
Proof. induction n; simpl; intros; [lra|rewrite IHn; lra]. Qed.
Lemma sumn_scal : forall n c f, sumn n (fun i => c * f i) = c * sumn n f.
Proof. induction n; simpl; intros; [lra|rewrite IHn; lra]. Qed.
Lemma sumn_scal_r : forall n c f, sumn n (fun i => f i * c) = sumn n f * c.
Proof. induction n; simpl; intros; [lra|rewrite IHn; lra]. Qed.
Lemma sumn_const : forall n c, sumn n (fun _ => c) = INR n * c.
Proof. induction n; intros; [simpl; lra|]. cbn [sumn]. rewrite IHn, S_INR. lra. Qed.
Lemma sumn_swap : forall n m f, sumn n (fun i => sumn m (fun j => f i j)) = sumn m (fun j => sumn n (fun i => f i j)).
Proof.
  induction n; simpl; intros m f; [symmetry; apply sumn_0|].
  rewrite IHn, <- sumn_plus. reflexivity.
Qed.
Lemma sumn_le : forall n f g, (forall i, (i < n)%nat -> f i <= g i) -> sumn n f <= sumn n g.
Proof.
  induction n; simpl; intros f g H; [lra|]. assert (f n <= g n) by auto.
  assert (sumn n f <= sumn n g) by auto. lra.
Qed.
Lemma sumn_nonneg : forall n f, (forall i, (i < n)%nat -> 0 <= f i) -> 0 <= sumn n f.
Proof. intros n f H. rewrite <- (sumn_0 n). apply sumn_le. exact H. Qed.
Lemma sumn_pos : forall n f, (0 < n)%nat -> (forall i, (i < n)%nat -> 0 < f i) -> 0 < sumn n f.
Proof.
  intros n f Hn H. destruct n; [lia|]. simpl. assert (0 <= sumn n f) by (apply sumn_nonneg; intros; left; auto).
  specialize (H n). assert (0 < f n) by auto. lra.
Qed.
Lemma sumn_term_le : forall n f k, (forall i, (i < n)%nat -> 0 <= f i) -> (k < n)%nat -> f k <= sumn n f.
Proof.
  induction n; intros f k H Hk; [lia|]. simpl.
  assert (H0 : 0 <= sumn n f) by (apply sumn_nonneg; auto). pose proof (H n (Nat.lt_succ_diag_r n)).
  destruct (Nat.eq_dec k n) as [->|Hne]; [lra|].
  assert (Hk' : f k <= sumn n f) by (apply IHn; [auto|lia]). lra.
Qed.
Lemma sumn_split_first : forall n f, sumn (S n) f = f O + sumn n (fun i => f (S i)).
Proof. induction n; intros f; [simpl; lra|]. cbn [sumn] in *. rewrite IHn. lra. Qed.
Lemma sumn_single : forall n f k, (k < n)%nat -> (forall i, (i < n)%nat -> i <> k -> f i = 0) -> sumn n f = f k.
Proof.
  induction n; intros f k Hk H; [lia|]. simpl. destruct (Nat.eq_dec k n) as [->|Hne].
  - rewrite sumn_zero; [lra|]. intros i Hi. apply H; lia.
  - rewrite (IHn f k); [|lia|auto]. rewrite (H n); [lra|lia|auto].
Qed.
Lemma sumn_delta : forall n k f, (k < n)%nat -> sumn n (fun i => (if Nat.eqb i k then 1 else 0) * f i) = f k.
Proof.
  intros n k f Hk. rewrite (sumn_single n _ k Hk).
  - rewrite Nat.eqb_refl; lra.
  - intros i _ Hne. rewrite (proj2 (Nat.eqb_neq i k) Hne). lra.
Qed.
Lemma sumn_mult : forall n m f g, sumn n f * sumn m g = sumn n (fun i => sumn m (fun j => f i * g j)).
Proof.
  intros n m f g. rewrite <- sumn_scal_r. apply sumn_ext. intros. rewrite sumn_scal. reflexivity.
Qed.
Lemma sumn_sq_nonneg : forall n f, 0 <= sumn n (fun i => f i * f i).
Proof. intros. apply sumn_nonneg. intros. apply Rle_0_sqr. Qed.
Lemma sumn_sq_zero : forall n f, sumn n (fun i => f i * f i) = 0 -> forall i, (i < n)%nat -> f i = 0.
Proof.
  intros n f H i Hi.
  assert (Hle : f i * f i <= 0).
  { rewrite <- H. apply (sumn_term_le n (fun i => f i * f i)); [intros; apply Rle_0_sqr|exact Hi]. }
  assert (0 <= f i * f i) by apply Rle_0_sqr. apply Rsqr_0_uniq. unfold Rsqr. lra.
Qed.
Lemma sumn_shift : forall n k f, sumn (n + k) f = sumn n f + sumn k (fun i => f (n + i)%nat).
Proof. induction k; intros f; [rewrite Nat.add_0_r; simpl; lra|]. rewrite Nat.add_succ_r. simpl. rewrite IHk. lra. Qed.

(** Cauchy-Schwarz *)
Lemma sumn_cauchy : forall n f g,
  sumn n (fun i => f i * g i) * sumn n (fun i => f i * g i) <=
  sumn n (fun i => f i * f i) * sumn n (fun i => g i * g i).
Proof.
  intros n f g.
  assert (H : 0 <= sumn n (fun i => sumn n (fun j => (f i * g j - f j * g i) * (f i * g j - f j * g i)))).
  { apply sumn_nonneg; intros; apply sumn_nonneg; intros; apply Rle_0_sqr. }
  assert (E : sumn n (fun i => sumn n (fun j => (f i * g j - f j * g i) * (f i * g j - f j * g i))) =
     2 * (sumn n (fun i => f i * f i) * sumn n (fun i => g i * g i)) -
     2 * (sumn n (fun i => f i * g i) * sumn n (fun i => f i * g i))).
  { rewrite (sumn_ext n _ (fun i => sumn n (fun j => (f i * f i) * (g j * g j)) +
        sumn n (fun j => (g i * g i) * (f j * f j)) - 2 * sumn n (fun j => (f i * g i) * (f j * g j)))).
    2:{ intros i _. rewrite <- sumn_plus, <- sumn_scal, <- sumn_minus. apply sumn_ext. intros; ring. }
    rewrite sumn_minus, sumn_plus, sumn_scal, <- !sumn_mult. ring. }
  lra.
Qed.

(** ** lists *)
Lemma total_sumn : forall l, total l = sumn (length l) (fun i => nth i l 0).
Proof.
  induction l as [|x l IH]; [reflexivity|]. cbn [length]. rewrite sumn_split_first. cbn [total nth]. rewrite IH. reflexivity.
Qed.
Lemma inner_sumn : forall x y, length x = length y ->
  inner x y = sumn (length x) (fun i => nth i x 0 * nth i y 0).
Proof.
  induction x as [|a x IH]; destruct y as [|b y]; intros H; try discriminate; [reflexivity|].
  injection H as H. cbn [length]. rewrite sumn_split_first. cbn [inner nth]. rewrite (IH y H). reflexivity.
Qed.
Lemma nth_map_inner : forall M w i, (i < length M)%nat ->
  nth i (map (fun row => inner row w) M) 0 = inner (nth i M []) w.
Proof.
  intros M w i H. rewrite (nth_indep _ 0 (inner [] w)) by (rewrite map_length; exact H).
  apply (map_nth (fun row => inner row w)).
Qed.
Lemma square_row : forall n M i, square n M -> (i < n)%nat -> length (nth i M []) = n.
Proof.
  intros n M i [Hl Hf] Hi. rewrite Forall_forall in Hf. apply Hf. apply nth_In. lia.
Qed.
Lemma matvec_nth : forall n M w i, square n M -> length w = n -> (i < n)%nat ->
  nth i (map (fun row => inner row w) M) 0 = sumn n (fun j => entry M i j * nth j w 0).
Proof.
  intros n M w i HM Hw Hi. destruct HM as [Hl Hf] eqn:E. rewrite nth_map_inner by lia.
  rewrite inner_sumn by (rewrite (square_row n M i HM Hi); auto).
  rewrite (square_row n M i HM Hi). reflexivity.
Qed.
Lemma qform_sumn : forall n M w, square n M -> length w = n ->
  qform M w = sumn n (fun i => sumn n (fun j => nth i w 0 * entry M i j * nth j w 0)).
Proof.
  intros n M w HM Hw. unfold qform. rewrite inner_sumn by (rewrite map_length; destruct HM; lia).
  rewrite Hw. apply sumn_ext. intros i Hi. rewrite (matvec_nth n) by auto. rewrite <- sumn_scal.
  apply sumn_ext. intros; ring.
Qed.
Lemma nth_ext0 : forall (x y : list R), length x = length y ->
  (forall i, (i < length x)%nat -> nth i x 0 = nth i y 0) -> x = y.
Proof. intros x y Hl H. apply nth_ext with (d := 0) (d' := 0); auto. Qed.

(** algebra on list vectors of a common length *)
Definition vscale (c : R) (x : list R) : list R := map (fun a => c * a) x.
Lemma vscale_nth : forall c x i, nth i (vscale c x) 0 = c * nth i x 0.
Proof. intros c x i. unfold vscale. rewrite <- (map_nth (fun a => c * a)). f_equal. ring. Qed.
Lemma vscale_length : forall c x, length (vscale c x) = length x.
Proof. intros; apply map_length. Qed.
Lemma inner_scale_l : forall c x y, inner (vscale c x) y = c * inner x y.
Proof. induction x; destruct y; simpl; try lra. rewrite IHx. ring. Qed.
Lemma inner_scale_r : forall c x y, inner x (vscale c y) = c * inner x y.
Proof. induction x; destruct y; simpl; try lra. rewrite IHx. ring. Qed.
Lemma total_scale : forall c x, total (vscale c x) = c * total x.
Proof. induction x; simpl; [lra|]. rewrite IHx. ring. Qed.
Lemma qform_scale : forall M c x, qform M (vscale c x) = c * c * qform M x.
Proof.
  intros M c x. unfold qform. rewrite inner_scale_l.
  assert (E : map (fun row => inner row (vscale c x)) M = vscale c (map (fun row => inner row x) M)).
  { unfold vscale at 2. rewrite map_map. apply map_ext. intros. apply inner_scale_r. }
  rewrite E, inner_scale_r. ring.
Qed.
