(** * Bilinear forms over functions *)
From Coq Require Import List Arith Lia Reals Lra.
From Verif Require Import SLin Sums.
Import ListNotations.
Local Open Scope R_scope.

Definition bil (n : nat) (M : nat -> nat -> R) (x y : nat -> R) : R :=
  sumn n (fun i => x i * sumn n (fun j => M i j * y j)).
Lemma bil_ext : forall n M x y x' y', (forall i, (i < n)%nat -> x i = x' i) -> (forall i, (i < n)%nat -> y i = y' i) ->
  bil n M x y = bil n M x' y'.
Proof.
  intros n M x y x' y' Hx Hy. unfold bil. apply sumn_ext. intros i Hi. rewrite Hx by exact Hi. f_equal.
  apply sumn_ext. intros j Hj. rewrite Hy by exact Hj. reflexivity.
Qed.
Lemma bil_plus_l : forall n M x y z, bil n M (fun i => x i + y i) z = bil n M x z + bil n M y z.
Proof. intros. unfold bil. rewrite <- sumn_plus. apply sumn_ext. intros; ring. Qed.
Lemma bil_scal_l : forall n M c x z, bil n M (fun i => c * x i) z = c * bil n M x z.
Proof. intros. unfold bil. rewrite <- sumn_scal. apply sumn_ext. intros; ring. Qed.
Lemma bil_plus_r : forall n M x y z, bil n M x (fun i => y i + z i) = bil n M x y + bil n M x z.
Proof.
  intros. unfold bil. rewrite <- sumn_plus. apply sumn_ext. intros i _. rewrite <- Rmult_plus_distr_l. f_equal.
  rewrite <- sumn_plus. apply sumn_ext. intros; ring.
Qed.
Lemma bil_scal_r : forall n M c x y, bil n M x (fun i => c * y i) = c * bil n M x y.
Proof.
  intros. unfold bil. rewrite <- sumn_scal. apply sumn_ext. intros i _.
  assert (E : sumn n (fun j => M i j * (c * y j)) = c * sumn n (fun j => M i j * y j)).
  { rewrite <- sumn_scal. apply sumn_ext. intros; ring. }
  rewrite E. ring.
Qed.
Lemma bil_sym : forall n M x y, (forall i j, (i < n)%nat -> (j < n)%nat -> M i j = M j i) -> bil n M x y = bil n M y x.
Proof.
  intros n M x y H. unfold bil.
  rewrite (sumn_ext n (fun i => x i * sumn n (fun j => M i j * y j)) (fun i => sumn n (fun j => x i * (M i j * y j)))).
  2: { intros. rewrite <- sumn_scal. reflexivity. }
  rewrite sumn_swap. apply sumn_ext. intros j Hj. rewrite <- sumn_scal. apply sumn_ext. intros i Hi. rewrite (H i j) by assumption. ring.
Qed.
Lemma bil_line : forall n M x y t, (forall i j, (i < n)%nat -> (j < n)%nat -> M i j = M j i) ->
  bil n M (fun i => x i + t * y i) (fun i => x i + t * y i) =
  bil n M x x + 2 * t * bil n M x y + t * t * bil n M y y.
Proof.
  intros n M x y t H. rewrite bil_plus_l, !bil_plus_r, !bil_scal_l, !bil_scal_r, (bil_sym n M y x) by exact H. ring.
Qed.

Definition vec (x : list R) (i : nat) : R := nth i x 0.
Definition of_fun (n : nat) (f : nat -> R) : list R := map f (seq 0 n).
Lemma of_fun_length : forall n f, length (of_fun n f) = n.
Proof. intros; unfold of_fun; rewrite map_length, seq_length; reflexivity. Qed.
Lemma of_fun_nth : forall n f i, (i < n)%nat -> nth i (of_fun n f) 0 = f i.
Proof.
  intros n f i H. unfold of_fun. rewrite (nth_indep _ 0 (f 0%nat)) by (rewrite map_length, seq_length; exact H).
  rewrite map_nth, seq_nth by exact H. reflexivity.
Qed.
Lemma qform_bil : forall n M w, square n M -> length w = n -> qform M w = bil n (entry M) (vec w) (vec w).
Proof.
  intros n M w HM Hw. unfold qform. rewrite inner_sumn by (rewrite map_length; destruct HM; lia).
  rewrite Hw. unfold bil, vec. apply sumn_ext. intros i Hi. rewrite (matvec_nth n) by auto. reflexivity.
Qed.
Lemma psd_bil : forall n M f, psd n M -> 0 <= bil n (entry M) f f.
Proof.
  intros n M f [HM H]. specialize (H (of_fun n f) (of_fun_length n f)).
  rewrite (qform_bil n) in H by (auto; apply of_fun_length).
  erewrite bil_ext; [exact H| |]; intros i Hi; unfold vec; rewrite of_fun_nth by exact Hi; reflexivity.
Qed.
Lemma total_vec : forall n x, length x = n -> total x = sumn n (vec x).
Proof. intros n x H. rewrite total_sumn, H. reflexivity. Qed.
Lemma inner_vec : forall n x y, length x = n -> length y = n -> inner x y = sumn n (fun i => vec x i * vec y i).
Proof. intros n x y Hx Hy. rewrite inner_sumn by congruence. rewrite Hx. reflexivity. Qed.

(** Cauchy-Schwarz for positive semidefinite forms *)
Lemma psd_cauchy : forall n M x y, psd n M -> symmetric n M ->
  bil n (entry M) x y * bil n (entry M) x y <= bil n (entry M) x x * bil n (entry M) y y.
Proof.
  intros n M x y Hp Hs. set (a := bil n (entry M) x x). set (b := bil n (entry M) x y). set (c := bil n (entry M) y y).
  assert (Hc : 0 <= c) by (apply psd_bil; exact Hp). assert (Ha : 0 <= a) by (apply psd_bil; exact Hp).
  assert (Hq : forall t, 0 <= a + 2 * t * b + t * t * c).
  { intros t. unfold a, b, c. rewrite <- bil_line by exact Hs. apply psd_bil; exact Hp. }
  destruct (Req_dec c 0) as [E|E].
  - rewrite E. destruct (Req_dec b 0) as [->|Hb]; [lra|]. exfalso.
    specialize (Hq (- (a + 1) / (2 * b))). rewrite E in Hq.
    replace (a + 2 * (- (a + 1) / (2 * b)) * b + - (a + 1) / (2 * b) * (- (a + 1) / (2 * b)) * 0) with (-1) in Hq by (field; exact Hb).
    lra.
  - specialize (Hq (- b / c)).
    replace (a + 2 * (- b / c) * b + - b / c * (- b / c) * c) with (a - b * b / c) in Hq by (field; exact E).
    assert (H : b * b / c * c <= a * c) by (apply Rmult_le_compat_r; lra).
    replace (b * b / c * c) with (b * b) in H by (field; exact E). exact H.
Qed.

Lemma mat_vec_length : forall M x, length (mat_vec M x) = length M.
Proof. intros; apply map_length. Qed.
Lemma mat_vec_vec : forall n M x i, square n M -> length x = n -> (i < n)%nat ->
  vec (mat_vec M x) i = sumn n (fun j => entry M i j * vec x j).
Proof. intros. unfold vec, mat_vec. apply matvec_nth; assumption. Qed.
Lemma inner_ones : forall r n, length r = n -> inner r (repeat 1 n) = total r.
Proof. induction r as [|a r IH]; intros n H; subst n; [reflexivity|]. cbn. rewrite IH by reflexivity. lra. Qed.
Lemma mat_vec_ones : forall n M, square n M -> mat_vec M (repeat 1 n) = map total M.
Proof.
  intros n M [_ H]. unfold mat_vec. apply map_ext_in. intros r Hr. rewrite Forall_forall in H. apply inner_ones. auto.
Qed.
(** the smallest variance of fully invested portfolios *)
Lemma min_variance_bound : forall n M P, (0 < n)%nat -> psd n M -> symmetric n M -> right_inverse n M P ->
  let s := total (map total P) in
  0 < s /\ forall x, length x = n -> total x = 1 -> 1 / s <= qform M x.
Proof.
  intros n M P Hn Hp Hs [HP Hinv] s. pose proof Hp as [HM _].
  set (z := mat_vec P (repeat 1 n)).
  assert (Hz : length z = n) by (unfold z; rewrite mat_vec_length; apply HP).
  assert (HMz : mat_vec M z = repeat 1 n) by (apply Hinv; apply repeat_length).
  assert (Hsz : s = sumn n (vec z)). { unfold s. rewrite <- (mat_vec_ones n P HP). apply total_vec. exact Hz. }
  assert (HMz1 : forall i, (i < n)%nat -> sumn n (fun j => entry M i j * vec z j) = 1).
  { intros i Hi. rewrite <- mat_vec_vec by assumption. rewrite HMz. unfold vec.
    rewrite nth_repeat_lt || (rewrite (nth_indep _ 0 1) by (rewrite repeat_length; exact Hi); apply nth_repeat). }
  assert (Hbz : forall f, bil n (entry M) f (vec z) = sumn n f).
  { intros f. unfold bil. apply sumn_ext. intros i Hi. rewrite HMz1 by exact Hi. ring. }
  assert (Hs0 : 0 <= s) by (rewrite Hsz, <- Hbz; apply psd_bil; exact Hp).
  assert (Hspos : 0 < s).
  { destruct Hs0 as [H|H]; [exact H|exfalso].
    pose proof (psd_cauchy n M (fun _ => 1) (vec z) Hp Hs) as Hc. rewrite !Hbz, <- Hsz, <- H in Hc.
    rewrite sumn_const in Hc. assert (0 < INR n) by (apply lt_0_INR; exact Hn). nra. }
  split; [exact Hspos|]. intros x Hx Hx1.
  pose proof (psd_cauchy n M (vec x) (vec z) Hp Hs) as Hc. rewrite !Hbz, <- Hsz in Hc.
  rewrite <- (total_vec n x Hx), Hx1 in Hc. rewrite <- (qform_bil n M x HM Hx) in Hc.
  apply Rmult_le_reg_r with s; [exact Hspos|]. replace (1 / s * s) with 1 by (field; lra). lra.
Qed.
