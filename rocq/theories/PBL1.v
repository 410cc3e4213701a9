(** * Linear algebra for Black-Litterman: solvable systems, quadratic forms *)
From Coq Require Import List Reals Lra Lia Arith.
From Verif Require Import SLin SBL Sums Mat MRisk PCov1 PCov2.
Import ListNotations.
Local Open Scope R_scope.

Definition app (m : nat) (M : nat -> nat -> R) (x : nat -> R) (i : nat) : R := sumn m (fun j => M i j * x j).
Definition psdf (n : nat) (M : nat -> nat -> R) : Prop := forall x, 0 <= bil n M x x.

Lemma app_ext : forall m M x y i, (forall j, (j < m)%nat -> x j = y j) -> app m M x i = app m M y i.
Proof. intros m M x y i H. unfold app. apply sumn_ext. intros j Hj. rewrite H by exact Hj. reflexivity. Qed.
Lemma app_plus : forall m M x y i, app m M (fun j => x j + y j) i = app m M x i + app m M y i.
Proof. intros. unfold app. rewrite <- sumn_plus. apply sumn_ext. intros; ring. Qed.
Lemma app_minus : forall m M x y i, app m M (fun j => x j - y j) i = app m M x i - app m M y i.
Proof. intros. unfold app. rewrite <- sumn_minus. apply sumn_ext. intros; ring. Qed.
Lemma app_scal : forall m M c x i, app m M (fun j => c * x j) i = c * app m M x i.
Proof. intros. unfold app. rewrite <- sumn_scal. apply sumn_ext. intros; ring. Qed.
Lemma bil_app : forall n M x y, bil n M x y = sumn n (fun i => x i * app n M y i).
Proof. reflexivity. Qed.
Lemma bil_minus_l : forall n M x y z, bil n M (fun i => x i - y i) z = bil n M x z - bil n M y z.
Proof. intros. unfold bil. rewrite <- sumn_minus. apply sumn_ext. intros; ring. Qed.
Lemma bil_minus_r : forall n M x y z, bil n M x (fun i => y i - z i) = bil n M x y - bil n M x z.
Proof. intros. rewrite !bil_app. rewrite <- sumn_minus. apply sumn_ext. intros i _. rewrite app_minus. ring. Qed.

Lemma cauchy_f : forall n M x y, psdf n M -> sym n M ->
  bil n M x y * bil n M x y <= bil n M x x * bil n M y y.
Proof.
  intros n M x y Hp Hs. set (M' := array n n M).
  assert (E : forall u v, bil n M u v = bil n (entry M') u v).
  { intros u v. apply bil_ext_M. intros i j Hi Hj. unfold M'. rewrite array_entry by assumption. reflexivity. }
  rewrite !E. apply psd_cauchy.
  - apply psd_from_bil; [apply array_square|]. intros u. rewrite <- E. apply Hp.
  - intros i j Hi Hj. unfold M'. rewrite !array_entry by assumption. apply Hs; assumption.
Qed.
Lemma null_bil : forall n M x y, psdf n M -> sym n M -> bil n M x x = 0 -> bil n M y x = 0.
Proof.
  intros n M x y Hp Hs H0. pose proof (cauchy_f n M y x Hp Hs) as H. rewrite H0, Rmult_0_r in H.
  assert (0 <= bil n M y x * bil n M y x) by (apply Rle_0_sqr). nra.
Qed.
Lemma bil_unit : forall n M x i, (i < n)%nat -> bil n M (delta i) x = app n M x i.
Proof. intros n M x i Hi. rewrite bil_app. apply sumn_delta_r. exact Hi. Qed.
Lemma null_app : forall n M x i, psdf n M -> sym n M -> bil n M x x = 0 -> (i < n)%nat -> app n M x i = 0.
Proof. intros n M x i Hp Hs H0 Hi. rewrite <- bil_unit by exact Hi. apply null_bil; assumption. Qed.

(** a symmetric positive semidefinite system is solvable as soon as the right hand side is orthogonal to
    the kernel *)
Theorem psd_solvable : forall n A b, sym n A -> psdf n A ->
  (forall z, (forall i, (i < n)%nat -> app n A z i = 0) -> sumn n (fun i => z i * b i) = 0) ->
  exists x, forall i, (i < n)%nat -> app n A x i = b i.
Proof.
  induction n as [|m IH]; intros A b Hs Hp Hb.
  - exists (fun _ => 0). intros i Hi. lia.
  - assert (H00 : A O O = bil (S m) A (delta O) (delta O)) by (symmetry; apply bil_basis; lia).
    destruct (Rlt_le_dec 0 (A O O)) as [Ha|Ha].
    + assert (Hps : psdf m (schur A)).
      { intros y. set (x := fun i => match i with O => - (sumn m (fun i => A (S i) O * y i) / A O O) | S j => y j end).
        pose proof (Hp x) as H1. rewrite bil_split in H1 by (auto; lra). change (fun i => x (S i)) with y in H1.
        change (sumn m (fun i => A (S i) O * x (S i))) with (sumn m (fun i => A (S i) O * y i)) in H1. cbn [x] in H1.
        replace (A O O * ((- (sumn m (fun i => A (S i) O * y i) / A O O) + sumn m (fun i => A (S i) O * y i) / A O O) * (- (sumn m (fun i => A (S i) O * y i) / A O O) + sumn m (fun i => A (S i) O * y i) / A O O))) with 0 in H1 by ring.
        lra. }
      assert (Happ : forall y t i, (i < m)%nat -> app (S m) A (fun j => match j with O => t | S k => y k end) (S i) =
                 app m (schur A) y i + A (S i) O * (t + sumn m (fun j => A (S j) O * y j) / A O O)).
      { intros y t i Hi. unfold app. rewrite sumn_split_first. unfold schur, Rdiv. rewrite <- sumn_scal_r.
        rewrite (sumn_ext m (fun j => (A (S i) (S j) - A (S i) O * A (S j) O * / A O O) * y j)
                            (fun j => A (S i) (S j) * y j - A (S i) O * (A (S j) O * y j * / A O O))) by (intros; ring).
        rewrite sumn_minus, sumn_scal. ring. }
      assert (Happ0 : forall y t, app (S m) A (fun j => match j with O => t | S k => y k end) O =
                 A O O * t + sumn m (fun j => A (S j) O * y j)).
      { intros y t. unfold app. rewrite sumn_split_first. f_equal. apply sumn_ext. intros j Hj. rewrite (Hs O (S j)) by lia. reflexivity. }
      destruct (IH (schur A) (fun i => b (S i) - A (S i) O * b O / A O O) (schur_sym m A Hs) Hps) as [y Hy].
      { intros z Hz. set (t := - (sumn m (fun j => A (S j) O * z j) / A O O)).
        specialize (Hb (fun j => match j with O => t | S k => z k end)).
        assert (E : sumn (S m) (fun i => match i with O => t | S k => z k end * b i) = 0).
        { apply Hb. intros [|i] Hi.
          - rewrite Happ0. unfold t. field. lra.
          - rewrite Happ by lia. rewrite Hz by lia. unfold t. ring. }
        rewrite sumn_split_first in E.
        rewrite (sumn_ext m (fun i => z i * (b (S i) - A (S i) O * b O / A O O)) (fun i => z i * b (S i) - A (S i) O * z i * (b O / A O O)))
          by (intros; unfold Rdiv; ring).
        rewrite sumn_minus, sumn_scal_r. unfold t in E. unfold Rdiv in *. lra. }
      set (t := (b O - sumn m (fun j => A (S j) O * y j)) / A O O).
      exists (fun j => match j with O => t | S k => y k end). intros [|i] Hi.
      * rewrite Happ0. unfold t. field. lra.
      * rewrite Happ by lia. rewrite Hy by lia. unfold t. field. lra.
    + assert (E0 : bil (S m) A (delta O) (delta O) = 0) by (pose proof (Hp (delta O)); lra).
      assert (Hcol : forall i, (i < S m)%nat -> A i O = 0).
      { intros i Hi. pose proof (null_app (S m) A (delta O) i Hp Hs E0 Hi) as H. unfold app in H.
        rewrite (sumn_ext (S m) (fun j => A i j * delta 0 j) (fun j => delta 0 j * A i j)) in H by (intros; ring).
        rewrite sumn_delta_r in H by lia. exact H. }
      assert (Hrow : forall j, (j < S m)%nat -> A O j = 0) by (intros j Hj; rewrite (Hs O j) by lia; apply Hcol; exact Hj).
      assert (Hb0 : b O = 0).
      { rewrite <- (sumn_delta_r (S m) O b) by lia. apply Hb. intros i Hi. exact (null_app (S m) A (delta O) i Hp Hs E0 Hi). }
      assert (Happ : forall y i, (i < m)%nat -> app (S m) A (fun j => match j with O => 0 | S k => y k end) (S i) = app m (fun i j => A (S i) (S j)) y i).
      { intros y i Hi. unfold app. rewrite sumn_split_first. ring. }
      assert (Happ0 : forall y, app (S m) A (fun j => match j with O => 0 | S k => y k end) O = 0).
      { intros y. unfold app. apply sumn_zero. intros j Hj. rewrite Hrow by exact Hj. ring. }
      destruct (IH (fun i j => A (S i) (S j)) (fun i => b (S i))) as [y Hy].
      { intros i j Hi Hj. apply Hs; lia. }
      { intros y. pose proof (Hp (fun j => match j with O => 0 | S k => y k end)) as H. rewrite bil_app, sumn_split_first in H.
        rewrite bil_app. rewrite Rmult_0_l, Rplus_0_l in H. 
        rewrite (sumn_ext m _ (fun i => y i * app m (fun i j => A (S i) (S j)) y i)) in H by (intros i Hi; rewrite Happ by exact Hi; reflexivity).
        exact H. }
      { intros z Hz. specialize (Hb (fun j => match j with O => 0 | S k => z k end)). rewrite sumn_split_first, Rmult_0_l, Rplus_0_l in Hb.
        apply Hb. intros [|i] Hi; [apply Happ0|]. rewrite Happ by lia. apply Hz. lia. }
      exists (fun j => match j with O => 0 | S k => y k end). intros [|i] Hi.
      * rewrite Happ0, Hb0. reflexivity.
      * rewrite Happ by lia. apply Hy. lia.
Qed.
Lemma posdef_psdf : forall n A, posdef n A -> psdf n A.
Proof. intros n A H x. destruct (nonzero_dec n x) as [Hx|Hx]; [left; apply H; exact Hx|]. rewrite bil_zero by exact Hx. lra. Qed.
Lemma posdef_null : forall n A z, posdef n A -> (forall i, (i < n)%nat -> app n A z i = 0) -> forall i, (i < n)%nat -> z i = 0.
Proof.
  intros n A z H Hz. destruct (nonzero_dec n z) as [Hx|Hx]; [exfalso|exact Hx]. specialize (H z Hx). rewrite bil_app in H.
  rewrite sumn_zero in H by (intros i Hi; rewrite Hz by exact Hi; ring). lra.
Qed.
Theorem posdef_solvable : forall n A b, sym n A -> posdef n A -> exists x, forall i, (i < n)%nat -> app n A x i = b i.
Proof.
  intros n A b Hs Hp. apply psd_solvable; [exact Hs|apply posdef_psdf; exact Hp|]. intros z Hz. apply sumn_zero. intros i Hi.
  rewrite (posdef_null n A z Hp Hz i Hi). ring.
Qed.

(** ** Lists and functions *)
Lemma shaped_row : forall r c M i, shaped r c M -> (i < r)%nat -> length (nth i M []) = c.
Proof. intros r c M i [Hl HF] Hi. rewrite Forall_forall in HF. apply HF, nth_In. lia. Qed.
Lemma mat_vec_shaped : forall r c M x i, shaped r c M -> length x = c -> (i < r)%nat ->
  vec (mat_vec M x) i = app c (entry M) (vec x) i.
Proof.
  intros r c M x i HM Hx Hi. unfold vec, mat_vec. rewrite nth_map_inner by (destruct HM; lia).
  rewrite inner_sumn by (rewrite (shaped_row r c) by assumption; congruence). rewrite (shaped_row r c) by assumption. reflexivity.
Qed.
Lemma vec_ext : forall n x y, length x = n -> length y = n -> (forall i, (i < n)%nat -> vec x i = vec y i) -> x = y.
Proof. intros n x y Hx Hy H. apply nth_ext0; [congruence|]. intros i Hi. apply H. congruence. Qed.
Lemma vec_of_fun : forall n f i, (i < n)%nat -> vec (of_fun n f) i = f i.
Proof. intros; apply of_fun_nth; assumption. Qed.
Lemma vec_map_seq : forall n f i, (i < n)%nat -> vec (map f (seq 0 n)) i = f i.
Proof. intros; apply of_fun_nth; assumption. Qed.
Lemma minus_vec_length : forall n x y, length x = n -> length y = n -> length (minus_vec x y) = n.
Proof. intros n x. revert n. induction x; intros [|n] [|b y] Hx Hy; try discriminate; [reflexivity|]. cbn. f_equal. apply IHx; cbn in *; congruence. Qed.
Lemma minus_vec_vec : forall n x y i, length x = n -> length y = n -> vec (minus_vec x y) i = vec x i - vec y i.
Proof.
  unfold vec. intros n x. revert n. induction x; intros [|n] [|b y] i Hx Hy; try discriminate; [destruct i; cbn; lra|].
  destruct i; cbn; [reflexivity|]. apply (IHx n); cbn in *; congruence.
Qed.
Lemma square_shaped : forall n M, square n M <-> shaped n n M.
Proof. reflexivity. Qed.
Lemma sum_squares_vec : forall n x, length x = n -> sum_squares x = sumn n (fun i => vec x i * vec x i).
Proof. intros n x H. unfold sum_squares. apply inner_vec; exact H. Qed.

(** ** The solver *)
Lemma right_inverse_null : forall n M B z, square n M -> symmetric n M -> right_inverse n M B -> 
  (forall i, (i < n)%nat -> app n (entry M) z i = 0) -> forall i, (i < n)%nat -> z i = 0.
Proof.
  intros n M B z HM Hs [HB Hinv] Hz. apply sumn_sq_zero.
  set (x := mat_vec B (of_fun n z)). assert (Hx : length x = n) by (unfold x; rewrite mat_vec_length; apply HB).
  assert (E : forall i, (i < n)%nat -> z i = app n (entry M) (vec x) i).
  { intros i Hi. rewrite <- (mat_vec_shaped n n) by assumption. unfold x. rewrite Hinv by apply of_fun_length. rewrite vec_of_fun by exact Hi. reflexivity. }
  rewrite (sumn_ext n (fun i => z i * z i) (fun i => z i * app n (entry M) (vec x) i)) by (intros i Hi; rewrite <- E by exact Hi; reflexivity).
  change (bil n (entry M) z (vec x) = 0). rewrite bil_sym by exact Hs. rewrite bil_app. apply sumn_zero. intros i Hi. rewrite Hz by exact Hi. ring.
Qed.
Lemma square_line : forall p r, (forall t, 0 <= 2 * t * p + t * t * r) -> p = 0.
Proof.
  intros p r H. destruct (Req_dec p 0) as [E|E]; [exact E|exfalso].
  destruct (Rle_lt_dec r 0) as [Hr|Hr].
  - pose proof (H (- p)). assert (0 < p * p) by (destruct (Rdichotomy _ _ E); nra). nra.
  - pose proof (H (- p / r)) as H1. replace (2 * (- p / r) * p + - p / r * (- p / r) * r) with (- (p * p / r)) in H1 by (field; lra).
    assert (0 < p * p) by (destruct (Rdichotomy _ _ E); nra). assert (0 < p * p / r) by (apply Rdiv_lt_0_compat; assumption). lra.
Qed.
(** normal equations of a least squares solution of a symmetric system *)
Lemma lstsq_normal : forall k A b x, square k A -> symmetric k A -> length b = k -> length x = k ->
  (forall y, length y = k -> sum_squares (minus_vec (mat_vec A x) b) <= sum_squares (minus_vec (mat_vec A y) b)) ->
  forall i, (i < k)%nat -> app k (entry A) (fun a => app k (entry A) (vec x) a - vec b a) i = 0.
Proof.
  intros k A b x HA Hs Hb Hx Hmin i Hi. set (r := fun a => app k (entry A) (vec x) a - vec b a).
  assert (HL : forall y, length y = k -> length (mat_vec A y) = k) by (intros y _; rewrite mat_vec_length; apply HA).
  assert (Hsq : forall y, length y = k -> sum_squares (minus_vec (mat_vec A y) b) =
      sumn k (fun a => (app k (entry A) (vec y) a - vec b a) * (app k (entry A) (vec y) a - vec b a))).
  { intros y Hy. rewrite (sum_squares_vec k) by (apply minus_vec_length; auto). apply sumn_ext. intros a Ha.
    rewrite (minus_vec_vec k) by auto. rewrite (mat_vec_shaped k k) by assumption. reflexivity. }
  assert (Hv : forall v, sumn k (fun a => r a * app k (entry A) v a) = 0).
  { intros v. apply square_line with (r := sumn k (fun a => app k (entry A) v a * app k (entry A) v a)). intros t.
    specialize (Hmin (of_fun k (fun j => vec x j + t * v j)) (of_fun_length _ _)).
    rewrite !Hsq in Hmin by (auto; apply of_fun_length).
    rewrite (sumn_ext k (fun a => (app k (entry A) (vec (of_fun k (fun j => vec x j + t * v j))) a - vec b a) * (app k (entry A) (vec (of_fun k (fun j => vec x j + t * v j))) a - vec b a))
      (fun a => r a * r a + (2 * t * (r a * app k (entry A) v a) + t * t * (app k (entry A) v a * app k (entry A) v a)))) in Hmin.
    - rewrite !sumn_plus, !sumn_scal in Hmin. unfold r in *. lra.
    - intros a Ha. rewrite (app_ext k _ _ (fun j => vec x j + t * v j)) by (intros; apply vec_of_fun; assumption).
      rewrite app_plus, app_scal. unfold r. ring. }
  specialize (Hv (delta i)). rewrite <- Hv. change (app k (entry A) r i = bil k (entry A) r (delta i)).
  rewrite bil_sym by exact Hs. rewrite bil_unit by exact Hi. reflexivity.
Qed.
