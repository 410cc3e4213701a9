(** * Cholesky as a test for positive definiteness, and the two fixes *)
From Coq Require Import ZArith List String Bool Reals Lra Lia Arith.
From Verif Require Import Num Py RBase PyLemmas MFrame MHRP MRisk SLin SHRP SRisk Sums Mat.
Import ListNotations.
Local Open Scope R_scope.

Definition sym (n : nat) (A : nat -> nat -> R) : Prop := forall i j, (i < n)%nat -> (j < n)%nat -> A i j = A j i.
Definition posdef (n : nat) (A : nat -> nat -> R) : Prop :=
  forall x, (exists i, (i < n)%nat /\ x i <> 0) -> 0 < bil n A x x.
Definition schur (A : nat -> nat -> R) (i j : nat) : R := A (S i) (S j) - A (S i) O * A (S j) O / A O O.

Lemma bil_split : forall m A x, sym (S m) A -> A O O <> 0 ->
  bil (S m) A x x = A O O * ((x O + sumn m (fun i => A (S i) O * x (S i)) / A O O) * (x O + sumn m (fun i => A (S i) O * x (S i)) / A O O))
    + bil m (schur A) (fun i => x (S i)) (fun i => x (S i)).
Proof.
  intros m A x Hs Ha. unfold bil. rewrite sumn_split_first, sumn_split_first.
  set (L := sumn m (fun i => A (S i) O * x (S i))).
  assert (E0 : sumn m (fun i => A O (S i) * x (S i)) = L).
  { apply sumn_ext. intros i Hi. rewrite (Hs O (S i)) by lia. reflexivity. }
  rewrite E0.
  assert (E1 : sumn m (fun i => x (S i) * sumn (S m) (fun j => A (S i) j * x j)) =
               x O * L + sumn m (fun i => x (S i) * sumn m (fun j => A (S i) (S j) * x (S j)))).
  { unfold L. rewrite <- sumn_scal, <- sumn_plus. apply sumn_ext. intros i Hi. rewrite sumn_split_first. ring. }
  rewrite E1.
  assert (E2 : sumn m (fun i => x (S i) * sumn m (fun j => schur A i j * x (S j))) =
               sumn m (fun i => x (S i) * sumn m (fun j => A (S i) (S j) * x (S j))) - L * L / A O O).
  { unfold Rdiv. rewrite Rmult_assoc. unfold L at 1. rewrite <- sumn_scal_r, <- sumn_minus. apply sumn_ext. intros i Hi.
    assert (E3 : sumn m (fun j => schur A i j * x (S j)) = sumn m (fun j => A (S i) (S j) * x (S j)) - A (S i) O * (L * / A O O)).
    { unfold L. rewrite <- sumn_scal_r, <- sumn_scal, <- sumn_minus. apply sumn_ext. intros j Hj. unfold schur, Rdiv. ring. }
    rewrite E3. ring. }
  rewrite E2. field. exact Ha.
Qed.
Lemma schur_sym : forall m A, sym (S m) A -> sym m (schur A).
Proof. intros m A H i j Hi Hj. unfold schur. rewrite (H (S i) (S j)) by lia. unfold Rdiv. ring. Qed.
Lemma bil_zero : forall n A x, (forall i, (i < n)%nat -> x i = 0) -> bil n A x x = 0.
Proof. intros n A x H. unfold bil. apply sumn_zero. intros i Hi. rewrite (H i Hi). ring. Qed.
Lemma nonzero_dec : forall n (x : nat -> R), (exists i, (i < n)%nat /\ x i <> 0) \/ (forall i, (i < n)%nat -> x i = 0).
Proof.
  induction n as [|n IH]; intros x; [right; intros; lia|]. destruct (IH x) as [(i & Hi & Hx)|H]; [left; exists i; split; [lia|exact Hx]|].
  destruct (Req_dec (x n) 0) as [E|E]; [|left; exists n; split; [lia|exact E]]. right. intros i Hi. destruct (Nat.eq_dec i n) as [->|Hne]; [exact E|apply H; lia].
Qed.
Theorem cholesky_posdef : forall n A, sym n A -> (cholesky n A = true <-> posdef n A).
Proof.
  induction n as [|m IH]; intros A Hs.
  - split; [|reflexivity]. intros _ x (i & Hi & _). lia.
  - cbn [cholesky]. fold (schur A). rewrite andb_true_iff, Rltb_true, (IH _ (schur_sym m A Hs)). split.
    + intros [Ha Hp] x (i & Hi & Hx). rewrite bil_split by (auto; lra).
      set (u := x O + sumn m (fun i => A (S i) O * x (S i)) / A O O).
      destruct (nonzero_dec m (fun i => x (S i))) as [Hy|Hy].
      * specialize (Hp _ Hy). assert (0 <= u * u) by (apply Rle_0_sqr). nra.
      * rewrite (bil_zero m) by exact Hy. assert (Hu : u = x O).
        { unfold u. rewrite (sumn_zero m) by (intros j Hj; rewrite (Hy j Hj); ring). field. lra. }
        rewrite Hu. destruct i as [|i]; [|exfalso; apply Hx; apply Hy; lia]. assert (0 < x O * x O) by (destruct (Rdichotomy _ _ Hx); nra). nra.
    + intros Hp. assert (Ha : 0 < A O O).
      { specialize (Hp (fun i => if Nat.eqb i 0 then 1 else 0)). assert (H1 : 0 < bil (S m) A (fun i => if Nat.eqb i 0 then 1 else 0) (fun i => if Nat.eqb i 0 then 1 else 0)).
        { apply Hp. exists O. split; [lia|]. cbn. lra. }
        unfold bil in H1. rewrite sumn_split_first, sumn_split_first in H1. cbn [Nat.eqb] in H1.
        rewrite (sumn_zero m (fun i => A O (S i) * 0)), (sumn_zero m (fun i => 0 * sumn (S m) (fun j => A (S i) j * (if Nat.eqb j 0 then 1 else 0)))) in H1 by (intros; ring). lra. }
      split; [exact Ha|]. intros y Hy.
      set (x := fun i => match i with O => - (sumn m (fun i => A (S i) O * y i) / A O O) | S j => y j end).
      assert (H1 : 0 < bil (S m) A x x).
      { apply Hp. destruct Hy as (i & Hi & Hne). exists (S i). split; [lia|exact Hne]. }
      rewrite bil_split in H1 by (auto; lra). change (fun i => x (S i)) with y in H1.
      change (sumn m (fun i => A (S i) O * x (S i))) with (sumn m (fun i => A (S i) O * y i)) in H1. cbn [x] in H1. 
      replace (A O O * ((- (sumn m (fun i => A (S i) O * y i) / A O O) + sumn m (fun i => A (S i) O * y i) / A O O) * (- (sumn m (fun i => A (S i) O * y i) / A O O) + sumn m (fun i => A (S i) O * y i) / A O O))) with 0 in H1 by ring.
      lra.
Qed.

Lemma eps16_pos : 0 < eps16.
Proof. unfold eps16. apply Rinv_0_lt_compat. apply pow_lt. lra. Qed.
Lemma bil_plus_M : forall n A B x y, bil n (fun i j => A i j + B i j) x y = bil n A x y + bil n B x y.
Proof.
  intros. unfold bil. rewrite <- sumn_plus. apply sumn_ext. intros i Hi. rewrite <- Rmult_plus_distr_l. f_equal. rewrite <- sumn_plus. apply sumn_ext. intros; ring.
Qed.
Lemma sumn_delta_r : forall n i (f : nat -> R), (i < n)%nat -> sumn n (fun j => delta i j * f j) = f i.
Proof.
  intros n i f Hi. rewrite (sumn_single n _ i Hi).
  - unfold delta. rewrite Nat.eqb_refl. ring.
  - intros j Hj Hne. unfold delta. destruct (Nat.eqb_spec i j); [congruence|ring].
Qed.
Lemma bil_delta : forall n c x, bil n (fun i j => c * delta i j) x x = c * sumn n (fun i => x i * x i).
Proof.
  intros n c x. unfold bil. rewrite <- sumn_scal. apply sumn_ext. intros i Hi.
  rewrite (sumn_ext n _ (fun j => delta i j * (c * x j))) by (intros; ring). rewrite sumn_delta_r by exact Hi. ring.
Qed.
Lemma delta_sym : forall i j, delta i j = delta j i.
Proof. intros. unfold delta. rewrite Nat.eqb_sym. reflexivity. Qed.
Lemma bil_list : forall n M w, square n M -> List.length w = n -> qform M w = bil n (entry M) (vec w) (vec w).
Proof. exact qform_bil. Qed.
Lemma is_psd_iff : forall n M, square n M -> symmetric n M ->
  (is_psd M = true <-> forall x, (exists i, (i < n)%nat /\ x i <> 0) -> 0 < bil n (entry M) x x + eps16 * sumn n (fun i => x i * x i)).
Proof.
  intros n M HM Hs. unfold is_psd. rewrite (proj1 HM), cholesky_posdef.
  - unfold posdef. split; intros H x Hx; specialize (H x Hx); rewrite bil_plus_M, bil_delta in *; exact H.
  - intros i j Hi Hj. rewrite (Hs i j Hi Hj), delta_sym. reflexivity.
Qed.
Lemma sumsq_pos : forall n (x : nat -> R), (exists i, (i < n)%nat /\ x i <> 0) -> 0 < sumn n (fun i => x i * x i).
Proof.
  intros n x (i & Hi & Hx). apply Rlt_le_trans with (x i * x i); [destruct (Rdichotomy _ _ Hx); nra|].
  apply (sumn_term_le n (fun i => x i * x i) i); [intros; apply Rle_0_sqr|exact Hi].
Qed.
Theorem psd_passes : forall n M, psd n M -> symmetric n M -> is_psd M = true.
Proof.
  intros n M Hp Hs. apply (is_psd_iff n); [apply Hp|exact Hs|]. intros x Hx. pose proof (psd_bil n M x Hp). pose proof (sumsq_pos n x Hx). pose proof eps16_pos. nra.
Qed.
Theorem passes_nearly : forall n M, square n M -> symmetric n M -> is_psd M = true -> nearly_psd eps16 n M.
Proof.
  intros n M HM Hs H. split; [exact HM|]. intros w Hw. rewrite (is_psd_iff n) in H by assumption.
  rewrite (qform_bil n) by assumption. rewrite (inner_vec n) by assumption. destruct (nonzero_dec n (vec w)) as [Hx|Hx].
  - specialize (H _ Hx). lra.
  - rewrite bil_zero by exact Hx. rewrite sumn_zero by (intros i Hi; rewrite (Hx i Hi); ring). lra.
Qed.

(** arrays *)
Lemma array_length : forall n m g, List.length (array n m g) = n.
Proof. intros; unfold array; rewrite map_length, seq_length; reflexivity. Qed.
Lemma array_square : forall n g, square n (array n n g).
Proof. intros n g. split; [apply array_length|]. unfold array. apply Forall_map, Forall_forall. intros i _. rewrite map_length, seq_length. reflexivity. Qed.
Lemma array_entry : forall n m g i j, (i < n)%nat -> (j < m)%nat -> entry (array n m g) i j = g i j.
Proof.
  intros n m g i j Hi Hj. unfold entry, array. rewrite (nth_indep _ [] (map (g O) (seq 0 m))) by (rewrite map_length, seq_length; exact Hi).
  rewrite (map_nth (fun i => map (g i) (seq 0 m))), seq_nth by exact Hi. cbn [Nat.add].
  rewrite (nth_indep _ 0 (g i O)) by (rewrite map_length, seq_length; exact Hj). rewrite map_nth, seq_nth by exact Hj. reflexivity.
Qed.
Lemma seq_nth_self : forall (T : Type) (d : T) (l : list T), map (fun i => nth i l d) (seq 0 (List.length l)) = l.
Proof.
  intros T d l. induction l as [|a l IH]; [reflexivity|]. cbn [List.length seq map nth]. f_equal. rewrite <- seq_shift, map_map. exact IH.
Qed.
Lemma array_self : forall n M, square n M -> array n n (entry M) = M.
Proof.
  intros n M [HM HR]. transitivity (map (fun i => nth i M []) (seq 0 (List.length M))); [|apply seq_nth_self].
  unfold array. rewrite HM. apply map_ext_in. intros i Hi. apply in_seq in Hi. rewrite Forall_forall in HR.
  assert (HL : List.length (nth i M []) = n) by (apply HR, nth_In; lia). rewrite <- HL. unfold entry. apply seq_nth_self.
Qed.
Lemma bil_ext_M : forall n A B x y, (forall i j, (i < n)%nat -> (j < n)%nat -> A i j = B i j) -> bil n A x y = bil n B x y.
Proof. intros n A B x y H. unfold bil. apply sumn_ext. intros i Hi. f_equal. apply sumn_ext. intros j Hj. rewrite H by assumption. reflexivity. Qed.
Lemma psd_from_bil : forall n M, square n M -> (forall x, 0 <= bil n (entry M) x x) -> psd n M.
Proof. intros n M HM H. split; [exact HM|]. intros w Hw. rewrite (qform_bil n) by assumption. apply H. Qed.

(** ** spectral decompositions *)
Section Spectral.
  Variables (n : nat) (M : list (list R)) (q : list R) (V : list (list R)).
  Hypothesis He : eigen_of n M q V.
  Definition coord (x : nat -> R) (k : nat) : R := sumn n (fun i => entry V i k * x i).
  Lemma parseval : forall x, sumn n (fun k => coord x k * coord x k) = sumn n (fun i => x i * x i).
  Proof.
    intros x. destruct He as (_ & _ & _ & HV & _). unfold coord.
    transitivity (sumn n (fun i => sumn n (fun j => x i * x j * sumn n (fun k => entry V i k * entry V j k)))).
    - rewrite (sumn_ext n _ (fun k => sumn n (fun i => sumn n (fun j => x i * x j * (entry V i k * entry V j k))))).
      + rewrite sumn_swap. apply sumn_ext. intros i Hi. rewrite sumn_swap. apply sumn_ext. intros j Hj. rewrite sumn_scal. reflexivity.
      + intros k Hk. rewrite sumn_mult. apply sumn_ext. intros i Hi. apply sumn_ext. intros j Hj. ring.
    - apply sumn_ext. intros i Hi. rewrite (sumn_ext n _ (fun j => delta i j * (x i * x j))).
      + rewrite sumn_delta_r by exact Hi. reflexivity.
      + intros j Hj. rewrite HV by assumption. unfold delta. ring.
  Qed.
  Lemma bil_spectral : forall (c : nat -> R) x, bil n (fun i j => sumn n (fun k => entry V i k * c k * entry V j k)) x x = sumn n (fun k => c k * (coord x k * coord x k)).
  Proof.
    intros c x. unfold bil, coord.
    transitivity (sumn n (fun i => sumn n (fun k => c k * ((entry V i k * x i) * sumn n (fun j => entry V j k * x j))))).
    - apply sumn_ext. intros i Hi.
      rewrite (sumn_ext n (fun j => sumn n (fun k => entry V i k * c k * entry V j k) * x j) (fun j => sumn n (fun k => entry V i k * c k * (entry V j k * x j)))).
      2:{ intros j Hj. rewrite <- sumn_scal_r. apply sumn_ext. intros; ring. }
      rewrite sumn_swap. rewrite <- sumn_scal. apply sumn_ext. intros k Hk. rewrite sumn_scal. ring.
    - rewrite sumn_swap. apply sumn_ext. intros k Hk. rewrite sumn_scal, sumn_scal_r. reflexivity.
  Qed.
  Lemma bil_M : forall x, bil n (entry M) x x = sumn n (fun k => nth k q 0 * (coord x k * coord x k)).
  Proof.
    intros x. destruct He as (_ & _ & _ & _ & HM). rewrite <- bil_spectral. apply bil_ext_M. exact HM.
  Qed.
  (** V' A V *)
  Definition rotate (A : nat -> nat -> R) (a b : nat) : R := sumn n (fun i => entry V i a * sumn n (fun j => A i j * entry V j b)).
  Lemma rotate_norm : forall A, sumn n (fun i => sumn n (fun j => A i j * A i j)) = sumn n (fun a => sumn n (fun b => rotate A a b * rotate A a b)).
  Proof.
    intros A. transitivity (sumn n (fun i => sumn n (fun b => coord (A i) b * coord (A i) b))).
    - apply sumn_ext. intros i Hi. symmetry. apply parseval.
    - rewrite sumn_swap. rewrite (sumn_swap n n (fun a b => rotate A a b * rotate A a b)). apply sumn_ext. intros b Hb.
      rewrite <- (parseval (fun i => coord (A i) b)). apply sumn_ext. intros a Ha.
      assert (E : coord (fun i => coord (A i) b) a = rotate A a b).
      { unfold coord, rotate. apply sumn_ext. intros i Hi. f_equal. apply sumn_ext. intros; ring. }
      rewrite E. reflexivity.
  Qed.
  Lemma rotate_spectral : forall (c : nat -> R) a b, (a < n)%nat -> (b < n)%nat ->
    rotate (fun i j => sumn n (fun k => entry V i k * c k * entry V j k)) a b = c a * delta a b.
  Proof.
    intros c a b Ha Hb. destruct He as (_ & _ & HV & _ & _). unfold rotate.
    transitivity (sumn n (fun i => entry V i a * (entry V i b * c b))).
    - apply sumn_ext. intros i Hi. f_equal.
      rewrite (sumn_ext n _ (fun j => sumn n (fun k => entry V i k * c k * (entry V j k * entry V j b)))).
      2:{ intros j Hj. rewrite <- sumn_scal_r. apply sumn_ext. intros; ring. }
      rewrite sumn_swap. rewrite (sumn_ext n _ (fun k => delta b k * (entry V i k * c k))).
      + apply sumn_delta_r. exact Hb.
      + intros k Hk. rewrite sumn_scal, HV by assumption. unfold delta. rewrite (Nat.eqb_sym k b). ring.
    - rewrite (sumn_ext n _ (fun i => entry V i a * entry V i b * c b)) by (intros; ring). rewrite sumn_scal_r, HV by assumption. unfold delta. destruct (Nat.eqb_spec a b) as [->|]; ring.
  Qed.
  Lemma rotate_minus : forall A B a b, rotate (fun i j => A i j - B i j) a b = rotate A a b - rotate B a b.
  Proof.
    intros. unfold rotate. rewrite <- sumn_minus. apply sumn_ext. intros i Hi. rewrite <- Rmult_minus_distr_l. f_equal. rewrite <- sumn_minus. apply sumn_ext. intros; ring.
  Qed.
  Lemma rotate_ext : forall A B a b, (forall i j, (i < n)%nat -> (j < n)%nat -> A i j = B i j) -> rotate A a b = rotate B a b.
  Proof. intros A B a b H. unfold rotate. apply sumn_ext. intros i Hi. f_equal. apply sumn_ext. intros j Hj. rewrite H by assumption. reflexivity. Qed.
  Lemma rotate_diag : forall A a, rotate A a a = bil n A (fun i => entry V i a) (fun i => entry V i a).
  Proof. intros. unfold rotate, bil. reflexivity. Qed.

  Definition plus_part (x : R) : R := if Rltb 0 x then x else 0.
  Definition spectral_fix : list (list R) := array n n (fun i j => sumn n (fun k => entry V i k * plus_part (nth k q 0) * entry V j k)).
  Lemma plus_part_nonneg : forall x, 0 <= plus_part x.
  Proof. intros x. unfold plus_part. destruct (Rltb 0 x) eqn:E; [apply Rltb_true in E; lra|lra]. Qed.
  Lemma spectral_psd : psd n spectral_fix /\ symmetric n spectral_fix.
  Proof.
    split.
    - apply psd_from_bil; [apply array_square|]. intros x.
      rewrite (bil_ext_M n _ (fun i j => sumn n (fun k => entry V i k * plus_part (nth k q 0) * entry V j k))) by (intros; apply array_entry; assumption).
      rewrite bil_spectral. apply sumn_nonneg. intros k Hk. apply Rmult_le_pos; [apply plus_part_nonneg|apply Rle_0_sqr].
    - intros i j Hi Hj. unfold spectral_fix. rewrite !array_entry by assumption. apply sumn_ext. intros; ring.
  Qed.
  Lemma spectral_nearest : forall P, psd n P -> distance2 n M spectral_fix <= distance2 n M P.
  Proof.
    intros P HP. unfold distance2.
    assert (EM : forall a b, (a < n)%nat -> (b < n)%nat -> rotate (entry M) a b = nth a q 0 * delta a b).
    { intros a b Ha Hb. rewrite <- (rotate_spectral (fun k => nth k q 0)) by assumption. apply rotate_ext. destruct He as (_ & _ & _ & _ & HM). exact HM. }
    assert (EF : forall a b, (a < n)%nat -> (b < n)%nat -> rotate (entry spectral_fix) a b = plus_part (nth a q 0) * delta a b).
    { intros a b Ha Hb. rewrite <- (rotate_spectral (fun k => plus_part (nth k q 0))) by assumption. apply rotate_ext. intros; apply array_entry; assumption. }
    rewrite (rotate_norm (fun i j => entry M i j - entry spectral_fix i j)), (rotate_norm (fun i j => entry M i j - entry P i j)).
    apply sumn_le. intros a Ha.
    apply Rle_trans with ((nth a q 0 - plus_part (nth a q 0)) * (nth a q 0 - plus_part (nth a q 0))).
    - rewrite (sumn_single n _ a Ha).
      + rewrite rotate_minus, EM, EF by assumption. unfold delta. rewrite Nat.eqb_refl. lra.
      + intros b Hb Hne. rewrite rotate_minus, EM, EF by assumption. unfold delta. destruct (Nat.eqb_spec a b); [congruence|ring].
    - apply Rle_trans with (rotate (fun i j => entry M i j - entry P i j) a a * rotate (fun i j => entry M i j - entry P i j) a a).
      + rewrite rotate_minus, EM by assumption. unfold delta. rewrite Nat.eqb_refl.
        assert (Hr : 0 <= rotate (entry P) a a) by (rewrite rotate_diag; apply psd_bil; exact HP).
        unfold plus_part. destruct (Rltb 0 (nth a q 0)) eqn:E; [replace (nth a q 0 - nth a q 0) with 0 by ring; rewrite Rmult_0_l; apply Rle_0_sqr|].
        apply Rltb_false in E. nra.
      + apply (sumn_term_le n (fun b => rotate (fun i j => entry M i j - entry P i j) a b * rotate (fun i j => entry M i j - entry P i j) a b) a); [intros; apply Rle_0_sqr|exact Ha].
  Qed.

  Lemma fold_min_le : forall l x, fold_left Rmin l x <= x /\ forall y, In y l -> fold_left Rmin l x <= y.
  Proof.
    induction l as [|a l IH]; intros x; [split; [cbn; lra|intros y []]|]. cbn [fold_left]. destruct (IH (Rmin x a)) as [I1 I2]. split.
    - pose proof (Rmin_l x a). lra.
    - intros y [<-|Hy]; [pose proof (Rmin_r x a); lra|apply I2; exact Hy].
  Qed.
  Lemma min_of_le : forall l y, In y l -> min_of l <= y.
  Proof. intros [|x l] y []; [subst; apply (proj1 (fold_min_le l y))|apply (proj2 (fold_min_le l x)); assumption]. Qed.
  Lemma fold_min_in : forall l x, In (fold_left Rmin l x) (x :: l).
  Proof.
    induction l as [|a l IH]; intros x; [left; reflexivity|]. cbn [fold_left]. destruct (IH (Rmin x a)) as [E|E].
    - rewrite <- E. unfold Rmin. destruct (Rle_dec x a); [left|right; left]; reflexivity.
    - right. right. exact E.
  Qed.
  Definition diag_fix : list (list R) := array n n (fun i j => entry M i j - 11 / 10 * min_of q * delta i j).
  Lemma negative_eigenvalue : square n M -> symmetric n M -> is_psd M = false -> min_of q < 0.
  Proof.
    intros HM Hs Hf. destruct (Rlt_dec (min_of q) 0) as [H|H]; [exact H|exfalso].
    assert (Hp : psd n M).
    { apply psd_from_bil; [exact HM|]. intros x. rewrite bil_M. apply sumn_nonneg. intros k Hk. apply Rmult_le_pos; [|apply Rle_0_sqr].
      assert (min_of q <= nth k q 0) by (apply min_of_le, nth_In; destruct He as [-> _]; exact Hk). lra. }
    rewrite (psd_passes n M Hp Hs) in Hf. discriminate Hf.
  Qed.
  Lemma diag_psd : symmetric n M -> min_of q < 0 -> psd n diag_fix /\ symmetric n diag_fix /\ is_psd diag_fix = true.
  Proof.
    intros Hs Hq. assert (P1 : psd n diag_fix).
    { apply psd_from_bil; [apply array_square|]. intros x.
      rewrite (bil_ext_M n _ (fun i j => entry M i j + (- (11 / 10 * min_of q)) * delta i j)) by (intros; unfold diag_fix; rewrite array_entry by assumption; ring).
      rewrite bil_plus_M, bil_delta, bil_M, <- parseval, <- sumn_scal, <- sumn_plus. apply sumn_nonneg. intros k Hk.
      assert (min_of q <= nth k q 0) by (apply min_of_le, nth_In; destruct He as [-> _]; exact Hk).
      assert (0 <= coord x k * coord x k) by apply Rle_0_sqr. nra. }
    assert (P2 : symmetric n diag_fix).
    { intros i j Hi Hj. unfold diag_fix. rewrite !array_entry by assumption. rewrite (Hs i j) by assumption. rewrite delta_sym. reflexivity. }
    split; [exact P1|]. split; [exact P2|]. apply (psd_passes n); assumption.
  Qed.
End Spectral.

(** C72 *)
Theorem fix_passing : forall eigh M fm, is_psd M = true -> fix_psd eigh M fm = Ok M.
Proof. intros eigh M fm H. unfold fix_psd. rewrite H. reflexivity. Qed.
Theorem fix_spectral : forall eigh n M, square n M -> symmetric n M -> eigen_of n M (fst (eigh M)) (snd (eigh M)) ->
  exists F, fix_psd eigh M "spectral" = Ok F /\ symmetric n F /\ nearly_psd eps16 n F /\
    (F = M \/ (psd n F /\ forall P, psd n P -> distance2 n M F <= distance2 n M P)).
Proof.
  intros eigh n M HM Hs He. unfold fix_psd. destruct (is_psd M) eqn:E.
  - exists M. split; [reflexivity|]. split; [exact Hs|]. split; [apply passes_nearly; assumption|left; reflexivity].
  - destruct (eigh M) as [q V]. cbn [fst snd] in He. cbn [String.eqb Ascii.eqb Bool.eqb]. destruct HM as [HL HR]. rewrite HL.
    destruct (spectral_psd n q V) as [P1 P2]. exists (spectral_fix n q V). split; [reflexivity|]. split; [exact P2|]. split.
    + split; [apply P1|]. intros w Hw. destruct P1 as [_ P1]. specialize (P1 w Hw). assert (0 <= inner w w). { rewrite (inner_vec n) by assumption. apply sumn_sq_nonneg. } pose proof eps16_pos. nra.
    + right. split; [exact P1|]. intros P HP. apply spectral_nearest; assumption.
Qed.
Theorem fix_diag : forall eigh n M, square n M -> symmetric n M -> eigen_of n M (fst (eigh M)) (snd (eigh M)) ->
  exists F, fix_psd eigh M "diag" = Ok F /\ symmetric n F /\ nearly_psd eps16 n F /\
    (F = M \/ (psd n F /\ is_psd F = true /\ exists c, 0 < c /\ forall i j, (i < n)%nat -> (j < n)%nat -> entry F i j = entry M i j + (if Nat.eqb i j then c else 0))).
Proof.
  intros eigh n M HM Hs He. unfold fix_psd. destruct (is_psd M) eqn:E.
  - exists M. split; [reflexivity|]. split; [exact Hs|]. split; [apply passes_nearly; assumption|left; reflexivity].
  - destruct (eigh M) as [q V]. cbn [fst snd] in He. cbn [String.eqb Ascii.eqb Bool.eqb].
    pose proof (negative_eigenvalue n M q V He HM Hs E) as Hneg. destruct (diag_psd n M q V He Hs Hneg) as (P1 & P2 & P3).
    exists (diag_fix n M q). split; [rewrite (proj1 HM); reflexivity|]. split; [exact P2|]. split; [apply passes_nearly; [apply array_square|exact P2|exact P3]|].
    right. split; [exact P1|]. split; [exact P3|]. exists (- (11 / 10 * min_of q)). split; [lra|]. intros i j Hi Hj. unfold diag_fix. rewrite array_entry by assumption. unfold delta. destruct (Nat.eqb i j); ring.
Qed.
Theorem fix_unknown : forall eigh M fm, fm <> "spectral"%string -> fm <> "diag"%string ->
  fix_psd eigh M fm = if is_psd M then Ok M else Err NotImplementedError.
Proof.
  intros eigh M fm H1 H2. unfold fix_psd. destruct (is_psd M); [reflexivity|]. destruct (eigh M). apply String.eqb_neq in H1, H2. rewrite H1, H2. reflexivity.
Qed.
(** a matrix that is not positive semidefinite, but only just, is returned as it is *)
Theorem fix_not_exact : exists M, square 1 M /\ symmetric 1 M /\ ~ psd 1 M /\ forall eigh fm, fix_psd eigh M fm = Ok M.
Proof.
  exists [[- (eps16 / 2)]]. pose proof eps16_pos as He. split; [split; [reflexivity|apply Forall_cons; [reflexivity|apply Forall_nil]]|]. split.
  { intros i j Hi Hj. replace i with O by lia. replace j with O by lia. reflexivity. }
  split.
  - intros [_ H]. specialize (H [1] eq_refl). unfold qform in H. cbn [map inner] in H. lra.
  - intros eigh fm. apply fix_passing. unfold is_psd. cbn [List.length cholesky]. unfold entry, delta. cbn [nth Nat.eqb]. rewrite andb_true_r. apply Rltb_true. lra.
Qed.
Theorem check_sound : forall n M, square n M -> symmetric n M ->
  (psd n M -> is_psd M = true) /\ (is_psd M = true -> nearly_psd (/ 10 ^ 16) n M).
Proof. intros n M HM Hs. split; [intros; apply (psd_passes n); assumption|apply passes_nearly; assumption]. Qed.
