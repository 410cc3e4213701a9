(** * Critical line algorithm: the linear algebra of one turning point *)
From Coq Require Import ZArith List Bool Reals Lra Lia Permutation.
From Verif Require Import Num Py MBase MCLA SLin SCLA RBase PyLemmas Sums Mat PBase PCLA1 PCLA2.
Import ListNotations.
Local Open Scope R_scope.

(** ** Vectors given on a list of positions *)
Definition ext (F : list nat) (v : list R) (i : nat) : R := total (map2 (fun f x => if Nat.eqb i f then x else 0) F v).
Lemma ext_nil : forall v i, ext [] v i = 0.
Proof. reflexivity. Qed.
Lemma ext_cons : forall f F x v i, ext (f :: F) (x :: v) i = (if Nat.eqb i f then x else 0) + ext F v i.
Proof. reflexivity. Qed.
Lemma ext_sum : forall n g F v, length F = length v -> (forall i, In i F -> (i < n)%nat) ->
  sumn n (fun i => g i * ext F v i) = inner (map g F) v.
Proof.
  intros n g. induction F as [|f F IH]; intros [|x v] Hl Hin; try discriminate.
  - cbn [map inner]. apply sumn_zero. intros i _. rewrite ext_nil. ring.
  - cbn [map inner]. rewrite (sumn_ext n _ (fun i => (if Nat.eqb i f then 1 else 0) * (g i * x) + g i * ext F v i)).
    2:{ intros i _. rewrite ext_cons. destruct (Nat.eqb i f); ring. }
    rewrite sumn_plus, IH by (try (cbn in Hl; lia); intros; apply Hin; right; assumption).
    f_equal. apply sumn_delta. apply Hin. left; reflexivity.
Qed.
Lemma ext_out : forall F v i, ~ In i F -> ext F v i = 0.
Proof.
  induction F as [|f F IH]; intros [|x v] i Hi; try reflexivity. rewrite ext_cons.
  destruct (Nat.eqb_spec i f) as [->|Hne]; [destruct Hi; left; reflexivity|]. rewrite IH by (intros H; apply Hi; right; exact H). ring.
Qed.
Lemma ext_in : forall F v k i, NoDup F -> length F = length v -> nth_error F k = Some i -> ext F v i = nth k v 0.
Proof.
  induction F as [|f F IH]; intros [|x v] k i Hn Hl Hk; try discriminate; [destruct k; discriminate|].
  rewrite ext_cons. inversion Hn; subst. destruct k as [|k]; cbn in Hk.
  - injection Hk as ->. rewrite Nat.eqb_refl, ext_out by assumption. cbn. ring.
  - assert (In i F) by (apply (nth_error_In _ _ Hk)). destruct (Nat.eqb_spec i f) as [->|Hne]; [contradiction|].
    cbn [nth]. rewrite (IH v k i) by (auto; cbn in Hl; lia). ring.
Qed.
Lemma ext_pick : forall F w i, NoDup F -> In i F -> ext F (pick w F) i = nth i w 0.
Proof.
  intros F w i Hn Hi. destruct (In_nth_error F i Hi) as [k Hk].
  rewrite (ext_in F (pick w F) k i) by (auto; unfold pick; rewrite map_length; reflexivity).
  unfold pick. assert (Hlt : (k < length F)%nat) by (apply nth_error_Some; congruence).
  rewrite (nth_indep _ 0 (nth 0%nat w 0)) by (rewrite map_length; exact Hlt).
  rewrite (map_nth (fun j => nth j w 0)). f_equal. apply nth_error_nth, Hk.
Qed.
Lemma put_all_nth : forall F v w i, NoDup F -> length F = length v -> (forall j, In j F -> (j < length w)%nat) ->
  nth i (put_all false F v w) 0 = if in_dec Nat.eq_dec i F then ext F v i else nth i w 0.
Proof.
  induction F as [|f F IH]; intros [|x v] w i Hn Hl Hin; try discriminate; [reflexivity|].
  cbn [put_all]. inversion Hn; subst. rewrite IH; auto.
  2:{ intros j Hj. rewrite put_length. apply Hin. right; exact Hj. }
  rewrite ext_cons. unfold put, stored.
  destruct (in_dec Nat.eq_dec i F) as [Hi|Hi], (in_dec Nat.eq_dec i (f :: F)) as [Hi'|Hi'].
  - destruct (Nat.eqb_spec i f) as [->|]; [contradiction|ring].
  - destruct Hi'; right; exact Hi.
  - destruct Hi' as [->|]; [|contradiction]. rewrite Nat.eqb_refl, ext_out, nth_list_set_same by (auto; apply Hin; left; reflexivity). ring.
  - rewrite nth_list_set_other; [reflexivity|]. intros ->. apply Hi'. left; reflexivity.
Qed.

Lemma others_in : forall ord n f i, set_order ord -> In i (others ord n f) <-> (i < n)%nat /\ ~ In i f.
Proof.
  intros ord n f i Ho. unfold others. rewrite (Permutation_in' (eq_refl i) (Ho _)), filter_In, in_seq, negb_true_iff.
  split.
  - intros [H1 H2]. split; [lia|]. intros Hi. assert (existsb (Nat.eqb i) f = true); [|congruence].
    apply existsb_exists. exists i. split; [exact Hi|apply Nat.eqb_refl].
  - intros [H1 H2]. split; [lia|]. destruct (existsb (Nat.eqb i) f) eqn:E; [|reflexivity].
    apply existsb_exists in E. destruct E as [j [Hj E]]. apply Nat.eqb_eq in E. subst. contradiction.
Qed.
Lemma others_nodup : forall ord n f, set_order ord -> NoDup (others ord n f).
Proof.
  intros ord n f Ho. unfold others. apply (Permutation_NoDup (Permutation_sym (Ho _))). apply NoDup_filter, seq_NoDup.
Qed.

(** ** List algebra *)
Lemma square_nth_length : forall k P i, square k P -> (i < k)%nat -> length (nth i P []) = k.
Proof. intros. apply square_row; assumption. Qed.
Lemma mv_nth : forall M x i, (i < length M)%nat -> nth i (mat_vec M x) 0 = inner (nth i M []) x.
Proof. intros. apply nth_map_inner. assumption. Qed.
Lemma inner_scale_add : forall r x y z c d, length x = length y -> length y = length z ->
  inner r (map2 (fun a b => a + b) (map2 (fun a b => (- a) + b) x (map (fun a => c * a) y)) (map (fun a => d * a) z)) =
  - inner r x + c * inner r y + d * inner r z.
Proof.
  induction r as [|u r IH]; intros [|a x] [|b y] [|e z] c d H1 H2; try discriminate; cbn [map map2 inner]; try lra.
  rewrite IH by (cbn in *; lia). ring.
Qed.
Lemma total_is_inner : forall l, total l = inner l (repeat 1 (length l)).
Proof. intros. symmetry. apply inner_ones. reflexivity. Qed.
Lemma inner_comm : forall x y, inner x y = inner y x.
Proof. induction x as [|a x IH]; intros [|b y]; cbn [inner]; try reflexivity. rewrite IH. ring. Qed.
Lemma total_comb : forall x y z c d, length x = length y -> length y = length z ->
  total (map2 (fun a b => a + b) (map2 (fun a b => (- a) + b) x (map (fun a => c * a) y)) (map (fun a => d * a) z)) =
  - total x + c * total y + d * total z.
Proof.
  induction x as [|a x IH]; intros [|b y] [|e z] c d H1 H2; try discriminate; cbn [map map2 total]; try lra.
  rewrite IH by (cbn in *; lia). ring.
Qed.
Lemma nth_comb : forall x y z c d i, length x = length y -> length y = length z ->
  nth i (map2 (fun a b => a + b) (map2 (fun a b => (- a) + b) x (map (fun a => c * a) y)) (map (fun a => d * a) z)) 0 =
  - nth i x 0 + c * nth i y 0 + d * nth i z 0.
Proof.
  induction x as [|a x IH]; intros [|b y] [|e z] c d [|i] H1 H2; try discriminate; cbn [map map2 nth]; try ring.
  apply IH; cbn in *; lia.
Qed.
Lemma length_comb : forall x y z (c d : R), length x = length y -> length y = length z ->
  length (map2 (fun a b => a + b) (map2 (fun a b => (- a) + b) x (map (fun a => c * a) y)) (map (fun a => d * a) z)) = length x.
Proof. intros. rewrite !map2_length, !map_length. lia. Qed.
(** P applied to a combination *)
Lemma mat_vec_comb : forall k P x y z c d, square k P -> length x = k -> length y = k -> length z = k ->
  mat_vec P (map2 (fun a b => a + b) (map2 (fun a b => (- a) + b) x (map (fun a => c * a) y)) (map (fun a => d * a) z)) =
  map2 (fun a b => a + b) (map2 (fun a b => (- a) + b) (mat_vec P x) (map (fun a => c * a) (mat_vec P y))) (map (fun a => d * a) (mat_vec P z)).
Proof.
  intros k P x y z c d [HP _] Hx Hy Hz. apply nth_ext0.
  - rewrite length_comb, !mat_vec_length by (rewrite !mat_vec_length; reflexivity). reflexivity.
  - intros i Hi. rewrite mat_vec_length in Hi. rewrite nth_comb by (rewrite !mat_vec_length; reflexivity).
    rewrite !mv_nth by exact Hi. apply inner_scale_add; congruence.
Qed.
Lemma colsums_dot : forall k P v, square k P -> length v = k -> dot (colsums k P) v = total (mat_vec P v).
Proof.
  intros k P v HP Hv. rewrite dot_inner. unfold colsums.
  rewrite inner_sumn by (rewrite map_length, seq_length; auto). rewrite map_length, seq_length.
  rewrite total_sumn, mat_vec_length, (proj1 HP).
  rewrite (sumn_ext k _ (fun j => sumn k (fun i => entry P i j * nth j v 0))).
  2:{ intros j Hj. rewrite (nth_indep _ 0 (vsum (map (fun r : list R => nth 0%nat r 0) P))) by (rewrite map_length, seq_length; exact Hj).
      rewrite (map_nth (fun j => vsum (map (fun r : list R => nth j r 0) P))), seq_nth by exact Hj. cbn [plus].
      rewrite vsum_total, total_sumn, map_length, (proj1 HP), sumn_scal_r. f_equal. apply sumn_ext. intros i Hi. unfold entry.
      rewrite (nth_indep _ 0 (nth j (@nil R) 0)) by (rewrite map_length, (proj1 HP); exact Hi).
      apply (map_nth (fun r : list R => nth j r 0)). }
  rewrite sumn_swap. apply sumn_ext. intros i Hi. unfold mat_vec. rewrite (matvec_nth k) by assumption. reflexivity.
Qed.
Lemma matmul_vec : forall k m P Q v, square k P -> (0 < k)%nat -> length Q = k -> Forall (fun r => length r = m) Q -> length v = m ->
  matvec (matmul P Q) v = mat_vec P (mat_vec Q v).
Proof.
  intros k m P Q v HP Hk HQ HQm Hv. rewrite matvec_inner. unfold matmul, mat_vec. rewrite !map_map.
  apply map_ext_in. intros row Hrow. destruct HP as [HPl HPr]. rewrite Forall_forall in HPr. specialize (HPr row Hrow).
  assert (Hhd : length (hd [] Q) = m).
  { destruct Q as [|q Q]; [cbn in HQ; lia|]. inversion HQm; assumption. }
  rewrite Hhd.
  rewrite inner_sumn by (rewrite map_length, seq_length; auto). rewrite map_length, seq_length.
  rewrite (inner_sumn row) by (rewrite map_length; lia). rewrite HPr.
  rewrite (sumn_ext m _ (fun j => sumn k (fun i => nth i row 0 * nth j (nth i Q []) 0 * nth j v 0))).
  2:{ intros j Hj. rewrite (nth_indep _ 0 (dot row (map (fun r : list R => nth 0%nat r 0) Q))) by (rewrite map_length, seq_length; exact Hj).
      rewrite (map_nth (fun j => dot row (map (fun r : list R => nth j r 0) Q))), seq_nth by exact Hj. cbn [plus].
      rewrite dot_inner, inner_sumn by (rewrite map_length; lia). rewrite HPr, sumn_scal_r. f_equal. apply sumn_ext. intros i Hi. f_equal.
      rewrite (nth_indep _ 0 (nth j (@nil R) 0)) by (rewrite map_length; lia). apply (map_nth (fun r : list R => nth j r 0)). }
  rewrite sumn_swap. apply sumn_ext. intros i Hi. rewrite nth_map_inner by lia.
  rewrite inner_sumn by (rewrite Forall_forall in HQm; rewrite (HQm (nth i Q [])) by (apply nth_In; lia); auto).
  rewrite Forall_forall in HQm. rewrite (HQm (nth i Q [])) by (apply nth_In; lia).
  rewrite <- sumn_scal. apply sumn_ext. intros; ring.
Qed.

(** ** The slices *)
Section Slices.
  Variables (n : nat) (cov : list (list R)) (ord : list nat -> list nat) (f : list nat) (wl : list R).
  Hypotheses (Hcov : square n cov) (Hord : set_order ord) (Hf : free_set n f) (Hwl : length wl = n).
  Notation B := (others ord n f).
  Notation k := (length f).
  Definition slice (X Y : list nat) : list (list R) := map (fun i => map (fun j => entry cov i j) Y) X.
  Lemma k_pos : (0 < k)%nat.
  Proof. destruct Hf as [H _]. destruct f; [congruence|cbn; lia]. Qed.
  Lemma reduce_ff : mat_or_empty (reduce cov f f) = slice f f.
  Proof. destruct Hf as [H _]. unfold reduce. destruct f as [|i f']; [congruence|]. reflexivity. Qed.
  Lemma reduce_fb : mat_or_empty (reduce cov f B) = match B with [] => [] | _ => slice f B end.
  Proof. destruct Hf as [H _]. unfold reduce. destruct f as [|i f']; [congruence|]. destruct (others ord n (i :: f')); reflexivity. Qed.
  Lemma slice_square : square k (slice f f).
  Proof. split; [apply map_length|]. apply Forall_forall. intros r Hr. apply in_map_iff in Hr. destruct Hr as [i [<- _]]. apply map_length. Qed.
  Lemma slice_row : forall X Y j i, nth_error X j = Some i -> nth j (slice X Y) [] = map (fun j => entry cov i j) Y.
  Proof.
    intros X Y j i H. apply nth_error_nth. unfold slice. rewrite nth_error_map, H. reflexivity.
  Qed.

  (** the fixed part of the marginal variances and of the budget *)
  Definition fixed : list R := pick wl B.
  Definition fixed_cov : list R := mat_vec (slice f B) fixed.
  Lemma fixed_length : length fixed = length B.
  Proof. apply map_length. Qed.
  Lemma fixed_cov_length : length fixed_cov = k.
  Proof. unfold fixed_cov. rewrite mat_vec_length. apply map_length. Qed.
  Lemma fixed_cov_nil : B = [] -> fixed_cov = repeat 0 k.
  Proof.
    intros E. unfold fixed_cov, fixed, slice. rewrite E. cbn [pick map]. unfold mat_vec. rewrite map_map. cbn [inner].
    clear. induction f as [|i f' IH]; cbn; [reflexivity|]. f_equal. exact IH.
  Qed.

  (** a full vector from its free and its fixed part *)
  Lemma full_split : forall v w, length v = k -> length w = n -> (forall i, In i f -> nth i w 0 = ext f v i) ->
    (forall i, (i < n)%nat -> ~ In i f -> nth i w 0 = nth i wl 0) ->
    total w = total v + total fixed /\
    forall i, (i < n)%nat -> inner (nth i cov []) w = inner (map (fun j => entry cov i j) f) v + inner (map (fun j => entry cov i j) B) fixed.
  Proof.
    intros v w Hv Hw H1 H2.
    assert (Hx : forall i, (i < n)%nat -> nth i w 0 = ext f v i + ext B fixed i).
    { intros i Hi. destruct (in_dec Nat.eq_dec i f) as [Hin|Hin].
      - rewrite H1 by exact Hin. rewrite (ext_out B) by (rewrite others_in by exact Hord; tauto). ring.
      - rewrite (ext_out f) by exact Hin. unfold fixed. rewrite ext_pick by (try apply others_nodup; try apply others_in; auto).
        rewrite H2 by assumption. ring. }
    assert (Hs : forall g, sumn n (fun i => g i * nth i w 0) = inner (map g f) v + inner (map g B) fixed).
    { intros g. rewrite (sumn_ext n _ (fun i => g i * ext f v i + g i * ext B fixed i)) by (intros i Hi; rewrite Hx by exact Hi; ring).
      rewrite sumn_plus, !ext_sum; auto.
      - apply eq_sym, fixed_length.
      - intros i Hi. apply others_in in Hi; tauto.
      - destruct Hf as [_ [_ H]]. exact H. }
    split.
    - rewrite total_sumn, Hw. rewrite (sumn_ext n _ (fun i => 1 * nth i w 0)) by (intros; ring). rewrite (Hs (fun _ => 1)).
      assert (Hone : forall (l : list nat) u, length u = length l -> inner (map (fun _ => 1) l) u = total u).
      { induction l as [|a l IH]; intros [|y u] Hu; try discriminate; [reflexivity|]. cbn [map inner total]. rewrite IH by (cbn in Hu; lia). ring. }
      rewrite !Hone by (auto; apply fixed_length). reflexivity.
    - intros i Hi. rewrite inner_sumn by (rewrite (square_row n) by assumption; auto). rewrite (square_row n) by assumption.
      apply (Hs (fun j => entry cov i j)).
  Qed.

  (** *** _compute_w and _compute_lambda in closed form *)
  Section Inverse.
    Variable P : list (list R).
    Hypothesis HP : right_inverse k (slice f f) P.
    Lemma P_square : square k P.
    Proof. apply HP. Qed.
    Definition a1 : list R := mat_vec P fixed_cov.
    Definition a2 : list R := mat_vec P (repeat 1 k).
    Definition a3 (mF : list R) : list R := mat_vec P mF.
    Lemma a_lengths : forall mF, length a1 = k /\ length a2 = k /\ length (a3 mF) = k.
    Proof. intros. unfold a1, a2, a3. rewrite !mat_vec_length. pose proof (proj1 P_square). auto. Qed.
    Definition gam (mF : list R) (l : R) : R := (- l) * total (a3 mF) / total a2 + (1 - total fixed + total a1) / total a2.
    Definition free_part (mF : list R) (l : R) : list R :=
      map2 (fun a b => a + b) (map2 (fun a b => (- a) + b) a1 (map (fun a => gam mF l * a) a2)) (map (fun a => l * a) (a3 mF)).

    Lemma compute_w_eq : forall mF l, length mF = k ->
      compute_w P (reduce cov f B) mF (reduce_col wl B) l =
      (if Reqb (total a2) 0 then Err FloatSpecial else Ok (free_part mF l, gam mF l)).
    Proof.
      intros mF l Hm. unfold compute_w. rewrite Hm. unfold ones. runfold.
      rewrite !colsums_dot by (try apply P_square; auto; apply repeat_length). fold a2. fold (a3 mF).
      destruct (Reqb (total a2) 0); [reflexivity|].
      assert (E2 : matvec P (repeat 1 k) = a2) by apply matvec_inner.
      assert (E3 : matvec P mF = a3 mF) by apply matvec_inner.
      rewrite E2, E3. unfold reduce_col.
      destruct B as [|b0 B0] eqn:EB.
      - unfold free_part, gam. assert (Ea1 : a1 = repeat 0 k).
        { unfold a1. rewrite fixed_cov_nil by exact EB. apply nth_ext0; [rewrite mat_vec_length, repeat_length; apply P_square|].
          intros i Hi. rewrite mat_vec_length in Hi. rewrite mv_nth, nth_repeat by exact Hi. clear.
          generalize (nth i P []) k. induction l as [|x l IH]; intros [|m]; cbn; try reflexivity. rewrite IH. ring. }
        assert (Et : forall m, total (repeat 0 m) = 0) by (induction m as [|m IH]; cbn; [reflexivity|rewrite IH; ring]).
        rewrite Ea1, Et. unfold fixed. rewrite EB. cbn [pick map total].
        replace (1 - 0 + 0) with 1 by ring. f_equal. f_equal.
        apply nth_ext0.
        + destruct (a_lengths mF) as [_ [L2 L3]]. rewrite !map2_length, !map_length, repeat_length. lia.
        + intros i Hi. destruct (a_lengths mF) as [_ [L2 L3]]. rewrite nth_comb by (rewrite ?repeat_length; congruence). rewrite nth_repeat.
          assert (Hn2 : forall (x y : list R) c d j, length x = length y ->
            nth j (map2 (fun a b => a + b) (map (fun a => c * a) x) (map (fun a => d * a) y)) 0 = c * nth j x 0 + d * nth j y 0).
          { induction x as [|u x IH]; intros [|v y] c d [|j] Hl; try discriminate; cbn [map map2 nth]; try ring. apply IH. cbn in Hl; lia. }
          rewrite Hn2 by congruence. ring.
      - assert (E1 : matvec (matmul P (mat_or_empty (reduce cov f (b0 :: B0)))) (pick wl (b0 :: B0)) = a1).
        { unfold a1, fixed_cov, fixed. rewrite EB.
          rewrite (matmul_vec k (length (b0 :: B0)) P); try apply P_square; try apply k_pos; try apply map_length.
          - f_equal. f_equal. rewrite <- EB, reduce_fb, EB. reflexivity.
          - rewrite <- EB, reduce_fb, EB. apply map_length.
          - rewrite <- EB, reduce_fb, EB. apply Forall_forall. intros r Hr. apply in_map_iff in Hr. destruct Hr as [i [<- _]]. apply map_length. }
        rewrite E1, !vsum_total. unfold free_part, gam, fixed. rewrite EB. reflexivity.
    Qed.

    (** the free part solves the equations *)
    Lemma free_part_solves : forall mF l, length mF = k -> total a2 <> 0 ->
      total (free_part mF l) + total fixed = 1 /\
      forall j i, nth_error f j = Some i ->
        inner (map (fun c => entry cov i c) f) (free_part mF l) + inner (map (fun c => entry cov i c) B) fixed - l * nth j mF 0 = gam mF l.
    Proof.
      intros mF l Hm H2. destruct (a_lengths mF) as [L1 [L2 L3]]. split.
      - unfold free_part. rewrite total_comb by congruence. unfold gam. field. exact H2.
      - intros j i Hj. assert (Hjk : (j < k)%nat) by (apply nth_error_Some; congruence).
        assert (E : mat_vec (slice f f) (free_part mF l) =
          map2 (fun a b => a + b) (map2 (fun a b => (- a) + b) fixed_cov (map (fun a => gam mF l * a) (repeat 1 k))) (map (fun a => l * a) mF)).
        { unfold free_part, a1, a2, a3. rewrite <- (mat_vec_comb k) by (try apply P_square; auto using fixed_cov_length, repeat_length).
          apply HP. rewrite length_comb; rewrite ?fixed_cov_length, ?repeat_length; auto. }
        assert (En : nth j (mat_vec (slice f f) (free_part mF l)) 0 = - nth j fixed_cov 0 + gam mF l * 1 + l * nth j mF 0).
        { rewrite E, nth_comb by (rewrite ?fixed_cov_length, ?repeat_length; auto).
          rewrite (nth_indep (repeat 1 k) 0 1) by (rewrite repeat_length; exact Hjk). rewrite nth_repeat. reflexivity. }
        rewrite mv_nth in En by (unfold slice; rewrite map_length; exact Hjk). rewrite (slice_row f f j i Hj) in En. rewrite En.
        unfold fixed_cov. rewrite mv_nth by (unfold slice; rewrite map_length; exact Hjk). rewrite (slice_row f B j i Hj). ring.
    Qed.

    Definition lam_c (mF : list R) (j : nat) : R := - total a2 * nth j (a3 mF) 0 + total (a3 mF) * nth j a2 0.
    Definition lam_b (c : R) (bi : bound_arg (A:=R)) : R := match bi with BothBounds lo hi => if Rltb 0 c then hi else lo | OneBound b => b end.
    Lemma compute_lambda_eq : forall mF j bi, length mF = k ->
      compute_lambda P (reduce cov f B) mF (reduce_col wl B) j bi =
      let c := lam_c mF j in
      if Reqb c 0 then None
      else Some (((1 - total fixed + total a1) * nth j a2 0 - total a2 * (lam_b c bi + nth j a1 0)) / c, lam_b c bi).
    Proof.
      intros mF j bi Hm. unfold compute_lambda. rewrite Hm. unfold ones. runfold.
      rewrite !colsums_dot by (try apply P_square; auto; apply repeat_length).
      assert (E2 : matvec P (repeat 1 k) = a2) by apply matvec_inner.
      assert (E3 : matvec P mF = a3 mF) by apply matvec_inner.
      rewrite E2, E3. fold a2. fold (a3 mF). cbv zeta. fold (lam_c mF j). destruct (Reqb (lam_c mF j) 0); [reflexivity|].
      assert (Eb : match bi with BothBounds lo hi => compute_bi (lam_c mF j) lo hi | OneBound b => b end = lam_b (lam_c mF j) bi).
      { destruct bi; reflexivity. }
      rewrite Eb. unfold reduce_col. destruct B as [|b0 B0] eqn:EB.
      - assert (Ea1 : a1 = repeat 0 k).
        { unfold a1. rewrite fixed_cov_nil by exact EB. apply nth_ext0; [rewrite mat_vec_length, repeat_length; apply P_square|].
          intros i Hi. rewrite mat_vec_length in Hi. rewrite mv_nth, nth_repeat by exact Hi. clear.
          generalize (nth i P []) k. induction l as [|x l IH]; intros [|m]; cbn; try reflexivity. rewrite IH. ring. }
        assert (Et : forall m, total (repeat 0 m) = 0) by (induction m as [|m IH]; cbn; [reflexivity|rewrite IH; ring]).
        rewrite Ea1, Et, nth_repeat. unfold fixed. rewrite EB. cbn [pick map total]. f_equal. f_equal. f_equal. ring.
      - assert (E1 : matvec (matmul P (mat_or_empty (reduce cov f (b0 :: B0)))) (pick wl (b0 :: B0)) = a1).
        { unfold a1, fixed_cov, fixed. rewrite EB.
          rewrite (matmul_vec k (length (b0 :: B0)) P); try apply P_square; try apply k_pos; try apply map_length.
          - f_equal. f_equal. rewrite <- EB, reduce_fb, EB. reflexivity.
          - rewrite <- EB, reduce_fb, EB. apply map_length.
          - rewrite <- EB, reduce_fb, EB. apply Forall_forall. intros r Hr. apply in_map_iff in Hr. destruct Hr as [i [<- _]]. apply map_length. }
        rewrite E1, !vsum_total. unfold fixed. rewrite EB. reflexivity.
    Qed.

    (** weight of the j-th free asset as a function of lambda *)
    Lemma free_part_nth : forall mF l j, length mF = k -> total a2 <> 0 ->
      nth j (free_part mF l) 0 = ((1 - total fixed + total a1) * nth j a2 0 - total a2 * nth j a1 0 - l * lam_c mF j) / total a2.
    Proof.
      intros mF l j Hm H2. destruct (a_lengths mF) as [L1 [L2 L3]]. unfold free_part. rewrite nth_comb by congruence.
      unfold gam, lam_c. field. exact H2.
    Qed.
  End Inverse.
End Slices.

(** ** C50 *)
Lemma matrices_ok : forall inv ord (mean : list R) cov f wl P FB mF wB, matrices inv ord mean cov f wl = Ok (P, FB, mF, wB) ->
  free_set (length mean) f ->
  inv (slice cov f f) = Ok P /\ FB = reduce cov f (others ord (length mean) f) /\ mF = pick mean f /\ wB = reduce_col wl (others ord (length mean) f).
Proof.
  intros inv ord mean cov f wl P FB mF wB E Hf. unfold matrices, size in E. rewrite (reduce_ff (length mean)) in E by exact Hf.
  destruct (inv (slice cov f f)) as [P'|e]; [|discriminate]. cbn [rbind] in E. injection E as <- <- <- <-. auto.
Qed.
Lemma pick_length : forall (v : list R) X, length (pick v X) = length X.
Proof. intros. apply map_length. Qed.
Lemma pick_nth : forall (v : list R) X j i, nth_error X j = Some i -> nth j (pick v X) 0 = nth i v 0.
Proof. intros v X j i H. apply nth_error_nth. unfold pick. rewrite nth_error_map, H. reflexivity. Qed.

(** the vector with the computed free weights, for any vector of means used for the free assets *)
Theorem point_solves : forall inv ord (mean : list R) cov f wl P FB mF0 wB mF l wF g w,
  sound_inverse inv -> set_order ord -> square (length mean) cov -> free_set (length mean) f -> length wl = length mean ->
  matrices inv ord mean cov f wl = Ok (P, FB, mF0, wB) -> length mF = length f ->
  compute_w P FB mF wB l = Ok (wF, g) -> length w = length mean ->
  (forall i, In i f -> nth i w 0 = ext f wF i) -> agrees_off f w wl ->
  total w = 1 /\ forall j i, nth_error f j = Some i -> inner (nth i cov []) w - l * nth j mF 0 = g.
Proof.
  intros inv ord mean cov f wl P FB mF0 wB mF l wF g w Hinv Hord Hcov Hf Hwl Em HmF Ew Hw H1 [_ H2].
  destruct (matrices_ok _ _ _ _ _ _ _ _ _ _ Em Hf) as [EP [-> [-> ->]]].
  pose proof (Hinv _ _ _ (slice_square cov f) EP) as HP.
  rewrite (compute_w_eq (length mean) cov ord f wl Hf Hwl P HP) in Ew by exact HmF.
  destruct (Reqb (total (a2 f P)) 0) eqn:E2; [discriminate|]. rprop. injection Ew as <- <-.
  destruct (free_part_solves (length mean) cov ord f wl P HP mF l HmF E2) as [S1 S2].
  assert (Hlen : length (free_part (length mean) cov ord f wl P mF l) = length f).
  { unfold free_part. destruct (a_lengths (length mean) cov ord f wl P HP mF) as [L1 [L2 L3]]. rewrite length_comb; congruence. }
  destruct (full_split (length mean) cov ord f wl Hcov Hord Hf Hwl _ w Hlen Hw H1) as [T1 T2].
  { intros i Hi Hn. apply H2, Hn. }
  split; [lra|]. intros j i Hj. rewrite T2.
  - apply S2, Hj.
  - destruct Hf as [_ [_ Hf]]. apply Hf, (nth_error_In _ _ Hj).
Qed.

Lemma put_all_split : forall f (v w : list R), NoDup f -> length f = length v -> (forall j, In j f -> (j < length w)%nat) ->
  (forall i, In i f -> nth i (put_all false f v w) 0 = ext f v i) /\ agrees_off f (put_all false f v w) w.
Proof.
  intros f v w Hn Hl Hin. split; [|split; [apply put_all_length|]]; intros i Hi; rewrite put_all_nth by assumption;
    destruct (in_dec Nat.eq_dec i f); tauto.
Qed.
Lemma compute_w_length : forall inv ord (mean : list R) cov f wl P FB mF0 wB mF l wF g,
  sound_inverse inv -> free_set (length mean) f -> length wl = length mean ->
  matrices inv ord mean cov f wl = Ok (P, FB, mF0, wB) -> length mF = length f ->
  compute_w P FB mF wB l = Ok (wF, g) -> length wF = length f.
Proof.
  intros inv ord mean cov f wl P FB mF0 wB mF l wF g Hinv Hf Hwl Em HmF Ew.
  destruct (matrices_ok _ _ _ _ _ _ _ _ _ _ Em Hf) as [EP [-> [-> ->]]].
  pose proof (Hinv _ _ _ (slice_square cov f) EP) as HP.
  rewrite (compute_w_eq (length mean) cov ord f wl Hf Hwl P HP) in Ew by exact HmF.
  destruct (Reqb (total (a2 f P)) 0); [discriminate|]. injection Ew as <- <-.
  unfold free_part. destruct (a_lengths (length mean) cov ord f wl P HP mF) as [L1 [L2 L3]]. rewrite length_comb; congruence.
Qed.

Theorem weights_stationary : forall inv ord (mean : list R) cov f wl P FB mF wB l wF g,
  sound_inverse inv -> set_order ord -> square (length mean) cov -> free_set (length mean) f -> length wl = length mean ->
  matrices inv ord mean cov f wl = Ok (P, FB, mF, wB) -> compute_w P FB mF wB l = Ok (wF, g) ->
  let w := put_all false f wF wl in
  agrees_off f w wl /\ total w = 1 /\ stationary mean cov f l g w.
Proof.
  intros inv ord mean cov f wl P FB mF wB l wF g Hinv Hord Hcov Hf Hwl Em Ew w.
  pose proof (proj1 (proj2 (proj2 (matrices_ok _ _ _ _ _ _ _ _ _ _ Em Hf)))) as HmF.
  assert (HmFl : length mF = length f) by (rewrite HmF; apply pick_length).
  assert (HwF : length f = length wF) by (symmetry; apply (compute_w_length inv ord mean cov f wl P FB mF wB mF l wF g); auto).
  destruct (put_all_split f wF wl) as [H1 H2].
  - apply Hf.
  - exact HwF.
  - intros j Hj. rewrite Hwl. apply Hf, Hj.
  - split; [exact H2|].
    destruct (point_solves inv ord mean cov f wl P FB mF wB mF l wF g w) as [T1 T2]; auto.
    + unfold w. rewrite put_all_length. exact Hwl.
    + split; [exact T1|]. intros i Hi. destruct (In_nth_error f i Hi) as [j Hj]. rewrite <- (T2 j i Hj).
      rewrite HmF, (pick_nth mean f j i Hj). reflexivity.
Qed.

Theorem lambda_hits_bound : forall inv ord (mean : list R) cov f wl P FB mF wB j bi l b wF g,
  sound_inverse inv -> free_set (length mean) f -> length wl = length mean ->
  matrices inv ord mean cov f wl = Ok (P, FB, mF, wB) -> compute_lambda P FB mF wB j bi = Some (l, b) ->
  compute_w P FB mF wB l = Ok (wF, g) ->
  nth j wF 0 = b /\ match bi with BothBounds lo hi => b = lo \/ b = hi | OneBound b' => b = b' end.
Proof.
  intros inv ord mean cov f wl P FB mF wB j bi l b wF g Hinv Hf Hwl Em El Ew.
  pose proof (matrices_ok _ _ _ _ _ _ _ _ _ _ Em Hf) as [EP [-> [HmF ->]]].
  assert (HmFl : length mF = length f) by (rewrite HmF; apply pick_length).
  pose proof (Hinv _ _ _ (slice_square cov f) EP) as HP.
  rewrite (compute_w_eq (length mean) cov ord f wl Hf Hwl P HP) in Ew by exact HmFl.
  rewrite (compute_lambda_eq (length mean) cov ord f wl Hf Hwl P HP) in El by exact HmFl. cbv zeta in El.
  destruct (Reqb (total (a2 f P)) 0) eqn:E2; [discriminate|]. destruct (Reqb (lam_c f P mF j) 0) eqn:Ec; [discriminate|]. rprop.
  injection Ew as <- <-. injection El as El Eb. split.
  - rewrite (free_part_nth (length mean) cov ord f wl P HP) by assumption. rewrite <- El, <- Eb. field. split; assumption.
  - rewrite <- Eb. destruct bi; cbn [lam_b]; [destruct (Rltb 0 (lam_c f P mF j)); auto|reflexivity].
Qed.
