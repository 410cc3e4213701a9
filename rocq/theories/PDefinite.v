(** * Which covariance estimates are positive definite (C135) *)
From Coq Require Import ZArith List String Bool Reals Lra Lia.
From Verif Require Import Num Py MBase MFrame MRisk SLin SBase SHRP SReturns SRisk SConvex SUnique Sums Mat PBase PRisk PCov1 PCov2 PCov3 PCov4 PGaps3.
Import ListNotations.
Local Open Scope R_scope.
Local Notation len := List.length.

(** ** fewer equations than unknowns *)
Definition skip (p j : nat) : nat := if (j <? p)%nat then j else S j.
Lemma sumn_skip : forall n p f, (p <= n)%nat -> sumn (S n) f = f p + sumn n (fun j => f (skip p j)).
Proof.
  induction n as [|n IH]; intros p f Hp.
  - assert (p = 0%nat) by lia. subst. cbn. ring.
  - cbn [sumn]. destruct (Nat.eq_dec p (S n)) as [->|Hne].
    + assert (E : sumn n (fun j => f (skip (S n) j)) = sumn n f).
      { apply sumn_ext. intros i Hi. unfold skip. replace (i <? S n)%nat with true by (symmetry; apply Nat.ltb_lt; lia). reflexivity. }
      rewrite E. unfold skip. replace (n <? S n)%nat with true by (symmetry; apply Nat.ltb_lt; lia). ring.
    + specialize (IH p f ltac:(lia)). cbn [sumn] in IH. assert (Es : skip p n = S n) by (unfold skip; replace (n <? p)%nat with false by (symmetry; apply Nat.ltb_ge; lia); reflexivity). rewrite IH, Es. ring.
Qed.
Lemma kernel : forall m n (A : nat -> nat -> R), (m < n)%nat ->
  exists v : nat -> R, (exists i, (i < n)%nat /\ v i <> 0) /\ forall k, (k < m)%nat -> sumn n (fun j => A k j * v j) = 0.
Proof.
  induction m as [|m IH]; intros n A Hn.
  - exists (fun _ => 1). split; [exists 0%nat; split; [lia|lra]|intros; lia].
  - destruct (nonzero_dec n (A m)) as [(p & Hp & Hnz)|Hz].
    + destruct n as [|n]; [lia|]. destruct (IH n (fun k j => A k (skip p j) - A k p / A m p * A m (skip p j)) ltac:(lia)) as (v & (i & Hi & Hv) & Hk).
      set (S0 := sumn n (fun j => A m (skip p j) * v j)).
      set (w := fun i => if Nat.eqb i p then - S0 / A m p else v (if (i <? p)%nat then i else pred i)).
      assert (Hw : forall j, w (skip p j) = v j).
      { intros j. unfold w, skip. destruct (Nat.ltb_spec j p) as [H|H].
        - replace (Nat.eqb j p) with false by (symmetry; apply Nat.eqb_neq; lia). replace (j <? p)%nat with true by (symmetry; apply Nat.ltb_lt; lia). reflexivity.
        - replace (Nat.eqb (S j) p) with false by (symmetry; apply Nat.eqb_neq; lia). replace (S j <? p)%nat with false by (symmetry; apply Nat.ltb_ge; lia). reflexivity. }
      assert (Hwp : w p = - S0 / A m p) by (unfold w; rewrite Nat.eqb_refl; reflexivity).
      assert (Hs : forall k, sumn (S n) (fun j => A k j * w j) = A k p * (- S0 / A m p) + sumn n (fun j => A k (skip p j) * v j)).
      { intros k. rewrite (sumn_skip n p) by lia. rewrite Hwp. f_equal. apply sumn_ext. intros j Hj. rewrite Hw. reflexivity. }
      exists w. split.
      * exists (skip p i). split; [unfold skip; destruct (i <? p)%nat; lia|rewrite Hw; exact Hv].
      * intros k Hkm. rewrite Hs. destruct (Nat.eq_dec k m) as [->|Hne]; [fold S0; field; exact Hnz|].
        specialize (Hk k ltac:(lia)). rewrite (sumn_ext n _ (fun j => A k (skip p j) * v j - A k p / A m p * (A m (skip p j) * v j))) in Hk by (intros; ring).
        rewrite sumn_minus, sumn_scal in Hk. fold S0 in Hk. unfold Rdiv in *. lra.
    + destruct (IH n A ltac:(lia)) as (v & Hv & Hk). exists v. split; [exact Hv|]. intros k Hkm. destruct (Nat.eq_dec k m) as [->|Hne]; [|apply Hk; lia].
      apply sumn_zero. intros j Hj. rewrite Hz by exact Hj. ring.
Qed.

(** ** the sample covariance of few days is singular *)
Lemma constant_series : forall T c l, (1 <= T)%nat -> len l = T -> Forall (fun v => v = c) l -> sample_covariance l l = 0.
Proof.
  intros T c l HT Hl H. unfold sample_covariance. rewrite (average_const l c); [|destruct l; [cbn in Hl; lia|discriminate]|exact H].
  assert (E : total (map (fun k => (nth k l 0 - c) * (nth k l 0 - c)) (seq 0 (len l))) = 0); [|rewrite E; unfold Rdiv; ring].
  assert (G : Forall (fun a => a = 0) (map (fun k => (nth k l 0 - c) * (nth k l 0 - c)) (seq 0 (len l)))).
  { apply Forall_map, Forall_forall. intros k Hk. apply in_seq in Hk. rewrite (proj1 (Forall_forall _ _) H (nth k l 0)); [ring|apply nth_In; lia]. }
  induction G as [|a q -> G IH]; [reflexivity|]. cbn [total]. rewrite IH. ring.
Qed.
Lemma inner_names : forall (names : list label) (f : label -> R) w, len w = len names ->
  inner w (map f names) = sumn (len names) (fun i => f (name names i) * vec w i).
Proof.
  intros names f w Hw. rewrite (inner_vec (len names)) by (rewrite ?map_length; congruence). apply sumn_ext. intros i Hi.
  rewrite map_by_index.
  assert (E : vec (map (fun i => f (name names i)) (seq 0 (len names))) i = f (name names i)) by (unfold vec; apply (of_fun_nth (len names) (fun i => f (name names i)) i Hi)). rewrite E. ring.
Qed.
Lemma few_days : forall T names x fr extra (B : nat -> nat -> R), (2 <= T)%nat -> (T + extra <= len names)%nat -> (forall t, In t names -> len (x t) = T) ->
  exists y, len y = len names /\ (exists a, In a y /\ a <> 0) /\ qform (f_rows (labelled names (fun t u => sample_covariance (x t) (x u) * fr))) y = 0 /\
    forall k, (k < extra)%nat -> sumn (len names) (fun i => B k i * vec y i) = 0.
Proof.
  intros T names x fr extra B HT Hn Hx. set (n := len names).
  set (A := fun k i => if (k <? T - 1)%nat then nth (S k) (x (name names i)) 0 - nth 0 (x (name names i)) 0 else B (k - (T - 1))%nat i).
  destruct (kernel (T - 1 + extra) n A ltac:(unfold n; lia)) as (v & (i & Hi & Hv) & Hk).
  exists (of_fun n v). split; [apply of_fun_length|]. split.
  { exists (v i). split; [|exact Hv]. rewrite <- (of_fun_nth n v i Hi). apply nth_In. rewrite of_fun_length. exact Hi. }
  assert (HA : forall k, (k < T - 1 + extra)%nat -> sumn n (fun i => A k i * vec (of_fun n v) i) = 0).
  { intros k Hkk. rewrite <- (Hk k Hkk). apply sumn_ext. intros j Hj. unfold vec. rewrite of_fun_nth by exact Hj. reflexivity. }
  split.
  - rewrite (sample_variance T) by (auto; apply of_fun_length). set (w := of_fun n v) in *.
    assert (Lw : len w = len names) by apply of_fun_length.
    rewrite (constant_series T (inner w (map (fun t => nth 0 (x t) 0) names))); [ring|lia|unfold portfolio_series; rewrite map_length, seq_length; reflexivity|].
    unfold portfolio_series. apply Forall_map, Forall_forall. intros k Hkk. apply in_seq in Hkk. rewrite !inner_names by exact Lw.
    destruct k as [|k]; [reflexivity|]. specialize (HA k ltac:(lia)). apply Rminus_diag_uniq. rewrite <- sumn_minus. etransitivity; [|exact HA]. fold n. apply sumn_ext. intros j Hj.
    unfold A. replace (k <? T - 1)%nat with true by (symmetry; apply Nat.ltb_lt; lia). ring.
  - intros k Hkk. rewrite <- (HA (T - 1 + k)%nat ltac:(lia)). fold n. apply sumn_ext. intros j Hj. unfold A.
    replace (T - 1 + k <? T - 1)%nat with false by (symmetry; apply Nat.ltb_ge; lia). replace (T - 1 + k - (T - 1))%nat with k by lia. reflexivity.
Qed.
Lemma sample_singular : forall eigh T dates names x fr log fm, (2 <= T)%nat -> 0 <= fr -> (forall t, In t names -> len (x t) = T) ->
  exists C, sample_cov eigh (history T dates names x) true fr log fm = Ok (mkFrame names names C) /\
    ((T <= len names)%nat -> exists y, len y = len names /\ (exists a, In a y /\ a <> 0) /\ qform C y = 0) /\
    ((T < len names)%nat -> exists y, len y = len names /\ (exists a, In a y /\ a <> 0) /\ total y = 0 /\ qform C y = 0).
Proof.
  intros eigh T dates names x fr log fm HT Hfr Hx. exists (f_rows (labelled names (fun t u => sample_covariance (x t) (x u) * fr))).
  split; [exact (sample_cov_complete eigh T dates names x fr log fm HT Hfr Hx)|]. split; intros Hn.
  - destruct (few_days T names x fr 0 (fun _ _ => 0) HT ltac:(lia) Hx) as (y & L & N & Q & _). exists y. auto.
  - destruct (few_days T names x fr 1 (fun _ _ => 1) HT ltac:(lia) Hx) as (y & L & N & Q & K). exists y. split; [exact L|]. split; [exact N|]. split; [|exact Q].
    rewrite (total_vec (len names)) by exact L. rewrite <- (K 0%nat ltac:(lia)). apply sumn_ext. intros; ring.
Qed.
