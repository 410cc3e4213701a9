(** * C41: re-ordering the assets *)
From Coq Require Import ZArith String List Bool Reals Lra Lia Permutation.
From Verif Require Import Num Py RBase PyLemmas SBL MBase MConvex MEF SLin SBase SConvex SPerm Sums Mat PBase PConvex PEF PEF2 PEF3 PDown PDown2 PDown5.
Import ListNotations.
Local Open Scope R_scope.

(** ** Picking *)
Lemma pick_length : forall {X} (d : X) p l, length (pick d p l) = length p.
Proof. intros. apply map_length. Qed.
Lemma pick_map : forall {X Y} (f : X -> Y) d p l, map f (pick d p l) = pick (f d) p (map f l).
Proof. intros. unfold pick. rewrite map_map. apply map_ext. intros i. symmetry. apply map_nth. Qed.
Lemma ordering_length : forall n p, ordering n p -> length p = n.
Proof. intros n p H. apply Permutation_length in H. rewrite seq_length in H. exact H. Qed.
Lemma ordering_lt : forall n p i, ordering n p -> In i p -> (i < n)%nat.
Proof. intros n p i H Hi. apply (Permutation_in _ H) in Hi. apply in_seq in Hi. lia. Qed.
Lemma ordering_in : forall n p i, ordering n p -> (i < n)%nat -> In i p.
Proof. intros n p i H Hi. apply (Permutation_in _ (Permutation_sym H)). apply in_seq. lia. Qed.
Lemma ordering_nodup : forall n p, ordering n p -> NoDup p.
Proof. intros n p H. apply (Permutation_NoDup (Permutation_sym H)). apply seq_NoDup. Qed.
Lemma pick_seq : forall {X} (d : X) l, pick d (seq 0 (length l)) l = l.
Proof.
  intros X d l. unfold pick. apply (nth_ext _ _ d d); [rewrite map_length, seq_length; reflexivity|].
  intros i Hi. rewrite map_length, seq_length in Hi. rewrite (nth_indep _ d (nth 0%nat l d)) by (rewrite map_length, seq_length; exact Hi).
  rewrite (map_nth (fun j => nth j l d) (seq 0 (length l)) 0%nat). rewrite seq_nth by exact Hi. reflexivity.
Qed.
Lemma pick_perm : forall {X} (d : X) p l, ordering (length l) p -> Permutation (pick d p l) l.
Proof.
  intros X d p l H. apply (Permutation_trans (l' := pick d (seq 0 (length l)) l)); [apply Permutation_map; exact H|]. rewrite pick_seq. apply Permutation_refl.
Qed.

Lemma total_perm : forall a b, Permutation a b -> total a = total b.
Proof. intros a b H. induction H; cbn; lra. Qed.
Lemma inner_map : forall {X} (f g : X -> R) l, inner (map f l) (map g l) = total (map (fun i => f i * g i) l).
Proof. intros X f g l. induction l as [|x l IH]; [reflexivity|]. cbn. rewrite IH. reflexivity. Qed.
Lemma total_pick : forall n p x, ordering n p -> length x = n -> total (pick 0 p x) = total x.
Proof. intros n p x H E. apply total_perm. apply pick_perm. rewrite E. exact H. Qed.
Lemma inner_pick : forall n p x y, ordering n p -> length x = n -> length y = n -> inner (pick 0 p x) (pick 0 p y) = inner x y.
Proof.
  intros n p x y H Hx Hy. unfold pick. rewrite inner_map.
  rewrite (total_perm _ (map (fun i => nth i x 0 * nth i y 0) (seq 0 n))) by (apply Permutation_map; exact H).
  rewrite <- inner_map. subst n. change (map (fun i => nth i x 0) (seq 0 (length x))) with (pick 0 (seq 0 (length x)) x).
  rewrite pick_seq. rewrite <- Hy. change (map (fun i => nth i y 0) (seq 0 (length y))) with (pick 0 (seq 0 (length y)) y). rewrite pick_seq. reflexivity.
Qed.
Lemma qform_pick : forall n p M x, ordering n p -> square n M -> length x = n -> qform (cov_reordered p M) (pick 0 p x) = qform M x.
Proof.
  intros n p M x H HM Hx. unfold qform, cov_reordered.
  rewrite pick_map. cbn [inner]. rewrite map_map.
  rewrite (map_ext_in _ (fun row => inner row x)).
  - apply (inner_pick n); [exact H|exact Hx|]. rewrite map_length. apply HM.
  - intros row Hr. apply (inner_pick n); [exact H| |exact Hx]. destruct HM as [_ HM]. rewrite Forall_forall in HM. apply HM. exact Hr.
Qed.
Lemma cov_reordered_square : forall n p M, ordering n p -> square n M -> square n (cov_reordered p M).
Proof.
  intros n p M H [H1 H2]. pose proof (ordering_length _ _ H) as L. split; [unfold cov_reordered; rewrite pick_length; exact L|].
  apply Forall_forall. intros r Hr. unfold cov_reordered, pick in Hr. apply in_map_iff in Hr. destruct Hr as [i [Hr Hi]]. subst r.
  pose proof (ordering_lt _ _ _ H Hi) as Hl. rewrite (nth_indep _ [] (pick 0 p [])) by (rewrite map_length; lia).
  rewrite (map_nth (pick 0 p) M []). unfold pick. rewrite map_length. exact L.
Qed.

(** the inverse order *)
Fixpoint place (j : nat) (p : list nat) : nat := match p with [] => 0%nat | i :: p' => if Nat.eqb i j then 0%nat else S (place j p') end.
Lemma place_nth : forall p k, NoDup p -> (k < length p)%nat -> place (nth k p 0%nat) p = k.
Proof.
  induction p as [|i p IH]; intros k Hd Hk; [cbn in Hk; lia|]. inversion Hd; subst. destruct k as [|k]; cbn.
  - rewrite Nat.eqb_refl. reflexivity.
  - cbn in Hk. destruct (Nat.eqb i (nth k p 0%nat)) eqn:E; [|rewrite IH by (assumption || lia); reflexivity].
    apply Nat.eqb_eq in E. exfalso. apply H1. rewrite E. apply nth_In. lia.
Qed.
Lemma place_lt : forall p j, In j p -> (place j p < length p)%nat /\ nth (place j p) p 0%nat = j.
Proof.
  induction p as [|i p IH]; intros j Hj; [destruct Hj|]. cbn. destruct (Nat.eqb i j) eqn:E.
  - apply Nat.eqb_eq in E. split; [lia|exact E].
  - destruct Hj as [Hj|Hj]; [apply Nat.eqb_neq in E; contradiction|]. destruct (IH j Hj). split; [lia|assumption].
Qed.
Definition unpick {X} (d : X) (p : list nat) (x : list X) : list X := map (fun j => nth (place j p) x d) (seq 0 (length p)).
Lemma unpick_length : forall {X} (d : X) p x, length (unpick d p x) = length p.
Proof. intros. unfold unpick. rewrite map_length, seq_length. reflexivity. Qed.
Lemma nth_map_seq : forall {X} (d : X) f n i, (i < n)%nat -> nth i (map f (seq 0 n)) d = f i.
Proof.
  intros X d f n i H. rewrite (nth_indep _ d (f 0%nat)) by (rewrite map_length, seq_length; exact H).
  rewrite map_nth. rewrite seq_nth by exact H. reflexivity.
Qed.
Lemma nth_pick : forall {X} (d : X) p l k, (k < length p)%nat -> nth k (pick d p l) d = nth (nth k p 0%nat) l d.
Proof.
  intros X d p l k H. unfold pick. rewrite (nth_indep _ d (nth 0%nat l d)) by (rewrite map_length; exact H).
  rewrite (map_nth (fun i => nth i l d) p 0%nat). reflexivity.
Qed.
Lemma pick_unpick : forall {X} (d : X) n p x, ordering n p -> length x = n -> pick d p (unpick d p x) = x.
Proof.
  intros X d n p x H Hx. pose proof (ordering_length _ _ H) as L. apply (nth_ext _ _ d d); [rewrite pick_length; congruence|].
  intros k Hk. rewrite pick_length in Hk. rewrite nth_pick by exact Hk. unfold unpick.
  assert (Hi : (nth k p 0 < length p)%nat) by (rewrite L; apply (ordering_lt n p); [exact H|apply nth_In; exact Hk]).
  rewrite nth_map_seq by exact Hi. rewrite place_nth by (eauto using ordering_nodup). reflexivity.
Qed.
Lemma pick_inj : forall {X} (d : X) n p x y, ordering n p -> length x = n -> length y = n -> pick d p x = pick d p y -> x = y.
Proof.
  intros X d n p x y H Hx Hy E. apply (nth_ext _ _ d d); [congruence|]. intros i Hi. rewrite Hx in Hi.
  destruct (place_lt p i (ordering_in _ _ _ H Hi)) as [P1 P2].
  rewrite <- P2. rewrite <- !nth_pick by exact P1. rewrite E. reflexivity.
Qed.

Lemma Forall2_pick : forall {X Y} (P : X -> Y -> Prop) dx dy n p xs ys, ordering n p -> length xs = n -> length ys = n ->
  (Forall2 P xs ys <-> Forall2 P (pick dx p xs) (pick dy p ys)).
Proof.
  intros X Y P dx dy n p xs ys H Hx Hy. pose proof (ordering_length _ _ H) as L.
  assert (G : forall a b, length a = length b -> (Forall2 P a b <-> forall i, (i < length a)%nat -> P (nth i a dx) (nth i b dy))).
  { clear. induction a as [|x a IH]; intros [|y b] E; try discriminate E.
    - split; [intros _ i Hi; cbn in Hi; lia|intros _; constructor].
    - split.
      + intros F i Hi. inversion F; subst. destruct i as [|i]; [assumption|]. cbn. apply (proj1 (IH b ltac:(cbn in E; lia))); [assumption|cbn in Hi; lia].
      + intros F. constructor; [apply (F 0%nat); cbn; lia|]. apply IH; [cbn in E; lia|]. intros i Hi. apply (F (S i)). cbn. lia. }
  rewrite (G xs ys) by congruence. rewrite (G (pick dx p xs) (pick dy p ys)) by (rewrite !pick_length; reflexivity). rewrite pick_length. split.
  - intros F k Hk. rewrite !nth_pick by exact Hk. apply F. rewrite Hx. apply (ordering_lt n p); [exact H|apply nth_In; exact Hk].
  - intros F i Hi. rewrite Hx in Hi. destruct (place_lt p i (ordering_in _ _ _ H Hi)) as [P1 P2]. specialize (F _ P1). rewrite !nth_pick in F by exact P1.
    rewrite P2 in F. exact F.
Qed.
Lemma within_pick : forall n p lb ub x, ordering n p -> length lb = n -> length ub = n -> length x = n ->
  (within lb ub x <-> within (pick None p lb) (pick None p ub) (pick 0 p x)).
Proof.
  intros n p lb ub x H H1 H2 Hx. unfold within. rewrite <- !(Forall2_pick _ _ _ n) by assumption. reflexivity.
Qed.

(** ** The best portfolios of the re-ordered problem are the re-ordered best portfolios *)
Theorem chosen_pick : forall n p lb ub sum ok1 ok2 cost1 cost2, ordering n p -> length lb = n -> length ub = n ->
  (forall x, length x = n -> (ok1 x <-> ok2 (pick 0 p x))) -> (forall x, length x = n -> cost2 (pick 0 p x) = cost1 x) ->
  forall x, length x = n ->
  (chosen n lb ub sum ok1 cost1 x <-> chosen n (pick None p lb) (pick None p ub) sum ok2 cost2 (pick 0 p x)).
Proof.
  intros n p lb ub sum ok1 ok2 cost1 cost2 H H1 H2 Hok Hc x Hx. pose proof (ordering_length _ _ H) as L. split.
  - intros [_ [C1 [C2 [C3 C4]]]]. split; [rewrite pick_length; exact L|]. split; [apply (within_pick n); assumption|].
    split; [rewrite (total_pick n) by assumption; exact C2|]. split; [apply Hok; assumption|].
    intros y Ly Y1 Y2 Y3. rewrite <- (pick_unpick 0 n p y H Ly) in Y1, Y2, Y3 |- *.
    assert (Lu : length (unpick 0 p y) = n) by (rewrite unpick_length; exact L).
    rewrite !Hc by assumption. apply C4; [exact Lu| | |].
    + apply (within_pick n p); assumption.
    + rewrite (total_pick n) in Y2 by assumption. exact Y2.
    + apply Hok; assumption.
  - intros [_ [C1 [C2 [C3 C4]]]]. split; [exact Hx|]. split; [apply (within_pick n p) in C1; assumption|].
    split; [rewrite (total_pick n) in C2 by assumption; exact C2|]. split; [apply Hok; assumption|].
    intros y Ly Y1 Y2 Y3. rewrite <- !Hc by assumption. apply C4; [rewrite pick_length; exact L|apply (within_pick n); assumption| |apply Hok; assumption].
    rewrite (total_pick n) by assumption. exact Y2.
Qed.

(** ** Results are chosen portfolios *)
Lemma best_chosen : forall w o lb ub sum ok cost ws d, nth_error (w_sizes w) (e_w o) = Some (e_n o) -> e_add o = [] ->
  best_portfolio w o [] lb ub sum ok cost ws d ->
  exists x r, chosen (e_n o) lb ub sum ok cost x /\ ws = Some r /\ Forall2 (rounded 16) x r /\ d = dict_of_pairs (combine (b_tickers (e_base o)) r).
Proof.
  intros w o lb ub sum ok cost ws d Hs Ha [s [r [E1 [E2 [E3 [[A1 [A2 [A3 _]]] [Hok Hmin]]]]]]].
  exists (s (e_w o)), r. split; [|auto]. split; [apply (sized_nth _ _ _ _ A1 Hs)|]. split; [exact A2|]. split; [exact A3|]. split; [exact Hok|].
  intros y Ly Y1 Y2 Y3. rewrite Ha in Hmin. unfold penalty in Hmin. cbn [map total] in Hmin.
  specialize (Hmin (upd s (e_w o) y)). rewrite upd_same in Hmin. enough (cost (s (e_w o)) + 0 <= cost y + 0) by lra. apply Hmin; [|exact Y3].
  split; [|rewrite upd_same; auto]. apply upd_sized; [exact A1|]. rewrite (nth_error_nth' _ _ _ Hs). exact Ly.
Qed.

(** ** Uniqueness for a positive definite covariance matrix *)
From Verif Require Import SObj SHRP PObj.
Lemma within_blend : forall lb ub x y t, 0 <= t <= 1 -> within lb ub x -> within lb ub y -> within lb ub (SObj.blend t x y).
Proof.
  intros lb ub x y t Ht [X1 X2] [Y1 Y2]. split; [clear X2 Y2 ub; revert y Y1; induction X1 as [|b a lb x Hb X1 IH]|clear X1 Y1 lb; revert y Y2; induction X2 as [|b a ub x Hb X2 IH]];
    intros y Y; inversion Y as [|b' c l y' Hc Y']; subst; cbn; constructor; auto.
  - destruct b as [l|]; [|exact I]. cbn in *. assert (0 <= (1 - t) * (a - l)) by (apply Rmult_le_pos; lra). assert (0 <= t * (c - l)) by (apply Rmult_le_pos; lra). lra.
  - destruct b as [l|]; [|exact I]. cbn in *. assert (0 <= (1 - t) * (l - a)) by (apply Rmult_le_pos; lra). assert (0 <= t * (l - c)) by (apply Rmult_le_pos; lra). lra.
Qed.
Lemma total_blend : forall t x y, length x = length y -> total (SObj.blend t x y) = (1 - t) * total x + t * total y.
Proof. intros t x. induction x as [|a x IH]; intros [|b y] E; try discriminate E; cbn; [ring|]. rewrite IH by (cbn in E; lia). ring. Qed.
Lemma differences_zero : forall x y, length x = length y -> differences x y = repeat 0 (length x) -> x = y.
Proof. induction x as [|a x IH]; intros [|b y] E H; try discriminate E; [reflexivity|]. cbn in H. injection H as H1 H2. f_equal; [lra|]. apply IH; [cbn in E; lia|exact H2]. Qed.
(** a cost that is a positive multiple of the variance plus something linear *)
Lemma chosen_unique : forall n M lb ub sum (ok : list R -> Prop) c (lin : list R -> R), pos_def n M -> 0 < c ->
  (forall x y t, length x = n -> length y = n -> lin (SObj.blend t x y) = (1 - t) * lin x + t * lin y) ->
  (forall x y, length x = n -> length y = n -> ok x -> ok y -> ok (SObj.blend (1/2) x y)) ->
  forall x y, chosen n lb ub sum ok (fun z => c * qform M z + lin z) x -> chosen n lb ub sum ok (fun z => c * qform M z + lin z) y -> x = y.
Proof.
  intros n M lb ub sum ok c lin [HM Hp] Hc Hlin Hok x y [X1 [X2 [X3 [X4 X5]]]] [Y1 [Y2 [Y3 [Y4 Y5]]]].
  assert (E : length x = length y) by congruence.
  destruct (list_eq_dec Req_EM_T x y) as [|Hne]; [assumption|exfalso].
  assert (Hd : 0 < qform M (differences x y)).
  { apply Hp; [rewrite differences_length by exact E; exact X1|]. intros D. apply Hne. apply differences_zero; [exact E|]. rewrite X1. exact D. }
  pose proof (X5 (SObj.blend (1/2) x y)) as XB. pose proof (Y5 (SObj.blend (1/2) x y)) as YB.
  assert (L : length (SObj.blend (1/2) x y) = n) by (rewrite blend_length by exact E; exact X1).
  assert (W : within lb ub (SObj.blend (1/2) x y)) by (apply within_blend; [lra|assumption|assumption]).
  assert (T : total (SObj.blend (1/2) x y) = sum) by (rewrite total_blend by exact E; rewrite X3, Y3; lra).
  specialize (XB L W T (Hok x y X1 Y1 X4 Y4)). specialize (YB L W T (Hok x y X1 Y1 X4 Y4)).
  rewrite (qform_blend n) in XB, YB by assumption. rewrite Hlin in XB, YB by assumption.
  assert (0 < c * qform M (differences x y)) by (apply Rmult_lt_0_compat; assumption). lra.
Qed.
