(** * Statistics of complete tables *)
From Coq Require Import ZArith List Bool Reals Lra Lia Arith.
From Verif Require Import Num Py RBase PyLemmas MFrame SLin SHRP Sums PBase PHRP2.
Import ListNotations.
Local Open Scope R_scope.

Lemma nth_seq_map : forall {X} (x : list X) d, map (fun k => nth k x d) (seq 0 (length x)) = x.
Proof. intros X x d. induction x as [|a x IH]; [reflexivity|]. cbn [length seq map nth]. f_equal. rewrite <- seq_shift, map_map. exact IH. Qed.
Lemma columns_history : forall T dates names x, (forall t, In t names -> length (x t) = T) ->
  columns (history T dates names x) = map (fun t => map Some (x t)) names.
Proof.
  intros T dates names x Hx. unfold columns, history. cbn [f_rows f_cols].
  transitivity (map (fun j => map Some (x (nth j names (LInt 0)))) (seq 0 (length names))).
  - apply map_ext_in. intros j Hj. apply in_seq in Hj. unfold column. rewrite map_map.
    assert (Ht : In (nth j names (LInt 0)) names) by (apply nth_In; lia).
    rewrite <- (nth_seq_map (map Some (x (nth j names (LInt 0)))) None) at 1. rewrite map_length, (Hx _ Ht). apply map_ext_in. intros k Hk. apply in_seq in Hk.
    rewrite (nth_indep _ None (Some (nth k (x (LInt 0)) 0))) by (rewrite map_length; lia). rewrite (map_nth (fun t => Some (nth k (x t) 0))).
    rewrite (nth_indep _ None (Some 0)) by (rewrite map_length, (Hx _ Ht); lia). rewrite map_nth. reflexivity.
  - rewrite <- (nth_seq_map names (LInt 0)) at 2. rewrite map_map. reflexivity.
Qed.
Lemma both_some : forall x y, length x = length y -> both (map Some x) (map Some y) = combine x y.
Proof. induction x as [|a x IH]; intros [|b y] H; try discriminate H; [reflexivity|]. cbn [map both combine]. rewrite IH by (injection H; auto). reflexivity. Qed.
Lemma combine_seq : forall (x y : list R), length x = length y -> combine x y = map (fun k => (nth k x 0, nth k y 0)) (seq 0 (length x)).
Proof.
  induction x as [|a x IH]; intros [|b y] H; try discriminate H; [reflexivity|]. cbn [combine length seq map nth]. f_equal.
  rewrite <- seq_shift, map_map. apply IH. injection H; auto.
Qed.
Lemma mean_of_average : forall l, mean_of l = average l.
Proof. intros. unfold mean_of, average. rewrite vsum_total. reflexivity. Qed.
Lemma combine_snd : forall {X Y} (l : list X) (m : list Y), length l = length m -> map snd (combine l m) = m.
Proof. induction l as [|a l IH]; intros [|b m] H; try discriminate H; [reflexivity|]. cbn [combine map snd]. rewrite IH; [reflexivity|]. injection H; auto. Qed.
Definition dev_sum (x y : list R) : R :=
  total (map (fun k => (nth k x 0 - average x) * (nth k y 0 - average y)) (seq 0 (length x))).
Lemma codev_combine : forall x y, length x = length y -> codev (combine x y) = dev_sum x y.
Proof.
  intros x y H. unfold codev, dev_sum. rewrite combine_map_fst, combine_snd by exact H. rewrite !mean_of_average, vsum_total.
  rewrite combine_seq by exact H. rewrite map_map. reflexivity.
Qed.
Lemma present_some : forall l, present (map Some l) = l.
Proof. induction l as [|x l IH]; [reflexivity|]. unfold present in *. cbn [map flat_map app]. rewrite IH. reflexivity. Qed.
Lemma mean_some : forall l, l <> [] -> mean (map Some l) = Some (average l).
Proof. intros l H. unfold mean. rewrite present_some. destruct l; [congruence|]. rewrite mean_of_average. reflexivity. Qed.

Lemma pair_cov_some : forall x y, length x = length y -> (2 <= length x)%nat ->
  pair_cov (map Some x) (map Some y) = Some (sample_covariance x y).
Proof.
  intros x y H H2. unfold pair_cov. rewrite both_some by exact H. rewrite combine_length, <- H, Nat.min_id.
  destruct (Nat.leb_spec (length x) 1); [lia|]. rewrite codev_combine by exact H. reflexivity.
Qed.
Lemma diag_combine : forall x y, length x = length y ->
  map (fun ab : R * R => (fst ab, fst ab)) (combine x y) = combine x x /\ map (fun ab : R * R => (snd ab, snd ab)) (combine x y) = combine y y.
Proof.
  induction x as [|a x IH]; intros [|b y] H; try discriminate H; [split; reflexivity|]. cbn [combine map fst snd].
  destruct (IH y) as [E1 E2]; [injection H; auto|]. rewrite E1, E2. split; reflexivity.
Qed.
Lemma pair_corr_some : forall x y, length x = length y -> 0 < dev_sum x x -> 0 < dev_sum y y ->
  pair_corr (map Some x) (map Some y) = Some (dev_sum x y / sqrt (dev_sum x x * dev_sum y y)).
Proof.
  intros x y H Hx Hy. unfold pair_corr. rewrite both_some by exact H. destruct (diag_combine x y H) as [-> ->].
  rewrite !codev_combine by auto. runfold. rewrite (proj2 (Rleb_false _ 0)); [reflexivity|]. nra.
Qed.
Lemma sample_dev : forall x y, (2 <= length x)%nat -> sample_covariance x y = dev_sum x y / (INR (length x) - 1).
Proof. reflexivity. Qed.
Lemma INR_ge2 : forall n, (2 <= n)%nat -> 1 <= INR n - 1.
Proof. intros n H. apply le_INR in H. cbn in H. lra. Qed.

Lemma all_some_map : forall {X} (l : list X), all_some (map Some l) = Some l.
Proof. induction l as [|x l IH]; [reflexivity|]. cbn [map all_some]. rewrite IH. reflexivity. Qed.

Lemma frame_cov_history : forall T dates names x, (2 <= T)%nat -> (forall t, In t names -> length (x t) = T) ->
  frame_cov (history T dates names x) =
  mkFrame names names (map (fun t => map (fun u => Some (sample_covariance (x t) (x u))) names) names).
Proof.
  intros T dates names x HT Hx. unfold frame_cov, pairwise. rewrite columns_history by exact Hx. cbn [f_cols history]. f_equal.
  rewrite map_map. apply map_ext_in. intros t Ht. rewrite map_map. apply map_ext_in. intros u Hu. apply pair_cov_some; rewrite !Hx by assumption; auto.
Qed.
Lemma frame_corr_history : forall T dates names x, (forall t, In t names -> length (x t) = T) ->
  (forall t, In t names -> 0 < dev_sum (x t) (x t)) ->
  frame_corr (history T dates names x) =
  mkFrame names names (map (fun t => map (fun u => Some (dev_sum (x t) (x u) / sqrt (dev_sum (x t) (x t) * dev_sum (x u) (x u)))) names) names).
Proof.
  intros T dates names x Hx Hp. unfold frame_corr, pairwise. rewrite columns_history by exact Hx. cbn [f_cols history]. f_equal.
  rewrite map_map. apply map_ext_in. intros t Ht. rewrite map_map. apply map_ext_in. intros u Hu. apply pair_corr_some; [rewrite !Hx by assumption; auto|auto..].
Qed.
Lemma all_some_table : forall {X Y Z} (g : X -> Y -> Z) (l : list X) (m : list Y),
  all_some (map all_some (map (fun t => map (fun u => Some (g t u)) m) l)) = Some (map (fun t => map (g t) m) l).
Proof.
  intros. rewrite map_map. rewrite (map_ext _ (fun t => Some (map (g t) m))).
  - rewrite <- (map_map (fun t => map (g t) m) Some). apply all_some_map.
  - intros t. rewrite <- (map_map (g t) Some). apply all_some_map.
Qed.
