(** * Return estimates of tables with missing entries *)
From Coq Require Import ZArith List String Bool Reals Lra Lia Arith.
From Verif Require Import Num Py RBase PyLemmas MFrame MReturns SLin SHRP SReturns SGaps Sums PBase PHRP2 PFrame PReturns PReturns2 PReturns3.
Import ListNotations.
Local Open Scope R_scope.

(** ** columns *)
Lemma gappy_column : forall T dates names x i t, nth_error names i = Some t -> column (f_rows (gappy T dates names x)) i = map (x t) (seq 0 T).
Proof.
  intros T dates names x i t Hi. unfold column, gappy. cbn [f_rows]. rewrite map_map. apply map_ext. intros k.
  apply nth_error_nth. rewrite nth_error_map, Hi. reflexivity.
Qed.
Lemma gappy_columns : forall T dates names x, columns (gappy T dates names x) = map (fun t => map (x t) (seq 0 T)) names.
Proof.
  intros T dates names x. unfold columns. cbn [f_cols gappy]. rewrite <- (nth_seq_map names (LInt 0)) at 3. rewrite map_map.
  apply map_ext_in. intros i Hi. apply in_seq in Hi. apply gappy_column. apply nth_error_nth'. lia.
Qed.
Lemma value_some : forall (x : nat -> option R) k v, x k = Some v -> value x k = v.
Proof. intros x k v H. unfold value. rewrite H. reflexivity. Qed.
Lemma known_some : forall (x : nat -> option R) k v, x k = Some v -> known_at x k = true.
Proof. intros x k v H. unfold known_at. rewrite H. reflexivity. Qed.
Lemma known_none : forall (x : nat -> option R) k, x k = None -> known_at x k = false.
Proof. intros x k H. unfold known_at. rewrite H. reflexivity. Qed.
Lemma present_column : forall (x : nat -> option R) l, present (map x l) = map (value x) (filter (known_at x) l).
Proof.
  intros x l. induction l as [|k l IH]; [reflexivity|]. unfold present in *. cbn [map flat_map filter]. rewrite IH.
  destruct (x k) as [v|] eqn:E; [rewrite (known_some _ _ _ E)|rewrite (known_none _ _ E); reflexivity]. cbn [app map]. rewrite (value_some _ _ _ E). reflexivity.
Qed.
Lemma both_column : forall (x y : nat -> option R) l, both (map x l) (map y l) =
  combine (map (value x) (filter (fun k => known_at x k && known_at y k) l)) (map (value y) (filter (fun k => known_at x k && known_at y k) l)).
Proof.
  intros x y l. induction l as [|k l IH]; [reflexivity|]. cbn [map both filter].
  destruct (x k) as [v|] eqn:E; [rewrite (known_some _ _ _ E)|rewrite (known_none _ _ E)]; (destruct (y k) as [u|] eqn:F; [rewrite (known_some _ _ _ F)|rewrite (known_none _ _ F)]); cbn [andb]; try exact IH.
  cbn [map combine]. rewrite IH, (value_some _ _ _ E), (value_some _ _ _ F). reflexivity.
Qed.
Lemma pair_cov_column : forall T x y, pair_cov (map x (seq 0 T)) (map y (seq 0 T)) = common_covariance T x y.
Proof.
  intros T x y. unfold pair_cov, common_covariance, common. rewrite both_column. rewrite combine_length, !map_length, Nat.min_id.
  set (ks := filter _ _). destruct (Nat.leb_spec (len ks) 1), (Nat.leb_spec 2 (len ks)); try lia; [reflexivity|].
  rewrite codev_combine by (rewrite !map_length; reflexivity). unfold sample_covariance, dev_sum. rewrite !map_length. reflexivity.
Qed.
Lemma frame_cov_gappy : forall T dates names x, frame_cov (gappy T dates names x) =
  mkFrame names names (map (fun t => map (fun u => common_covariance T (x t) (x u)) names) names).
Proof.
  intros T dates names x. unfold frame_cov, pairwise. rewrite gappy_columns. cbn [f_cols gappy]. f_equal. rewrite map_map. apply map_ext. intros t.
  rewrite map_map. apply map_ext. intros u. apply pair_cov_column.
Qed.
Lemma history_gappy : forall T dates names x, history T dates names x = gappy T dates names (fun t k => Some (nth k (x t) 0)).
Proof. reflexivity. Qed.

(** ** the warning *)
Lemma has_none_iff : forall (l : list (option R)), has_none l = true <-> In None l.
Proof.
  induction l as [|[v|] l IH]; cbn [has_none In]; [split; [discriminate|intros []]| |split; auto].
  rewrite IH. split; [auto|intros [E|E]; [discriminate E|exact E]].
Qed.
Lemma gap_iff : forall (l : list (option R)), gap l = true <-> exists i j v, (i < j)%nat /\ nth_error l i = Some (Some v) /\ nth_error l j = Some None.
Proof.
  induction l as [|a l IH].
  - cbn. split; [discriminate|]. intros (i & j & v & _ & H & _). destruct i; discriminate H.
  - cbn [gap]. destruct a as [v|].
    + rewrite has_none_iff. split.
      * intros H. apply In_nth_error in H. destruct H as [j Hj]. exists 0%nat, (S j), v. repeat split; [lia|exact Hj].
      * intros (i & j & u & Hij & _ & Hj). destruct j as [|j]; [lia|]. cbn [nth_error] in Hj. eapply nth_error_In; exact Hj.
    + rewrite IH. split.
      * intros (i & j & v & Hij & Hi & Hj). exists (S i), (S j), v. repeat split; [lia|exact Hi|exact Hj].
      * intros (i & j & v & Hij & Hi & Hj). destruct i as [|i]; [discriminate Hi|]. destruct j as [|j]; [lia|]. exists i, j, v. repeat split; [lia|exact Hi|exact Hj].
Qed.
Lemma nth_error_seq_map : forall {X} (x : nat -> X) T k v, nth_error (map x (seq 0 T)) k = Some v <-> (k < T)%nat /\ x k = v.
Proof.
  intros X x T k v. rewrite nth_error_map. split.
  - destruct (nth_error (seq 0 T) k) as [j|] eqn:E; [|discriminate]. intros H. injection H as <-.
    assert (k < T)%nat. { rewrite <- (seq_length T 0). apply nth_error_Some. congruence. }
    rewrite (nth_error_nth' _ 0%nat) in E by (rewrite seq_length; assumption). rewrite seq_nth in E by assumption. injection E as <-. split; [assumption|reflexivity].
  - intros [H <-]. rewrite (nth_error_nth' _ 0%nat) by (rewrite seq_length; exact H). rewrite seq_nth by exact H. reflexivity.
Qed.
Lemma gap_column : forall T x, gap (map x (seq 0 T)) = true <-> interrupted T x.
Proof.
  intros T x. rewrite gap_iff. unfold interrupted. split; intros (i & j & v & H).
  - rewrite !nth_error_seq_map in H. exists i, j, v. lia || (destruct H as (A & [B C] & [D E]); repeat split; auto).
  - exists i, j, v. rewrite !nth_error_seq_map. destruct H as ([A B] & C & D). repeat split; auto. lia.
Qed.
Lemma check_gappy : forall T dates names x, check_returns (gappy T dates names x) = true <-> exists t, In t names /\ interrupted T (x t).
Proof.
  intros T dates names x. unfold check_returns. rewrite gappy_columns, existsb_exists. split.
  - intros (c & Hc & Hg). apply in_map_iff in Hc. destruct Hc as (t & <- & Ht). exists t. split; [exact Ht|]. apply gap_column. exact Hg.
  - intros (t & Ht & Hi). exists (map (x t) (seq 0 T)). split; [apply in_map_iff; exists t; auto|apply gap_column; exact Hi].
Qed.

(** ** pseudo prices *)
Lemma compounded_app : forall g a b, compounded g (a ++ b) = compounded g a * compounded g b.
Proof. intros g a b. unfold compounded. induction a as [|v a IH]; cbn [app fold_right]; [lra|]. rewrite IH. lra. Qed.
Lemma seq_snoc : forall a n, seq a (S n) = seq a n ++ [(a + n)%nat].
Proof. intros. rewrite seq_S. reflexivity. Qed.
Definition grown (g : R -> R) (x : nat -> option R) (k : nat) : R := compounded g (map (value x) (filter (known_at x) (seq 1 k))).
Lemma grown_S : forall g x k, grown g x (S k) = cum_cell (grown g x k) (option_map g (x (S k))).
Proof.
  intros g x k. unfold grown. rewrite seq_snoc, filter_app, map_app, compounded_app. cbn [filter Nat.add].
  destruct (x (S k)) as [v|] eqn:E; [rewrite (known_some _ _ _ E)|rewrite (known_none _ _ E)]; cbn [map option_map cum_cell]; unfold compounded at 2; cbn [fold_right]; rewrite ?(value_some _ _ _ E); lra.
Qed.
Lemma map2_map : forall {A B C D} (f : B -> C -> D) (g : A -> B) (h : A -> C) l, map2 f (map g l) (map h l) = map (fun a => f (g a) (h a)) l.
Proof. induction l as [|a l IH]; [reflexivity|]. cbn [map map2]. rewrite IH. reflexivity. Qed.
Lemma cum_gappy : forall g names (x : label -> nat -> option R) n a,
  cum_rows (map (fun t => grown g (x t) a) names) (map (fun k => map (fun t => option_map g (x t k)) names) (seq (S a) n)) =
  map (fun k => map (fun t => pseudo_price g (x t) k) names) (seq (S a) n).
Proof.
  intros g names x n. induction n as [|n IH]; intros a; [reflexivity|]. cbn [seq map cum_rows]. rewrite !map2_map.
  rewrite (map_ext (fun t => cum_cell (grown g (x t) a) (option_map g (x t (S a)))) (fun t => grown g (x t) (S a))) by (intros; symmetry; apply grown_S).
  f_equal; [|apply IH]. apply map_ext. intros t. cbn [pseudo_price]. unfold known_at at 1. pose proof (grown_S g (x t) a) as E. destruct (x t (S a)) as [v|]; cbn [option_map] in *; [rewrite <- E|]; reflexivity.
Qed.
Theorem prices_gappy : forall T dates names r log,
  prices_from_returns (gappy (S T) dates names r) log = Ok (gappy (S T) dates names (fun t => pseudo_price (gain log) (r t))).
Proof.
  intros T dates names r log. unfold prices_from_returns, gappy. cbn [f_rows f_index f_cols]. rewrite map_map.
  cbn [seq map]. f_equal. f_equal. cbn [cum_rows]. rewrite !map_map, !map2_map. cbn [cum_cell].
  f_equal; [apply map_ext; intros t; cbn [pseudo_price]; f_equal; lra|].
  rewrite (map_ext _ (fun t => grown (gain log) (r t) 0)) by (intros; unfold grown, compounded; cbn [seq filter map fold_right]; lra).
  rewrite <- cum_gappy. f_equal. apply map_ext. intros k. rewrite map_map. reflexivity.
Qed.
