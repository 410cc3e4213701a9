(** * Prices, returns and the mean historical return *)
From Coq Require Import ZArith List String Bool Reals Lra Lia Arith.
From Verif Require Import Num Py RBase PyLemmas MFrame MReturns SLin SHRP SReturns Sums PBase PHRP2 PFrame.
Import ListNotations.
Local Open Scope R_scope.

Notation len := List.length.
Definition cells (names : list label) (g : label -> R) : list (option R) := map (fun t => Some (g t)) names.
Lemma history_rows : forall T dates names x, history T dates names x = mkFrame dates names (map (fun k => cells names (fun t => nth k (x t) 0)) (seq 0 T)).
Proof. reflexivity. Qed.

Lemma pct_row_cells : forall names a b, (forall t, In t names -> a t <> 0) ->
  pct_row (cells names a) (cells names b) = Ok (cells names (fun t => b t / a t - 1)).
Proof.
  induction names as [|t names IH]; intros a b H; [reflexivity|].
  cbn [cells map pct_row pct_cell]. assert (E : Reqb (a t) 0 = false) by (apply Reqb_false; apply H; left; reflexivity).
  rewrite E. cbn [rbind]. fold (cells names a) (cells names b). rewrite IH; [reflexivity|]. intros; apply H; right; assumption.
Qed.
Lemma pct_rows_cells : forall names (x : nat -> label -> R) n a,
  (forall t k, In t names -> (a <= k < a + n)%nat -> x k t <> 0) ->
  pct_rows (cells names (x a)) (map (fun k => cells names (x k)) (seq (S a) n)) =
  Ok (map (fun k => cells names (fun t => x (S k) t / x k t - 1)) (seq a n)).
Proof.
  intros names x n. induction n as [|n IH]; intros a H; [reflexivity|].
  cbn [seq map pct_rows]. rewrite pct_row_cells by (intros; apply H; [assumption|lia]). cbn [rbind].
  rewrite IH by (intros; apply H; [assumption|lia]). reflexivity.
Qed.
Lemma simple_returns_length : forall p, len (simple_returns p) = (len p - 1)%nat.
Proof. induction p as [|a [|b p] IH]; [reflexivity|reflexivity|]. cbn [simple_returns List.length] in *. lia. Qed.
Lemma logarithmic_returns_length : forall p, len (logarithmic_returns p) = (len p - 1)%nat.
Proof. induction p as [|a [|b p] IH]; [reflexivity|reflexivity|]. cbn [logarithmic_returns List.length] in *. lia. Qed.
Lemma simple_returns_nth : forall p k, (k < len p - 1)%nat -> nth k (simple_returns p) 0 = nth (S k) p 0 / nth k p 0 - 1.
Proof.
  induction p as [|a [|b p] IH]; intros k H; cbn [List.length] in H; try lia.
  destruct k as [|k]; [reflexivity|]. change (nth (S k) (simple_returns (a :: b :: p)) 0) with (nth k (simple_returns (b :: p)) 0).
  rewrite IH by (cbn [List.length]; lia). reflexivity.
Qed.
Lemma logarithmic_returns_nth : forall p k, (k < len p - 1)%nat -> nth k (logarithmic_returns p) 0 = ln (nth (S k) p 0 / nth k p 0).
Proof.
  induction p as [|a [|b p] IH]; intros k H; cbn [List.length] in H; try lia.
  destruct k as [|k]; [reflexivity|]. change (nth (S k) (logarithmic_returns (a :: b :: p)) 0) with (nth k (logarithmic_returns (b :: p)) 0).
  rewrite IH by (cbn [List.length]; lia). reflexivity.
Qed.
Lemma cells_not_all_none : forall names g, names <> [] -> forallb is_none (cells names g) = false.
Proof. intros [|t names] g H; [congruence|reflexivity]. Qed.
Lemma filter_all : forall {X} (f : X -> bool) l, (forall x, In x l -> f x = true) -> filter f l = l.
Proof. induction l as [|a l IH]; intros H; [reflexivity|]. cbn [filter]. rewrite H by (left; reflexivity). rewrite IH; [reflexivity|]. intros; apply H; right; assumption. Qed.
Lemma dropna_first : forall dates names (rows : list (list (option R))) (r : list (option R)) d, names <> [] ->
  forallb is_none r = true -> len dates = len rows -> Forall (fun r => forallb is_none r = false) rows ->
  dropna_all (mkFrame (d :: dates) names (r :: rows)) = mkFrame dates names rows.
Proof.
  intros dates names rows r d Hn Hr Hl H. unfold dropna_all. cbn [f_index f_rows f_cols combine filter snd]. rewrite Hr. cbn [negb].
  rewrite filter_all.
  - rewrite combine_map_fst, combine_snd by exact Hl. reflexivity.
  - intros [i r'] Hin. apply in_combine_r in Hin. rewrite Forall_forall in H. cbn [snd]. rewrite (H _ Hin). reflexivity.
Qed.
Lemma pct_change_history : forall T dates names p, (forall t, In t names -> len (p t) = S T) ->
  (forall t, In t names -> Forall (fun v => v <> 0) (p t)) ->
  pct_change (history (S T) dates names p) =
  Ok (mkFrame dates names (map (fun _ => None) names :: map (fun k => cells names (fun t => nth k (simple_returns (p t)) 0)) (seq 0 T))).
Proof.
  intros T dates names p Hl Hp. rewrite history_rows. unfold pct_change. cbn [f_rows f_index f_cols seq map].
  rewrite (pct_rows_cells names (fun k t => nth k (p t) 0) T 0).
  - cbn [rbind]. f_equal. f_equal. f_equal; [unfold cells; rewrite map_map; reflexivity|].
    apply map_ext_in. intros k Hk. apply in_seq in Hk. unfold cells. apply map_ext_in. intros t Ht.
    rewrite simple_returns_nth by (rewrite (Hl t Ht); lia). reflexivity.
  - intros t k Ht Hk. specialize (Hp t Ht). rewrite Forall_forall in Hp. apply Hp. apply nth_In. rewrite (Hl t Ht). lia.
Qed.
Lemma all_none : forall (names : list label), forallb is_none (map (fun _ => @None R) names) = true.
Proof. induction names; [reflexivity|]. cbn. assumption. Qed.
Theorem returns_history : forall T dates names p, names <> [] -> len dates = S T -> (forall t, In t names -> len (p t) = S T) ->
  (forall t, In t names -> Forall (fun v => v <> 0) (p t)) ->
  returns_from_prices (history (S T) dates names p) false = Ok (history T (tl dates) names (fun t => simple_returns (p t))).
Proof.
  intros T dates names p Hn Hd Hl Hp. unfold returns_from_prices. rewrite pct_change_history by assumption. cbn [rbind]. f_equal.
  destruct dates as [|d dates]; [discriminate Hd|]. rewrite dropna_first; [reflexivity|exact Hn|apply all_none| |].
  - rewrite map_length, seq_length. injection Hd; auto.
  - apply Forall_map, Forall_forall. intros k _. apply cells_not_all_none. exact Hn.
Qed.

Lemma mapM_map : forall {X Y Z} (f : Y -> res Z) (g : X -> Y) (h : X -> Z) l, (forall x, In x l -> f (g x) = Ok (h x)) -> mapM f (map g l) = Ok (map h l).
Proof. intros X Y Z f g h l. induction l as [|a l IH]; intros H; [reflexivity|]. cbn [map mapM]. rewrite H by (left; reflexivity). cbn [rbind]. rewrite IH; [reflexivity|]. intros; apply H; right; assumption. Qed.
Lemma pos_nonzero : forall l, Forall (fun v => 0 < v) l -> Forall (fun v => v <> 0) l.
Proof. intros l. apply Forall_impl. intros; lra. Qed.
Theorem log_returns_history : forall T dates names p, names <> [] -> len dates = S T -> (forall t, In t names -> len (p t) = S T) ->
  (forall t, In t names -> Forall (fun v => 0 < v) (p t)) ->
  returns_from_prices (history (S T) dates names p) true = Ok (history T (tl dates) names (fun t => logarithmic_returns (p t))).
Proof.
  intros T dates names p Hn Hd Hl Hp. unfold returns_from_prices. rewrite pct_change_history; [|exact Hl|intros; apply pos_nonzero; auto].
  cbn [rbind f_rows f_index f_cols mapM].
  assert (E0 : mapM log_cell (map (fun _ : label => None) names) = Ok (map (fun _ : label => None) names)) by (apply (mapM_map log_cell (fun _ => None)); reflexivity).
  rewrite E0. cbn [rbind].
  rewrite (mapM_map (mapM log_cell) _ (fun k => cells names (fun t => nth k (logarithmic_returns (p t)) 0))).
  - cbn [rbind]. f_equal. destruct dates as [|d dates]; [discriminate Hd|]. rewrite dropna_first; [reflexivity|exact Hn|apply all_none| |].
    + rewrite map_length, seq_length. injection Hd; auto.
    + apply Forall_map, Forall_forall. intros k _. apply cells_not_all_none. exact Hn.
  - intros k Hk. apply in_seq in Hk. unfold cells. apply mapM_map. intros t Ht. unfold log_cell.
    rewrite simple_returns_nth, logarithmic_returns_nth by (rewrite (Hl t Ht); lia).
    replace (1 + (nth (S k) (p t) 0 / nth k (p t) 0 - 1)) with (nth (S k) (p t) 0 / nth k (p t) 0) by lra.
    specialize (Hp t Ht). rewrite Forall_forall in Hp.
    assert (H1 : 0 < nth (S k) (p t) 0) by (apply Hp, nth_In; rewrite (Hl t Ht); lia).
    assert (H2 : 0 < nth k (p t) 0) by (apply Hp, nth_In; rewrite (Hl t Ht); lia).
    rewrite (proj2 (Rltb_true 0 _)); [reflexivity|]. apply Rdiv_lt_0_compat; assumption.
Qed.

(** pseudo prices *)
Lemma cum_cells : forall names acc g, map2 cum_cell (map acc names) (cells names g) = map (fun t => acc t * g t) names.
Proof. induction names as [|t names IH]; intros; [reflexivity|]. cbn [map cells map2 cum_cell]. f_equal. apply IH. Qed.
Lemma cum_out : forall names acc (g : label -> R), map2 (fun (a : R) (x : option R) => match x with Some _ => Some a | None => None end) (map acc names) (cells names g) = cells names acc.
Proof. induction names as [|t names IH]; intros; [reflexivity|]. cbn [map cells map2]. f_equal. apply IH. Qed.
Lemma skipn_S : forall {X} a (l : list X), skipn (S a) l = tl (skipn a l).
Proof. induction a as [|a IH]; intros [|x l]; try reflexivity. rewrite (skipn_cons (S a)), IH. reflexivity. Qed.
Lemma cum_rows_cells : forall names (x : label -> list R) n a acc, (forall t, In t names -> len (x t) = (a + n)%nat) ->
  cum_rows (map acc names) (map (fun k => cells names (fun t => 1 + nth k (x t) 0)) (seq a n)) =
  map (fun k => cells names (fun t => nth (k - a) (wealth (acc t) (skipn a (x t))) 0)) (seq a n).
Proof.
  intros names x n. induction n as [|n IH]; intros a acc H; [reflexivity|].
  cbn [seq map cum_rows]. rewrite cum_cells, cum_out. f_equal.
  - unfold cells. apply map_ext_in. intros t Ht. rewrite Nat.sub_diag. specialize (H t Ht).
    destruct (skipn a (x t)) as [|v r] eqn:E; [apply (f_equal (@List.length R)) in E; rewrite skipn_length in E; cbn in E; lia|].
    cbn [wealth nth]. rewrite <- (firstn_skipn a (x t)) at 1. rewrite app_nth2 by (rewrite firstn_length; lia).
    rewrite firstn_length, E. replace (a - Nat.min a (len (x t)))%nat with 0%nat by lia. reflexivity.
  - rewrite IH by (intros t Ht; rewrite (H t Ht); lia). apply map_ext_in. intros k Hk. apply in_seq in Hk. unfold cells. apply map_ext_in. intros t Ht.
    specialize (H t Ht). destruct (skipn a (x t)) as [|v r] eqn:E; [apply (f_equal (@List.length R)) in E; rewrite skipn_length in E; cbn in E; lia|].
    replace (k - a)%nat with (S (k - S a)) by lia. cbn [wealth nth].
    assert (Ev : nth a (x t) 0 = v). { rewrite <- (firstn_skipn a (x t)). rewrite app_nth2 by (rewrite firstn_length; lia). rewrite firstn_length, E. replace (a - Nat.min a (len (x t)))%nat with 0%nat by lia. reflexivity. }
    rewrite Ev. f_equal. f_equal. rewrite skipn_S, E. reflexivity.
Qed.
Theorem prices_history : forall T dates names r, (forall t, In t names -> len (r t) = S T) ->
  prices_from_returns (history (S T) dates names r) false = Ok (history (S T) dates names (fun t => 1 :: wealth 1 (tl (r t)))).
Proof.
  intros T dates names r Hl. rewrite history_rows. unfold prices_from_returns. cbn [f_rows f_index f_cols seq map].
  set (r0 := map _ (cells names (fun t => nth 0 (r t) 0))).
  assert (Ea : map (fun _ => 1) r0 = map (fun _ => 1) names) by (unfold r0, cells; rewrite !map_map; reflexivity).
  assert (Eb : map (fun _ => Some 1) r0 = cells names (fun _ => 1)) by (unfold r0, cells; rewrite !map_map; reflexivity).
  rewrite Ea, Eb. clear Ea Eb r0.
  f_equal. unfold history. f_equal. cbn [cum_rows seq map]. rewrite (cum_cells names (fun _ => 1)), cum_out. f_equal.
  - unfold cells. apply map_ext. intros. cbn [nth]. f_equal. lra.
  - rewrite map_map.
    transitivity (cum_rows (map (fun _ => 1 * 1) names) (map (fun k => cells names (fun t => 1 + nth k (r t) 0)) (seq 1 T))).
    { f_equal. apply map_ext. intros k. unfold cells. rewrite map_map. reflexivity. }
    rewrite cum_rows_cells by (intros t Ht; rewrite (Hl t Ht); reflexivity).
    apply map_ext_in. intros k Hk. apply in_seq in Hk. unfold cells. apply map_ext_in. intros t Ht. f_equal.
    destruct k as [|k]; [lia|]. cbn [nth]. replace (S k - 1)%nat with k by lia. rewrite Rmult_1_l.
    destruct (r t); reflexivity.
Qed.

Lemma wealth_length : forall r w, len (wealth w r) = len r.
Proof. induction r as [|x r IH]; intros w; [reflexivity|]. cbn [wealth List.length]. rewrite IH. reflexivity. Qed.
Lemma returns_wealth : forall r w, w <> 0 -> Forall (fun x => 1 + x <> 0) r -> simple_returns (w :: wealth w r) = r.
Proof.
  induction r as [|x r IH]; intros w Hw H; [reflexivity|]. apply Forall_cons_iff in H. destruct H as [Hx Hr].
  cbn [wealth simple_returns]. f_equal; [field; exact Hw|]. apply IH; [|exact Hr]. apply Rmult_integral_contrapositive_currified; assumption.
Qed.
Lemma wealth_nonzero : forall r w, w <> 0 -> Forall (fun x => 1 + x <> 0) r -> Forall (fun v => v <> 0) (wealth w r).
Proof.
  induction r as [|x r IH]; intros w Hw H; [apply Forall_nil|]. apply Forall_cons_iff in H. destruct H as [Hx Hr].
  cbn [wealth]. assert (w * (1 + x) <> 0) by (apply Rmult_integral_contrapositive_currified; assumption). apply Forall_cons; auto.
Qed.
Lemma wealth_returns : forall p a c, a <> 0 -> Forall (fun v => v <> 0) p -> wealth c (simple_returns (a :: p)) = map (fun v => c / a * v) p.
Proof.
  induction p as [|b p IH]; intros a c Ha H; [reflexivity|]. apply Forall_cons_iff in H. destruct H as [Hb Hp].
  change (simple_returns (a :: b :: p)) with ((b / a - 1) :: simple_returns (b :: p)). cbn [wealth map]. f_equal; [field; exact Ha|]. rewrite IH by assumption. apply map_ext. intros v. field. split; assumption.
Qed.
Lemma simple_returns_nonzero : forall p, Forall (fun v => v <> 0) p -> Forall (fun x => 1 + x <> 0) (simple_returns p).
Proof.
  induction p as [|a [|b p] IH]; intros H; [apply Forall_nil|apply Forall_nil|]. cbn [simple_returns]. apply Forall_cons_iff in H. destruct H as [Ha H].
  apply Forall_cons; [|apply IH; exact H]. apply Forall_cons_iff in H. destruct H as [Hb _].
  replace (1 + (b / a - 1)) with (b / a) by lra. unfold Rdiv. apply Rmult_integral_contrapositive_currified; [exact Hb|]. apply Rinv_neq_0_compat. exact Ha.
Qed.
(** C66 *)
Theorem prices_roundtrip : forall T dates names p, names <> [] -> len dates = S (S T) -> (forall t, In t names -> len (p t) = S (S T)) ->
  (forall t, In t names -> Forall (fun v => v <> 0) (p t)) ->
  exists f, returns_from_prices (history (S (S T)) dates names p) false = Ok f /\
    prices_from_returns f false = Ok (history (S T) (tl dates) names (fun t => map (fun v => v / nth 1 (p t) 0) (tl (p t)))).
Proof.
  intros T dates names p Hn Hd Hl Hp. eexists. split; [apply returns_history; assumption|].
  rewrite prices_history by (intros t Ht; rewrite simple_returns_length, (Hl t Ht); reflexivity).
  f_equal. unfold history. f_equal. apply map_ext_in. intros k Hk. apply map_ext_in. intros t Ht. f_equal.
  specialize (Hl t Ht). specialize (Hp t Ht). destruct (p t) as [|a [|b q]]; try discriminate Hl.
  apply Forall_cons_iff in Hp. destruct Hp as [Ha Hp]. apply Forall_cons_iff in Hp. destruct Hp as [Hb Hq].
  change (tl (simple_returns (a :: b :: q))) with (simple_returns (b :: q)). rewrite wealth_returns by assumption. cbn [tl map nth].
  replace (b / b) with 1 by (field; exact Hb).
  replace (map (fun v => 1 / b * v) q) with (map (fun v => v / b) q); [reflexivity|]. apply map_ext. intros; lra.
Qed.
Theorem returns_roundtrip : forall T dates names r, names <> [] -> len dates = S T -> (forall t, In t names -> len (r t) = S T) ->
  (forall t, In t names -> Forall (fun x => 1 + x <> 0) (tl (r t))) ->
  exists f, prices_from_returns (history (S T) dates names r) false = Ok f /\
    returns_from_prices f false = Ok (history T (tl dates) names (fun t => tl (r t))).
Proof.
  intros T dates names r Hn Hd Hl Hr. eexists. split; [apply prices_history; assumption|].
  rewrite returns_history; [|exact Hn|exact Hd| |].
  - f_equal. unfold history. f_equal. apply map_ext_in. intros k Hk. apply map_ext_in. intros t Ht. rewrite returns_wealth; [reflexivity|lra|auto].
  - intros t Ht. cbn [List.length]. rewrite wealth_length. specialize (Hl t Ht). destruct (r t); [discriminate Hl|]. cbn in *. lia.
  - intros t Ht. apply Forall_cons; [lra|]. apply wealth_nonzero; [lra|auto].
Qed.
Theorem mean_of_pseudo_prices : forall T dates names r compounding frequency, names <> [] -> len dates = S T -> (forall t, In t names -> len (r t) = S T) ->
  (forall t, In t names -> Forall (fun x => 1 + x <> 0) (tl (r t))) ->
  exists f, prices_from_returns (history (S T) dates names r) false = Ok f /\
    mean_historical_return f false compounding frequency false =
    mean_historical_return (history T (tl dates) names (fun t => tl (r t))) true compounding frequency false.
Proof.
  intros T dates names r c fr Hn Hd Hl Hr. destruct (returns_roundtrip T dates names r Hn Hd Hl Hr) as (f & E1 & E2).
  exists f. split; [exact E1|]. unfold mean_historical_return. rewrite E2. reflexivity.
Qed.
