(** * Returns, means and exponential averages of tables with missing entries *)
From Coq Require Import ZArith List String Bool Reals Lra Lia Arith.
From Verif Require Import Num Py RBase PyLemmas MFrame MReturns SLin SHRP SReturns SGaps Sums PBase PHRP2 PFrame PReturns PReturns2 PReturns3 PGaps1.
Import ListNotations.
Local Open Scope R_scope.

(** ** returns *)
Lemma priced_nonzero : forall log v, priced log v -> v <> 0.
Proof. intros [|] v H; cbn in H; [lra|exact H]. Qed.
Lemma pct_row_gappy : forall names (a b : label -> option R), (forall t v, In t names -> a t = Some v -> v <> 0) ->
  pct_row (map a names) (map b names) = Ok (map (fun t => match a t, b t with Some u, Some v => Some (v / u - 1) | _, _ => None end) names).
Proof.
  induction names as [|t names IH]; intros a b H; [reflexivity|]. cbn [map pct_row].
  assert (E : pct_cell (a t) (b t) = Ok (match a t, b t with Some u, Some v => Some (v / u - 1) | _, _ => None end)).
  { unfold pct_cell. destruct (a t) as [u|] eqn:Ea; [|reflexivity]. destruct (b t) as [v|]; [|reflexivity].
    assert (E : Reqb u 0 = false) by (apply Reqb_false; apply (H t u); [left; reflexivity|exact Ea]). rewrite E. reflexivity. }
  rewrite E. cbn [rbind]. rewrite IH by (intros u v Hu; apply H; right; exact Hu). reflexivity.
Qed.
Lemma pct_rows_gappy : forall names (p : label -> nat -> option R) n a, (forall t k v, In t names -> p t k = Some v -> v <> 0) ->
  pct_rows (map (fun t => p t a) names) (map (fun k => map (fun t => p t k) names) (seq (S a) n)) = Ok (map (fun k => map (fun t => step_return false (p t) k) names) (seq a n)).
Proof.
  intros names p n. induction n as [|n IH]; intros a H; [reflexivity|]. cbn [seq map pct_rows].
  rewrite pct_row_gappy by (intros t v Ht; apply H; exact Ht). cbn [rbind]. rewrite IH by exact H. reflexivity.
Qed.
Lemma log_rows_gappy : forall names (p : label -> nat -> option R) l, (forall t k v, In t names -> p t k = Some v -> 0 < v) ->
  mapM (mapM log_cell) (map (fun k => map (fun t => step_return false (p t) k) names) l) = Ok (map (fun k => map (fun t => step_return true (p t) k) names) l).
Proof.
  intros names p l H. apply mapM_map. intros k _. apply mapM_map. intros t Ht. unfold step_return.
  destruct (p t k) as [a|] eqn:Ea; [|reflexivity]. destruct (p t (S k)) as [b|] eqn:Eb; [|reflexivity]. cbn [log_cell].
  assert (0 < b / a) by (apply Rdiv_lt_0_compat; [eapply H; eassumption|eapply H; eassumption]).
  replace (1 + (b / a - 1)) with (b / a) by lra. rewrite (proj2 (Rltb_true 0 _)) by assumption. reflexivity.
Qed.
Lemma log_none_row : forall (names : list label), mapM log_cell (map (fun _ => @None R) names) = Ok (map (fun _ => None) names).
Proof. intros. apply mapM_map. reflexivity. Qed.
Lemma combine_seq_map : forall {X Y} (l : list X) (d : X) (f : nat -> Y) a, combine l (map f (seq a (len l))) = map (fun k => (nth (k - a) l d, f k)) (seq a (len l)).
Proof.
  intros X Y l d. induction l as [|x l IH]; intros f a; [reflexivity|]. cbn [List.length seq map combine]. rewrite Nat.sub_diag. f_equal.
  rewrite IH. apply map_ext_in. intros k Hk. apply in_seq in Hk. replace (k - a)%nat with (S (k - S a)) by lia. reflexivity.
Qed.
Lemma filter_map_comm : forall {X Y} (f : X -> Y) (p : Y -> bool) l, filter p (map f l) = map f (filter (fun x => p (f x)) l).
Proof. induction l as [|x l IH]; [reflexivity|]. cbn [map filter]. destruct (p (f x)); cbn [map]; rewrite IH; reflexivity. Qed.
Lemma none_row : forall (names : list label) (f : label -> option R), negb (forallb is_none (map f names)) = existsb (fun t => match f t with Some _ => true | None => false end) names.
Proof. induction names as [|t names IH]; intros f; [reflexivity|]. cbn [map forallb existsb]. rewrite negb_andb, IH. destruct (f t); reflexivity. Qed.
Lemma existsb_const_false : forall {X} (l : list X), existsb (fun _ => false) l = false.
Proof. induction l; [reflexivity|]. assumption. Qed.
Lemma dropna_gappy : forall T (dates names : list label) (d : label) (r : label -> nat -> option R), len dates = S T ->
  dropna_all (mkFrame dates names (map (fun _ => None) names :: map (fun k => map (fun t => r t k) names) (seq 0 T))) =
  mkFrame (map (fun k => nth (S k) dates d) (kept T names r)) names (map (fun k => map (fun t => r t k) names) (kept T names r)).
Proof.
  intros T dates names d r HD. destruct dates as [|d0 dates]; [discriminate HD|]. injection HD as HD. unfold dropna_all. cbn [f_index f_cols f_rows combine filter snd].
  rewrite none_row, existsb_const_false. rewrite <- HD. rewrite (combine_seq_map dates d), filter_map_comm, !map_map. cbn [snd fst].
  assert (E : filter (fun k => negb (forallb is_none (map (fun t => r t k) names))) (seq 0 (len dates)) = kept (len dates) names r).
  { unfold kept. apply filter_ext. intros k. rewrite none_row. reflexivity. }
  rewrite E. f_equal. apply map_ext. intros k. rewrite Nat.sub_0_r. reflexivity.
Qed.
Theorem returns_gappy : forall T dates names d p log, len dates = S T -> (forall t k v, In t names -> p t k = Some v -> priced log v) ->
  let r := fun t => step_return log (p t) in
  returns_from_prices (gappy (S T) dates names p) log =
  Ok (mkFrame (map (fun k => nth (S k) dates d) (kept T names r)) names (map (fun k => map (fun t => r t k) names) (kept T names r))).
Proof.
  intros T dates names d p log HD Hp r. unfold returns_from_prices, pct_change, gappy. cbn [f_rows f_index f_cols seq map].
  rewrite pct_rows_gappy by (intros t k v Ht Hv; apply (priced_nonzero log); eapply Hp; eassumption). cbn [rbind]. rewrite map_map.
  unfold r. destruct log; cbn [rbind f_rows f_index f_cols].
  - change (mapM (mapM log_cell) (map (fun _ => @None R) names :: ?l)) with (do y <- mapM log_cell (map (fun _ => @None R) names) ; do ys <- mapM (mapM log_cell) l ; Ok (y :: ys)).
    rewrite log_none_row. cbn [rbind]. rewrite log_rows_gappy by exact Hp. cbn [rbind]. f_equal. apply dropna_gappy. exact HD.
  - f_equal. apply dropna_gappy. exact HD.
Qed.

(** ** means *)
Lemma numbers_present : forall T x, present (map x (seq 0 T)) = numbers T x.
Proof. intros. apply present_column. Qed.
Theorem mean_gappy : forall T dates names x fr log,
  exists w, mean_historical_return (gappy T dates names x) true false fr log =
    Ok (w, map (fun t => (t, match numbers T (x t) with [] => None | l => Some (average l * fr) end)) names) /\
  (w = true <-> exists t, In t names /\ interrupted T (x t)).
Proof.
  intros T dates names x fr log. exists (check_returns (gappy T dates names x)). split; [|apply check_gappy].
  unfold mean_historical_return. cbn [rbind]. rewrite gappy_columns, map_map. cbn [f_cols gappy]. rewrite combine_self. f_equal. f_equal. apply map_ext. intros t.
  f_equal. unfold arithmetic, mean. rewrite numbers_present. destruct (numbers T (x t)); [reflexivity|]. cbn [option_map]. rewrite mean_of_average. reflexivity.
Qed.
Lemma product_zero : forall l, In (-1) l -> product (map (fun v => 1 + v) l) = 0.
Proof. induction l as [|a l IH]; intros H; [destruct H|]. cbn [map product]. destruct H as [->|H]; [lra|]. rewrite IH by exact H. lra. Qed.
Lemma product_pos : forall l, Forall (fun v => -1 < v) l -> 0 < product (map (fun v => 1 + v) l).
Proof. induction 1 as [|a l Ha Hl IH]; cbn [map product]; [lra|]. apply Rmult_lt_0_compat; [lra|exact IH]. Qed.
Lemma in_dec_minus_one : forall l, Forall (fun v => -1 <= v) l -> In (-1) l \/ Forall (fun v => -1 < v) l.
Proof.
  induction 1 as [|a l Ha Hl IH]; [right; constructor|]. destruct IH as [IH|IH]; [left; right; exact IH|].
  destruct (Req_EM_T a (-1)) as [E|E]; [left; left; exact E|right; constructor; [lra|exact IH]].
Qed.
Lemma cagr_gappy : forall fr col, 0 < fr -> Forall (fun v => -1 <= v) (present col) -> exists v, cagr fr col = Ok v /\ column_rate fr (present col) v.
Proof.
  intros fr col Hfr H. unfold cagr, column_rate, count. destruct (present col) as [|a l] eqn:E.
  - exists (Some 0). split; [f_equal; f_equal; lra|]. repeat split; try tauto. intros [].
  - rewrite <- E in *. set (p := present col) in *. assert (HL : 0 < INR (len p)) by (apply lt_0_INR; rewrite E; cbn; lia).
    destruct (in_dec_minus_one p H) as [Hm|Hm].
    + rewrite (product_zero p Hm). unfold np_pow. rewrite (proj2 (Rltb_false 0 0)) by lra. assert (E0 : Reqb 0 0 = true) by (apply Reqb_true; reflexivity). rewrite E0.
      rewrite (proj2 (Rltb_true 0 _)) by (apply Rdiv_lt_0_compat; assumption). cbn [rbind option_map]. eexists. split; [reflexivity|]. repeat split.
      * intros E1. rewrite E1 in Hm. destruct Hm.
      * intros _. f_equal. lra.
      * intros _ Hp. rewrite Forall_forall in Hp. specialize (Hp _ Hm). lra.
    + unfold np_pow. rewrite (proj2 (Rltb_true 0 _)) by (apply product_pos; exact Hm). cbn [rbind option_map]. eexists. split; [reflexivity|]. repeat split.
      * intros E1. rewrite E1 in E. discriminate E.
      * intros Hi. rewrite Forall_forall in Hm. specialize (Hm _ Hi). lra.
      * intros _ _. rewrite product_factor. reflexivity.
Qed.
Theorem mean_compounded_gappy : forall T dates names x fr log, 0 < fr -> (forall t, In t names -> Forall (fun v => -1 <= v) (numbers T (x t))) ->
  exists w v, mean_historical_return (gappy T dates names x) true true fr log = Ok (w, map (fun t => (t, v t)) names) /\
    (forall t, In t names -> column_rate fr (numbers T (x t)) (v t)) /\ (w = true <-> exists t, In t names /\ interrupted T (x t)).
Proof.
  intros T dates names x fr log Hfr H. exists (check_returns (gappy T dates names x)), (fun t => match cagr fr (map (x t) (seq 0 T)) with Ok v => v | Err _ => None end).
  assert (C : forall t, In t names -> exists v, cagr fr (map (x t) (seq 0 T)) = Ok v /\ column_rate fr (numbers T (x t)) v).
  { intros t Ht. destruct (cagr_gappy fr (map (x t) (seq 0 T)) Hfr) as (v & E & V); [rewrite numbers_present; auto|]. exists v. rewrite numbers_present in V. auto. }
  split; [|split; [|apply check_gappy]].
  - unfold mean_historical_return. cbn [rbind]. rewrite gappy_columns. cbn [f_cols gappy].
    rewrite (mapM_map _ _ (fun t => match cagr fr (map (x t) (seq 0 T)) with Ok v => v | Err _ => None end)).
    + cbn [rbind]. rewrite combine_self. reflexivity.
    + intros t Ht. destruct (C t Ht) as (v & -> & _). reflexivity.
  - intros t Ht. destruct (C t Ht) as (v & -> & V). exact V.
Qed.

(** ** exponential averages *)
Lemma decayed_column : forall d (x : nat -> option R) (f : R -> R) n a, decayed_sum d (map x (seq a n)) f =
  total (map (fun k => d ^ (a + n - 1 - k) * f (value x k)) (filter (known_at x) (seq a n))).
Proof.
  intros d x f n. induction n as [|n IH]; intros a; [reflexivity|]. cbn [seq map decayed_sum filter]. rewrite map_length, seq_length, IH.
  replace (a + S n - 1)%nat with (S a + n - 1)%nat by lia.
  destruct (x a) as [v|] eqn:E; [rewrite (known_some _ _ _ E)|rewrite (known_none _ _ E)]; cbn [map total]; [|lra].
  rewrite (value_some _ _ _ E). replace (S a + n - 1 - a)%nat with n by lia. reflexivity.
Qed.
Lemma aged_decayed : forall d T x, decayed_average d (map x (seq 0 T)) = aged_average d T x.
Proof.
  intros d T x. unfold decayed_average, aged_average, known. rewrite !decayed_column. cbn [Nat.add]. f_equal. f_equal.
  apply map_ext. intros; lra.
Qed.
Theorem ema_gappy : forall T dates names x span fr log, (1 <= T)%nat -> 1 < span ->
  exists w, ema_historical_return (gappy T dates names x) true false span fr log =
    Ok (w, map (fun t => (t, match numbers T (x t) with [] => None | _ => Some (aged_average ((span - 1) / (span + 1)) T (x t) * fr) end)) names) /\
  (w = true <-> exists t, In t names /\ interrupted T (x t)).
Proof.
  intros T dates names x span fr log HT Hs. exists (check_returns (gappy T dates names x)). split; [|apply check_gappy].
  unfold ema_historical_return. cbn [rbind]. rewrite (proj2 (Rltb_false span 1)) by lra. rewrite gappy_columns. cbn [f_cols f_rows gappy].
  destruct T as [|T]; [lia|]. cbn [seq map]. rewrite !(map_ext (fun t => x t 0%nat :: map (x t) (seq 1 T)) (fun t => map (x t) (seq 0 (S T)))) by reflexivity.
  rewrite (mapM_map _ _ (fun t => match numbers (S T) (x t) with [] => None | _ => Some (aged_average ((span - 1) / (span + 1)) (S T) (x t) * fr) end)).
  - cbn [rbind]. rewrite combine_self. reflexivity.
  - intros t _. destruct (numbers (S T) (x t)) as [|a l] eqn:E.
    + rewrite ewm_nothing; [reflexivity| |rewrite numbers_present; exact E].
      destruct (decay_range span) as (E1 & [E2 _] & _); [lra|]. rewrite E1. exact E2.
    + destruct (ema_missing (map (x t) (seq 0 (S T))) span Hs) as [-> _]; [rewrite numbers_present, E; discriminate|]. rewrite aged_decayed. reflexivity.
Qed.
