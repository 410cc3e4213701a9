(** * Growth rate, exponential average, CAPM *)
From Coq Require Import ZArith List String Bool Reals Lra Lia Arith.
From Verif Require Import Num Py RBase PyLemmas MFrame MReturns SLin SHRP SReturns Sums PBase PHRP2 PFrame PReturns.
Import ListNotations.
Local Open Scope R_scope.

Lemma gap_some : forall {X} (l : list X), gap (map Some l) = false.
Proof.
  intros X [|x l]; [reflexivity|]. cbn [map gap]. induction l as [|y l IH]; [reflexivity|]. cbn [map has_none]. exact IH.
Qed.
Lemma check_history : forall T dates names x, (forall t, In t names -> len (x t) = T) -> check_returns (history T dates names x) = false.
Proof.
  intros T dates names x H. unfold check_returns. rewrite columns_history by exact H.
  induction names as [|t names IH]; [reflexivity|]. cbn [map existsb]. rewrite gap_some. apply IH. intros; apply H; right; assumption.
Qed.
Lemma combine_self : forall {X Y} (l : list X) (h : X -> Y), combine l (map h l) = map (fun t => (t, h t)) l.
Proof. induction l as [|a l IH]; intros h; [reflexivity|]. cbn [map combine]. rewrite IH. reflexivity. Qed.

(** ** mean historical return *)
Lemma product_growth : forall p a, a <> 0 -> Forall (fun v => v <> 0) p ->
  product (map (fun x => 1 + x) (simple_returns (a :: p))) = last (a :: p) 0 / a.
Proof.
  induction p as [|b p IH]; intros a Ha H; [cbn; field; exact Ha|].
  apply Forall_cons_iff in H. destruct H as [Hb Hp].
  change (simple_returns (a :: b :: p)) with ((b / a - 1) :: simple_returns (b :: p)). cbn [map product]. rewrite IH by assumption.
  change (last (a :: b :: p) 0) with (last (b :: p) 0). field. split; assumption.
Qed.
Lemma cagr_prices : forall fr p, (2 <= len p)%nat -> Forall (fun v => 0 < v) p ->
  cagr fr (map Some (simple_returns p)) = Ok (Some (growth_rate fr p)).
Proof.
  intros fr p Hl H. unfold cagr, count. rewrite present_some, simple_returns_length.
  destruct (simple_returns p) as [|r0 r] eqn:E.
  { apply (f_equal (@List.length R)) in E. rewrite simple_returns_length in E. cbn in E. lia. }
  rewrite <- E. destruct p as [|a p]; [cbn in Hl; lia|]. pose proof H as H'. apply Forall_cons_iff in H. destruct H as [Ha Hp].
  rewrite product_growth; [|lra|apply pos_nonzero; exact Hp].
  unfold np_pow. assert (Hlast : 0 < last (a :: p) 0).
  { rewrite Forall_forall in H'. apply H'. destruct (exists_last (l := a :: p)) as (q & z & Ez); [discriminate|]. rewrite Ez, last_last. apply in_or_app. right. left. reflexivity. }
  rewrite (proj2 (Rltb_true 0 _)) by (apply Rdiv_lt_0_compat; assumption). cbn [rbind option_map]. reflexivity.
Qed.
Theorem mean_cagr : forall T dates names p fr, names <> [] -> (1 <= T)%nat -> len dates = S T -> (forall t, In t names -> len (p t) = S T) ->
  (forall t, In t names -> Forall (fun v => 0 < v) (p t)) ->
  mean_historical_return (history (S T) dates names p) false true fr false =
  Ok (false, map (fun t => (t, Some (growth_rate fr (p t)))) names).
Proof.
  intros T dates names p fr Hn HT Hd Hl Hp. unfold mean_historical_return.
  rewrite returns_history; [|exact Hn|exact Hd|exact Hl|intros; apply pos_nonzero; auto]. cbn [rbind].
  assert (HL : forall t, In t names -> len (simple_returns (p t)) = T) by (intros t Ht; rewrite simple_returns_length, (Hl t Ht); lia).
  rewrite columns_history by exact HL. rewrite (mapM_map _ _ (fun t => Some (growth_rate fr (p t)))).
  - cbn [rbind]. rewrite check_history by exact HL. cbn [f_cols history]. rewrite combine_self. reflexivity.
  - intros t Ht. apply cagr_prices; [rewrite (Hl t Ht); lia|auto].
Qed.
Theorem mean_arithmetic : forall T dates names x fr log, (1 <= T)%nat -> (forall t, In t names -> len (x t) = T) ->
  mean_historical_return (history T dates names x) true false fr log =
  Ok (false, map (fun t => (t, Some (average (x t) * fr))) names).
Proof.
  intros T dates names x fr log HT Hl. unfold mean_historical_return. cbn [rbind]. rewrite check_history, columns_history by exact Hl.
  rewrite map_map. cbn [f_cols history].
  rewrite (map_ext_in _ (fun t => Some (average (x t) * fr))); [rewrite combine_self; reflexivity|].
  intros t Ht. unfold arithmetic. rewrite mean_some; [reflexivity|]. specialize (Hl t Ht). destruct (x t); [cbn in Hl; lia|discriminate].
Qed.

(** log returns in the compounding formula understate the growth *)
Lemma ln_lt : forall y, 0 < y -> y <> 1 -> 1 + ln y < y.
Proof.
  intros y Hy H1. rewrite <- (exp_ln y Hy) at 2. apply exp_ineq1. intros E. apply H1. rewrite <- (exp_ln y Hy), E. apply exp_0.
Qed.
Lemma tame_ln : forall y, exp (-1) < y -> 0 < 1 + ln y.
Proof. intros y H. assert (ln (exp (-1)) < ln y) by (apply ln_increasing; [apply exp_pos|exact H]). rewrite ln_exp in H0. lra. Qed.
Lemma log_product : forall p, Forall (fun v => 0 < v) p -> tame p ->
  0 < product (map (fun x => 1 + x) (logarithmic_returns p)) <= product (map (fun x => 1 + x) (simple_returns p)) /\
  (Exists (fun x => x <> 0) (simple_returns p) ->
   product (map (fun x => 1 + x) (logarithmic_returns p)) < product (map (fun x => 1 + x) (simple_returns p))).
Proof.
  induction p as [|a [|b p] IH]; intros Hp Ht.
  - cbn. split; [lra|]. intros H; inversion H.
  - cbn. split; [lra|]. intros H; inversion H.
  - apply Forall_cons_iff in Hp. destruct Hp as [Ha Hp]. unfold tame in Ht. change (simple_returns (a :: b :: p)) with ((b / a - 1) :: simple_returns (b :: p)) in *.
    change (logarithmic_returns (a :: b :: p)) with (ln (b / a) :: logarithmic_returns (b :: p)).
    apply Forall_cons_iff in Ht. destruct Ht as [Hr Ht]. destruct (IH Hp Ht) as [[I1 I2] I3]. clear IH.
    cbn [map product]. replace (1 + (b / a - 1)) with (b / a) in * by lra.
    set (y := b / a) in *. pose proof (tame_ln y Hr) as Hpos. assert (Hy : 0 < y) by (pose proof (exp_pos (-1)); lra).
    set (P := product (map (fun x => 1 + x) (logarithmic_returns (b :: p)))) in *. set (Q := product (map (fun x => 1 + x) (simple_returns (b :: p)))) in *.
    destruct (Req_dec y 1) as [E|E].
    + rewrite E, ln_1 in *. split; [split; lra|]. intros H. apply Exists_cons in H. destruct H as [H|H]; [lra|]. specialize (I3 H). lra.
    + pose proof (ln_lt y Hy E) as Hlt. split; [split; [apply Rmult_lt_0_compat; lra|]|intros _].
      * apply Rmult_le_compat; lra.
      * apply Rle_lt_trans with ((1 + ln y) * Q); [apply Rmult_le_compat_l; lra|]. apply Rmult_lt_compat_r; lra.
Qed.
Theorem mean_log : forall T dates names p fr, names <> [] -> (1 <= T)%nat -> 0 < fr -> len dates = S T -> (forall t, In t names -> len (p t) = S T) ->
  (forall t, In t names -> Forall (fun v => 0 < v) (p t)) -> (forall t, In t names -> tame (p t)) ->
  exists v, mean_historical_return (history (S T) dates names p) false true fr true = Ok (false, map (fun t => (t, Some (v t))) names) /\
    forall t, In t names -> v t <= growth_rate fr (p t) /\ (Exists (fun x => x <> 0) (simple_returns (p t)) -> v t < growth_rate fr (p t)).
Proof.
  intros T dates names p fr Hn HT Hfr Hd Hl Hp Ht.
  exists (fun t => Rpower (product (map (fun x => 1 + x) (logarithmic_returns (p t)))) (fr / INR T) - 1). split.
  - unfold mean_historical_return. rewrite log_returns_history by assumption. cbn [rbind].
    assert (HL : forall t, In t names -> len (logarithmic_returns (p t)) = T) by (intros t Hin; rewrite logarithmic_returns_length, (Hl t Hin); lia).
    rewrite columns_history by exact HL. rewrite (mapM_map _ _ (fun t => Some (Rpower (product (map (fun x => 1 + x) (logarithmic_returns (p t)))) (fr / INR T) - 1))).
    + cbn [rbind]. rewrite check_history by exact HL. cbn [f_cols history]. rewrite combine_self. reflexivity.
    + intros t Hin. unfold cagr, count. rewrite present_some, (HL t Hin). destruct (logarithmic_returns (p t)) as [|r0 r] eqn:E.
      { specialize (HL t Hin). rewrite E in HL. cbn in HL. lia. }
      rewrite <- E. unfold np_pow. destruct (log_product (p t) (Hp t Hin) (Ht t Hin)) as [[I1 _] _]. rewrite (proj2 (Rltb_true 0 _)) by exact I1. reflexivity.
  - intros t Hin. destruct (log_product (p t) (Hp t Hin) (Ht t Hin)) as [[I1 I2] I3].
    assert (HTp : 0 < INR T) by (apply lt_0_INR; lia).
    assert (Hc : 0 < fr / INR T) by (apply Rdiv_lt_0_compat; lra).
    assert (Eg : growth_rate fr (p t) = Rpower (product (map (fun x => 1 + x) (simple_returns (p t)))) (fr / INR T) - 1).
    { unfold growth_rate. rewrite (Hl t Hin). replace (S T - 1)%nat with T by lia. f_equal. f_equal. specialize (Hp t Hin). specialize (Hl t Hin).
      destruct (p t) as [|a q]; [discriminate Hl|]. apply Forall_cons_iff in Hp. destruct Hp. rewrite product_growth; [reflexivity|lra|apply pos_nonzero; assumption]. }
    rewrite Eg. split.
    + assert (Rpower (product (map (fun x => 1 + x) (logarithmic_returns (p t)))) (fr / INR T) <= Rpower (product (map (fun x => 1 + x) (simple_returns (p t)))) (fr / INR T)) by (apply Rle_Rpower_l; [lra|split; assumption]). lra.
    + intros H. specialize (I3 H). assert (Rpower (product (map (fun x => 1 + x) (logarithmic_returns (p t)))) (fr / INR T) < Rpower (product (map (fun x => 1 + x) (simple_returns (p t)))) (fr / INR T)) by (apply Rlt_Rpower_l; [lra|split; assumption]). lra.
Qed.

(** ** assets without data *)
Lemma mapM_nth : forall {X Y} (f : X -> res Y) l ys k x, mapM f l = Ok ys -> nth_error l k = Some x -> exists y, nth_error ys k = Some y /\ f x = Ok y.
Proof.
  intros X Y f l. induction l as [|a l IH]; intros ys k x H Hk; [destruct k; discriminate Hk|].
  cbn [mapM] in H. destruct (f a) as [b|e] eqn:E; [|discriminate H]. cbn [rbind] in H. destruct (mapM f l) as [bs|e] eqn:E2; [|discriminate H]. cbn [rbind] in H. injection H as <-.
  destruct k as [|k]; cbn [nth_error] in *; [injection Hk as <-; exists b; auto|]. eapply IH; eauto.
Qed.
Lemma present_none : forall l, (forall x, In x l -> x = None) -> present l = [].
Proof. induction l as [|a l IH]; intros H; [reflexivity|]. unfold present in *. cbn [flat_map]. rewrite (H a) by (left; reflexivity). apply IH. intros; apply H; right; assumption. Qed.
Lemma gap_none : forall {X} (l : list (option X)), (forall x, In x l -> x = None) -> gap l = false.
Proof. intros X. induction l as [|a l IH]; intros H; [reflexivity|]. cbn [gap]. rewrite (H a) by (left; reflexivity). apply IH. intros; apply H; right; assumption. Qed.
Lemma nth_error_combine : forall {X Y} (l : list X) (m : list Y) k x y, nth_error l k = Some x -> nth_error m k = Some y -> nth_error (combine l m) k = Some (x, y).
Proof. intros X Y. induction l as [|a l IH]; intros m k x y Hl Hm; [destruct k; discriminate Hl|]. destruct m as [|b m]; [destruct k; discriminate Hm|]. destruct k as [|k]; cbn [nth_error combine] in *; [congruence|auto]. Qed.
Theorem no_data : forall f fr log w s j t, nth_error (f_cols f) j = Some t -> (forall x, In x (column (f_rows f) j) -> x = None) ->
  mean_historical_return f true true fr log = Ok (w, s) -> nth_error s j = Some (t, Some 0).
Proof.
  intros f fr log w s j t Hj Hc H. unfold mean_historical_return in H. cbn [rbind] in H.
  destruct (mapM (cagr fr) (columns f)) as [vals|e] eqn:E; [|discriminate H]. cbn [rbind] in H. injection H as _ <-.
  assert (Hcol : nth_error (columns f) j = Some (column (f_rows f) j)).
  { unfold columns. rewrite nth_error_map. assert (Hlt : (j < len (f_cols f))%nat) by (apply nth_error_Some; congruence).
    assert (Hs : nth_error (seq 0 (len (f_cols f))) j = Some j). { rewrite (nth_error_nth' _ 0%nat) by (rewrite seq_length; exact Hlt). rewrite seq_nth by exact Hlt. reflexivity. }
    rewrite Hs. reflexivity. }
  destruct (mapM_nth _ _ _ _ _ E Hcol) as (y & Hy & Ey). apply nth_error_combine; [exact Hj|]. rewrite Hy. f_equal.
  unfold cagr in Ey. rewrite present_none in Ey by exact Hc. injection Ey as <-. f_equal. lra.
Qed.
Theorem no_data_no_warning : forall f fr log w s,
  (forall j, (j < len (f_cols f))%nat -> (forall x, In x (column (f_rows f) j) -> x = None) \/ (forall x, In x (column (f_rows f) j) -> x <> None)) ->
  mean_historical_return f true true fr log = Ok (w, s) -> w = false.
Proof.
  intros f fr log w s Hc H. unfold mean_historical_return in H. cbn [rbind] in H.
  destruct (mapM (cagr fr) (columns f)) as [vals|e] eqn:E; [|discriminate H]. cbn [rbind] in H. injection H as <- _.
  unfold check_returns, columns. apply not_true_is_false. intros Hx. apply existsb_exists in Hx. destruct Hx as (c & Hin & Hg).
  apply in_map_iff in Hin. destruct Hin as (j & <- & Hj). apply in_seq in Hj. destruct (Hc j) as [Hn|Hs]; [lia| |].
  - rewrite gap_none in Hg by exact Hn. discriminate Hg.
  - assert (Hex : exists l, column (f_rows f) j = map Some l).
    { clear -Hs. induction (column (f_rows f) j) as [|a l IH]; [exists []; reflexivity|]. destruct a as [v|]; [|exfalso; apply (Hs None); [left; reflexivity|reflexivity]].
      destruct IH as [l' ->]; [intros; apply Hs; right; assumption|]. exists (v :: l'). reflexivity. }
    destruct Hex as [l El]. rewrite El, gap_some in Hg. discriminate Hg.
Qed.
(** the arithmetic mean of the same column is NaN *)
Theorem no_data_arithmetic : forall f fr log j t, nth_error (f_cols f) j = Some t -> (forall x, In x (column (f_rows f) j) -> x = None) ->
  exists w s, mean_historical_return f true false fr log = Ok (w, s) /\ nth_error s j = Some (t, None).
Proof.
  intros f fr log j t Hj Hc. unfold mean_historical_return. cbn [rbind]. eexists _, _. split; [reflexivity|]. apply nth_error_combine; [exact Hj|].
  unfold columns. rewrite map_map, nth_error_map. assert (Hlt : (j < len (f_cols f))%nat) by (apply nth_error_Some; congruence).
  assert (Hs : nth_error (seq 0 (len (f_cols f))) j = Some j). { rewrite (nth_error_nth' _ 0%nat) by (rewrite seq_length; exact Hlt). rewrite seq_nth by exact Hlt. reflexivity. }
  rewrite Hs. cbn [option_map]. f_equal. unfold arithmetic, mean. rewrite present_none by exact Hc. reflexivity.
Qed.
