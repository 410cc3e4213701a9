(** * Round trips of prices and log returns *)
From Coq Require Import ZArith List String Bool Reals Lra Lia.
From Verif Require Import Num Py RBase PyLemmas MFrame MReturns SLin SHRP SReturns PBase PHRP3 PFrame PReturns.
Import ListNotations.
Local Open Scope R_scope.

Definition expm1 (x : R) : R := exp x - 1.
Lemma expm1_0 : expm1 0 = 0. Proof. unfold expm1. rewrite exp_0. ring. Qed.
Lemma log_as_simple : forall T dates names r,
  prices_from_returns (history T dates names r) true = prices_from_returns (history T dates names (fun t => map expm1 (r t))) false.
Proof.
  intros T dates names r. unfold prices_from_returns, history. cbn [f_rows f_index f_cols].
  assert (E : map (map (option_map (fun v => exp v))) (map (fun k => map (fun t => Some (nth k (r t) 0)) names) (seq 0 T)) =
              map (map (option_map (fun v => 1 + v))) (map (fun k => map (fun t => Some (nth k (map expm1 (r t)) 0)) names) (seq 0 T))).
  { rewrite !map_map. apply map_ext. intros k. rewrite !map_map. apply map_ext. intros t. cbn [option_map]. f_equal.
    replace (nth k (map expm1 (r t)) 0) with (expm1 (nth k (r t) 0)); [unfold expm1; ring|]. rewrite <- (map_nth expm1). rewrite expm1_0. reflexivity. }
  rewrite E. reflexivity.
Qed.
Lemma expm1_log : forall p, Forall (fun v => 0 < v) p -> map expm1 (logarithmic_returns p) = simple_returns p.
Proof.
  induction p as [|a [|b p] IH]; intros H; [reflexivity|reflexivity|]. apply Forall_cons_iff in H. destruct H as [Ha H].
  change (expm1 (ln (b / a)) :: map expm1 (logarithmic_returns (b :: p)) = (b / a - 1) :: simple_returns (b :: p)). rewrite (IH H). f_equal. apply Forall_cons_iff in H. destruct H as [Hb _]. unfold expm1. rewrite exp_ln by (apply Rdiv_lt_0_compat; assumption). reflexivity.
Qed.
Theorem log_prices_roundtrip : forall T dates names p, names <> [] -> len dates = S (S T) -> (forall t, In t names -> len (p t) = S (S T)) ->
  (forall t, In t names -> Forall (fun v => 0 < v) (p t)) ->
  exists f, returns_from_prices (history (S (S T)) dates names p) true = Ok f /\
    prices_from_returns f true = Ok (history (S T) (tl dates) names (fun t => map (fun v => v / nth 1 (p t) 0) (tl (p t)))).
Proof.
  intros T dates names p Hn Hd Hl Hp. eexists. split; [apply log_returns_history; assumption|]. rewrite log_as_simple.
  destruct (prices_roundtrip T dates names p Hn Hd Hl) as (f & E1 & E2); [intros; apply pos_nonzero; auto|].
  rewrite returns_history in E1 by (auto; intros; apply pos_nonzero; auto). injection E1 as <-. rewrite <- E2. f_equal. unfold history. f_equal.
  apply map_ext_in. intros k _. apply map_ext_in. intros t Ht. rewrite expm1_log by auto. reflexivity.
Qed.
Lemma log_wealth : forall r w, 0 < w -> logarithmic_returns (w :: wealth w (map expm1 r)) = r /\ Forall (fun v => 0 < v) (wealth w (map expm1 r)).
Proof.
  induction r as [|x r IH]; intros w Hw; [split; [reflexivity|constructor]|]. cbn [map wealth].
  change (logarithmic_returns (w :: w * (1 + expm1 x) :: wealth (w * (1 + expm1 x)) (map expm1 r)))
    with (ln (w * (1 + expm1 x) / w) :: logarithmic_returns (w * (1 + expm1 x) :: wealth (w * (1 + expm1 x)) (map expm1 r))).
  assert (E : w * (1 + expm1 x) = w * exp x) by (unfold expm1; ring). rewrite E. pose proof (exp_pos x) as Hx. assert (Hp : 0 < w * exp x) by (apply Rmult_lt_0_compat; assumption).
  destruct (IH _ Hp) as [I1 I2]. split; [|constructor; assumption]. rewrite I1. f_equal. replace (w * exp x / w) with (exp x) by (field; lra). apply ln_exp.
Qed.
Theorem log_returns_roundtrip : forall T dates names r, names <> [] -> len dates = S T -> (forall t, In t names -> len (r t) = S T) ->
  exists f, prices_from_returns (history (S T) dates names r) true = Ok f /\
    returns_from_prices f true = Ok (history T (tl dates) names (fun t => tl (r t))).
Proof.
  intros T dates names r Hn Hd Hl. eexists. split; [rewrite log_as_simple; apply prices_history; intros; rewrite map_length; auto|].
  rewrite log_returns_history; [|exact Hn|exact Hd| |].
  - f_equal. unfold history. f_equal. apply map_ext_in. intros k _. apply map_ext_in. intros t Ht. f_equal. f_equal.
    specialize (Hl t Ht). destruct (r t) as [|x q]; [discriminate Hl|]. cbn [map tl]. apply log_wealth. lra.
  - intros t Ht. specialize (Hl t Ht). destruct (r t) as [|x q]; [discriminate Hl|]. cbn [map tl List.length]. rewrite wealth_length, map_length. cbn in Hl. lia.
  - intros t Ht. constructor; [lra|]. specialize (Hl t Ht). destruct (r t) as [|x q]; [discriminate Hl|]. cbn [map tl]. apply log_wealth. lra.
Qed.
