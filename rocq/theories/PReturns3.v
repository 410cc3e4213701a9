(** * Exponential average and CAPM *)
From Coq Require Import ZArith List String Bool Reals Lra Lia Arith.
From Verif Require Import Num Py RBase PyLemmas MFrame MReturns SLin SHRP SReturns Sums PBase PHRP2 PFrame PReturns PReturns2.
Import ListNotations.
Local Open Scope R_scope.

(** ** exponential average *)
Lemma decayed_snoc : forall d l x f, decayed_sum d (l ++ [x]) f = d * decayed_sum d l f + match x with Some v => f v | None => 0 end.
Proof.
  intros d l x f. induction l as [|a l IH].
  - cbn [app decayed_sum List.length]. destruct x; cbn [pow]; lra.
  - cbn [app decayed_sum]. rewrite IH, app_length. cbn [List.length]. rewrite Nat.add_1_r. destruct a; cbn [pow]; lra.
Qed.
Lemma present_app : forall l m, present (l ++ m) = present l ++ present m.
Proof. intros. unfold present. apply flat_map_app. Qed.
Lemma ewm_invariant : forall d l, 0 <= d ->
  match fold_left (ewm_step d) l None with
  | None => present l = []
  | Some (m, w) => present l <> [] /\ w = decayed_sum d l (fun _ => 1) /\ w * m = decayed_sum d l (fun v => v) /\ 0 <= w
  end.
Proof.
  intros d l Hd. induction l as [|x l IH] using rev_ind; [reflexivity|].
  rewrite fold_left_app. cbn [fold_left]. rewrite present_app, !decayed_snoc.
  destruct (fold_left (ewm_step d) l None) as [[m w]|].
  - destruct IH as (I1 & I2 & I3 & I4). assert (0 <= w * d) by (apply Rmult_le_pos; assumption). destruct x as [x|]; cbn [ewm_step].
    + repeat split.
      * intros E. apply app_eq_nil in E. tauto.
      * rewrite I2. lra.
      * rewrite <- I3. field. lra.
      * lra.
    + repeat split.
      * intros E. apply app_eq_nil in E. tauto.
      * rewrite I2. lra.
      * rewrite <- I3. lra.
      * lra.
  - rewrite IH. destruct x as [x|]; cbn [ewm_step]; [|reflexivity].
    assert (E : forall f, decayed_sum d l f = 0).
    { intros f. clear -IH. induction l as [|a l IHl]; [reflexivity|]. destruct a as [a|]; [discriminate IH|]. cbn [decayed_sum]. rewrite IHl by exact IH. lra. }
    rewrite !E. repeat split; try lra. discriminate.
Qed.
Theorem ewm_average : forall d l, 0 <= d -> 0 < decayed_sum d l (fun _ => 1) -> ewm_last d l = Some (decayed_average d l).
Proof.
  intros d l Hd Hp. unfold ewm_last. pose proof (ewm_invariant d l Hd) as I. destruct (fold_left (ewm_step d) l None) as [[m w]|].
  - destruct I as (_ & I2 & I3 & _). cbn [option_map fst]. f_equal. unfold decayed_average. rewrite <- I2, <- I3. field. lra.
  - exfalso. assert (E : decayed_sum d l (fun _ => 1) = 0).
    { clear Hp. induction l as [|a l IHl]; [reflexivity|]. destruct a as [a|]; [discriminate I|]. cbn [decayed_sum]. rewrite IHl by exact I. lra. }
    lra.
Qed.
Theorem ewm_nothing : forall d l, 0 <= d -> present l = [] -> ewm_last d l = None.
Proof.
  intros d l Hd H. unfold ewm_last. pose proof (ewm_invariant d l Hd) as I. destruct (fold_left (ewm_step d) l None) as [[m w]|]; [|reflexivity].
  destruct I as [I _]. congruence.
Qed.
Lemma decayed_positive : forall d l, 0 < d -> present l <> [] -> 0 < decayed_sum d l (fun _ => 1).
Proof.
  intros d l Hd. assert (Hnn : forall l, 0 <= decayed_sum d l (fun _ => 1)).
  { induction l0 as [|a l0 IH]; cbn [decayed_sum]; [lra|]. destruct a; [|lra]. pose proof (pow_lt d (len l0) Hd). lra. }
  induction l as [|a l IH]; intros H; [exfalso; apply H; reflexivity|]. cbn [decayed_sum]. destruct a as [a|].
  - pose proof (pow_lt d (len l) Hd). specialize (Hnn l). lra.
  - specialize (IH H). lra.
Qed.
Theorem decayed_bounds : forall d l lo hi, 0 <= d -> 0 < decayed_sum d l (fun _ => 1) -> Forall (fun v => lo <= v <= hi) (present l) ->
  lo <= decayed_average d l <= hi.
Proof.
  intros d l lo hi Hd Hp H.
  assert (B : lo * decayed_sum d l (fun _ => 1) <= decayed_sum d l (fun v => v) <= hi * decayed_sum d l (fun _ => 1)).
  { clear Hp. induction l as [|a l IH]; [cbn; lra|]. destruct a as [a|].
    - change (present (Some a :: l)) with (a :: present l) in H. apply Forall_cons_iff in H. destruct H as [Ha H]. specialize (IH H).
      cbn [decayed_sum]. pose proof (pow_le d (len l) Hd). nra.
    - specialize (IH H). cbn [decayed_sum]. lra. }
  unfold decayed_average. set (D := decayed_sum d l (fun _ => 1)) in *. split.
  - apply Rmult_le_reg_r with D; [exact Hp|]. unfold Rdiv. rewrite Rmult_assoc, Rinv_l by lra. lra.
  - apply Rmult_le_reg_r with D; [exact Hp|]. unfold Rdiv. rewrite Rmult_assoc, Rinv_l by lra. lra.
Qed.
(** complete data: the explicit weights *)
Lemma decayed_some : forall d (x : list R) f, decayed_sum d (map Some x) f = total (map (fun k => d ^ (len x - 1 - k) * f (nth k x 0)) (seq 0 (len x))).
Proof.
  intros d x f. induction x as [|a x IH]; [reflexivity|]. cbn [map decayed_sum List.length seq total nth]. rewrite map_length, IH.
  replace (S (len x) - 1 - 0)%nat with (len x) by lia. f_equal. rewrite <- seq_shift, map_map. apply total_map_ext. intros k Hk. apply in_seq in Hk.
  replace (S (len x) - 1 - S k)%nat with (len x - 1 - k)%nat by lia. reflexivity.
Qed.
Lemma total_map_div : forall {X} (f : X -> R) k l, total (map (fun t => f t / k) l) = total (map f l) / k.
Proof. intros. unfold Rdiv. induction l as [|a l IH]; cbn [map total]; [lra|]. rewrite IH. lra. Qed.
Lemma total_rev_powers : forall d T, total (map (fun k => d ^ (T - 1 - k)) (seq 0 T)) = total (map (fun j => d ^ j) (seq 0 T)).
Proof.
  intros d T.
  assert (P : forall T, map (fun k => d ^ (T - 1 - k)) (seq 0 T) = rev (map (fun j => d ^ j) (seq 0 T))).
  { intros n. induction n as [|n IH]; [reflexivity|]. rewrite seq_S at 2. rewrite map_app, rev_app_distr. cbn [map rev app]. rewrite <- IH.
    cbn [seq map]. f_equal; [f_equal; lia|]. rewrite <- seq_shift, map_map. apply map_ext_in. intros k Hk. apply in_seq in Hk. f_equal. lia. }
  rewrite P. set (l := map _ _). clearbody l. induction l as [|a l IH]; [reflexivity|]. cbn [rev total]. rewrite total_app, IH. cbn [total]. lra.
Qed.
Lemma powers_positive : forall d T, 0 <= d -> (1 <= T)%nat -> 0 < total (map (fun j => d ^ j) (seq 0 T)).
Proof.
  intros d T Hd HT. destruct T as [|T]; [lia|]. cbn [seq map total pow].
  assert (0 <= total (map (fun j => d ^ j) (seq 1 T))).
  { generalize (seq 1 T). intros l. induction l as [|a l IH]; cbn [map total]; [lra|]. pose proof (pow_le d a Hd). lra. }
  lra.
Qed.
Theorem decayed_complete : forall d (x : list R), 0 <= d -> (1 <= len x)%nat ->
  0 < decayed_sum d (map Some x) (fun _ => 1) /\
  decayed_average d (map Some x) = total (map (fun k => decay_weight d (len x) k * nth k x 0) (seq 0 (len x))).
Proof.
  intros d x Hd Hx. pose proof (powers_positive d (len x) Hd Hx) as Hp.
  assert (E1 : decayed_sum d (map Some x) (fun _ => 1) = total (map (fun j => d ^ j) (seq 0 (len x)))).
  { rewrite decayed_some, <- total_rev_powers. apply total_map_ext. intros; lra. }
  split; [rewrite E1; exact Hp|]. unfold decayed_average. rewrite E1, decayed_some. rewrite <- total_map_div. apply total_map_ext. intros k _. unfold decay_weight. field. lra.
Qed.
Theorem decay_weights : forall d T, 0 <= d -> (1 <= T)%nat ->
  total (map (decay_weight d T) (seq 0 T)) = 1 /\ (forall k, (k < T)%nat -> 0 <= decay_weight d T k) /\
  (d < 1 -> forall j k, (j < k)%nat -> (k < T)%nat -> decay_weight d T j <= decay_weight d T k /\ (0 < d -> decay_weight d T j < decay_weight d T k)).
Proof.
  intros d T Hd HT. pose proof (powers_positive d T Hd HT) as Hp. set (D := total (map (fun j => d ^ j) (seq 0 T))) in *.
  split; [|split].
  - unfold decay_weight. fold D. rewrite total_map_div, total_rev_powers. fold D. field. lra.
  - intros k Hk. unfold decay_weight. fold D. apply Rmult_le_pos; [apply pow_le; exact Hd|]. left. apply Rinv_0_lt_compat. exact Hp.
  - intros H1 j k Hjk Hk. unfold decay_weight. fold D.
    assert (E : d ^ (T - 1 - j) = d ^ (T - 1 - k) * d ^ (k - j)) by (rewrite <- pow_add; f_equal; lia).
    assert (P0 : 0 <= d ^ (T - 1 - k)) by (apply pow_le; exact Hd).
    assert (Q : d ^ (k - j) < 1). { destruct (k - j)%nat as [|m] eqn:Em; [lia|]. cbn [pow]. assert (d ^ m <= 1). { clear -Hd H1. induction m as [|m IH]; cbn [pow]; [lra|]. pose proof (pow_le d m Hd). nra. } pose proof (pow_le d m Hd). nra. }
    assert (I : 0 < / D) by (apply Rinv_0_lt_compat; exact Hp).
    split.
    + unfold Rdiv. apply Rmult_le_compat_r; [lra|]. rewrite E. nra.
    + intros Hd0. unfold Rdiv. apply Rmult_lt_compat_r; [exact I|]. rewrite E. pose proof (pow_lt d (T - 1 - k) Hd0). nra.
Qed.
Lemma decay_range : forall span, 1 <= span -> 1 - 2 / (span + 1) = (span - 1) / (span + 1) /\ 0 <= (span - 1) / (span + 1) < 1 /\ (1 < span -> 0 < (span - 1) / (span + 1)).
Proof.
  intros span H. split; [field; lra|]. assert (I : 0 < / (span + 1)) by (apply Rinv_0_lt_compat; lra). unfold Rdiv. repeat split.
  - apply Rmult_le_pos; lra.
  - apply Rmult_lt_reg_r with (span + 1); [lra|]. rewrite Rmult_assoc, Rinv_l; lra.
  - intros. apply Rmult_lt_0_compat; lra.
Qed.
Lemma ewm_complete : forall span x, 1 <= span -> (1 <= len x)%nat -> ewm_last (1 - 2 / (span + 1)) (map Some x) = Some (ema_value span x).
Proof.
  intros span x Hs Hx. destruct (decay_range span Hs) as (E & [H0 _] & _). rewrite E. destruct (decayed_complete _ x H0 Hx) as [Hp Ha].
  rewrite ewm_average by assumption. rewrite Ha. reflexivity.
Qed.
Lemma mapM_map_any : forall {X Y Z} (f : Y -> res Z) (g : X -> Y) (h : X -> Z) l, (forall x, In x l -> f (g x) = Ok (h x)) -> mapM f (map g l) = Ok (map h l).
Proof. intros; apply mapM_map; assumption. Qed.
Theorem ema_arithmetic : forall T dates names x span fr log, (1 <= T)%nat -> 1 <= span -> (forall t, In t names -> len (x t) = T) ->
  ema_historical_return (history T dates names x) true false span fr log = Ok (false, map (fun t => (t, Some (ema_value span (x t) * fr))) names).
Proof.
  intros T dates names x span fr log HT Hs Hl. unfold ema_historical_return. cbn [rbind].
  assert (E : Rltb span 1 = false) by (apply Rltb_false; exact Hs). rewrite E. clear E.
  destruct T as [|T]; [lia|]. destruct (f_rows (history (S T) dates names x)) eqn:E; [discriminate E|]. clear E.
  rewrite columns_history, check_history by exact Hl. rewrite (mapM_map _ _ (fun t => Some (ema_value span (x t) * fr))).
  - cbn [rbind f_cols history]. rewrite combine_self. reflexivity.
  - intros t Ht. rewrite ewm_complete; [reflexivity|exact Hs|rewrite (Hl t Ht); lia].
Qed.
Theorem ema_compound : forall T dates names x span fr log, (1 <= T)%nat -> 1 <= span -> (forall t, In t names -> len (x t) = T) ->
  (forall t, In t names -> -1 < ema_value span (x t)) ->
  ema_historical_return (history T dates names x) true true span fr log = Ok (false, map (fun t => (t, Some (Rpower (1 + ema_value span (x t)) fr - 1))) names).
Proof.
  intros T dates names x span fr log HT Hs Hl Hv. unfold ema_historical_return. cbn [rbind].
  assert (E : Rltb span 1 = false) by (apply Rltb_false; exact Hs). rewrite E. clear E.
  destruct T as [|T]; [lia|]. destruct (f_rows (history (S T) dates names x)) eqn:E; [discriminate E|]. clear E.
  rewrite columns_history, check_history by exact Hl. rewrite (mapM_map _ _ (fun t => Some (Rpower (1 + ema_value span (x t)) fr - 1))).
  - cbn [rbind f_cols history]. rewrite combine_self. reflexivity.
  - intros t Ht. rewrite ewm_complete; [|exact Hs|rewrite (Hl t Ht); lia]. unfold np_pow. specialize (Hv t Ht). rewrite (proj2 (Rltb_true 0 _)) by lra. reflexivity.
Qed.
(** prices are turned into returns first *)
Theorem ema_prices : forall T dates names p compounding span fr, names <> [] -> len dates = S T -> (forall t, In t names -> len (p t) = S T) ->
  (forall t, In t names -> Forall (fun v => v <> 0) (p t)) ->
  ema_historical_return (history (S T) dates names p) false compounding span fr false =
  ema_historical_return (history T (tl dates) names (fun t => simple_returns (p t))) true compounding span fr false.
Proof.
  intros T dates names p c span fr Hn Hd Hl Hp. unfold ema_historical_return. rewrite returns_history by assumption. reflexivity.
Qed.
Theorem ema_bounds : forall span x lo hi, 1 <= span -> (1 <= len x)%nat -> Forall (fun v => lo <= v <= hi) x -> lo <= ema_value span x <= hi.
Proof.
  intros span x lo hi Hs Hx H. destruct (decay_range span Hs) as (_ & [H0 _] & _). destruct (decayed_complete _ x H0 Hx) as [Hp Ha].
  unfold ema_value. rewrite <- Ha. apply decayed_bounds; [exact H0|exact Hp|]. rewrite present_some. exact H.
Qed.
(** NaN: the same weights over the observations that are there *)
Theorem ema_missing : forall l span, 1 < span -> present l <> [] ->
  ewm_last (1 - 2 / (span + 1)) l = Some (decayed_average ((span - 1) / (span + 1)) l) /\
  (forall lo hi, Forall (fun v => lo <= v <= hi) (present l) -> lo <= decayed_average ((span - 1) / (span + 1)) l <= hi).
Proof.
  intros l span Hs H. destruct (decay_range span) as (E & [H0 _] & Hpos); [lra|]. rewrite E. specialize (Hpos Hs).
  pose proof (decayed_positive _ l Hpos H) as HD. split; [apply ewm_average; assumption|]. intros. apply decayed_bounds; assumption.
Qed.

(** ** CAPM with the default market *)
Lemma row_means : forall T names (x : label -> list R), names <> [] ->
  map mean (map (fun k => map (fun t => Some (nth k (x t) 0)) names) (seq 0 T)) = map Some (market T names x).
Proof.
  intros T names x Hn. unfold market. rewrite !map_map. apply map_ext. intros k. rewrite <- (map_map (fun t => nth k (x t) 0) Some). apply mean_some.
  destruct names; [congruence|discriminate].
Qed.
Definition with_market (m : list R) (x : label -> list R) (t : label) : list R := if label_eqb t mkt then m else x t.
Lemma position_notin : forall t l, ~ In t l -> position t l = None.
Proof. induction l as [|a l IH]; intros H; [reflexivity|]. cbn [position]. rewrite label_eqb_neq by (intros ->; apply H; left; reflexivity). rewrite IH; [reflexivity|]. intros Hin; apply H; right; exact Hin. Qed.
Lemma position_snoc : forall t l, ~ In t l -> position t (l ++ [t]) = Some (len l).
Proof. induction l as [|a l IH]; intros H; cbn [position app List.length]; [rewrite label_eqb_refl; reflexivity|]. rewrite label_eqb_neq by (intros ->; apply H; left; reflexivity). rewrite IH; [reflexivity|]. intros Hin; apply H; right; exact Hin. Qed.
Lemma map2_seq : forall {X Y Z} (f : X -> Y -> Z) g h (l : list nat), map2 f (map g l) (map h l) = map (fun k => f (g k) (h k)) l.
Proof. intros. induction l as [|a l IH]; [reflexivity|]. cbn [map map2]. rewrite IH. reflexivity. Qed.
Lemma market_length : forall T names x, len (market T names x) = T.
Proof. intros; unfold market; rewrite map_length, seq_length; reflexivity. Qed.
Lemma market_nth : forall T names x k, (k < T)%nat -> nth k (market T names x) 0 = average (map (fun t => nth k (x t) 0) names).
Proof.
  intros T names x k Hk. unfold market. rewrite (nth_indep _ 0 (average (map (fun t => nth 0 (x t) 0) names))) by (rewrite map_length, seq_length; exact Hk).
  rewrite (map_nth (fun k => average (map (fun t => nth k (x t) 0) names))), seq_nth by exact Hk. reflexivity.
Qed.
Lemma set_market : forall T dates names x m, ~ In mkt names -> len m = T ->
  set_column mkt (map Some m) (history T dates names x) = history T dates (names ++ [mkt]) (with_market m x).
Proof.
  intros T dates names x m Hn Hm. unfold set_column. cbn [f_cols f_index f_rows history]. rewrite position_notin by exact Hn.
  unfold history. f_equal. rewrite <- (nth_seq_map m 0) at 1. rewrite Hm, map_map, map2_seq. apply map_ext_in. intros k Hk. apply in_seq in Hk.
  rewrite map_app. cbn [map]. unfold with_market at 2. rewrite label_eqb_refl. f_equal. apply map_ext_in. intros t Ht.
  unfold with_market. rewrite label_eqb_neq by (intros ->; contradiction). reflexivity.
Qed.
Lemma loc_table : forall {X} names (g : label -> label -> X) t u, In t names -> In u names -> loc (mkFrame names names (map (fun t => map (g t) names) names)) t u = Ok (g t u).
Proof.
  intros X names g t u Ht Hu. destruct (position_in t names Ht) as [i [Ei Ni]], (position_in u names Hu) as [j [Ej Nj]].
  unfold loc. cbn [f_index f_cols f_rows]. rewrite Ei, Ej, nth_error_map, Ni. cbn [option_map]. rewrite nth_error_map, Nj. reflexivity.
Qed.
Lemma filter_false : forall {X} (f : X -> bool) l, (forall x, In x l -> f x = false) -> filter f l = [].
Proof. induction l as [|a l IH]; intros H; [reflexivity|]. cbn [filter]. rewrite H by (left; reflexivity). apply IH. intros; apply H; right; assumption. Qed.
Lemma capm_core : forall T dates names x m rf (compounding : bool) fr mm, (2 <= T)%nat -> ~ In mkt names -> (forall t, In t names -> len (x t) = T) -> len m = T ->
  sample_covariance m m <> 0 -> (if compounding then cagr fr (map Some m) else Ok (arithmetic fr (map Some m))) = Ok (Some mm) ->
  capm_estimate (history T dates (names ++ [mkt]) (with_market m x)) rf compounding fr =
  Ok (false, map (fun t => (t, Some (rf + market_beta (x t) m * (mm - rf)))) names).
Proof.
  intros T dates names x m rf c fr mm HT Hn Hl Hm Hv Hmm.
  assert (Hw : forall t, In t names -> with_market m x t = x t). { intros t Ht. unfold with_market. rewrite label_eqb_neq by (intros ->; contradiction). reflexivity. }
  assert (Hwm : with_market m x mkt = m) by (unfold with_market; rewrite label_eqb_refl; reflexivity).
  assert (HL : forall t, In t (names ++ [mkt]) -> len (with_market m x t) = T).
  { intros t Ht. apply in_app_or in Ht. destruct Ht as [Ht|[<-|[]]]; [rewrite Hw by exact Ht; auto|rewrite Hwm; exact Hm]. }
  unfold capm_estimate. rewrite frame_cov_history by assumption. cbn [f_index].
  assert (Hin : In mkt (names ++ [mkt])) by (apply in_or_app; right; left; reflexivity).
  rewrite loc_table by exact Hin. cbn [rbind].
  rewrite (mapM_ok _ (fun t => Some (sample_covariance (with_market m x t) m / sample_covariance m m))).
  2:{ intros t Ht. rewrite loc_table by assumption. cbn [rbind div_cell]. rewrite Hwm. assert (E : Reqb (sample_covariance m m) 0 = false) by (apply Reqb_false; exact Hv). rewrite E. reflexivity. }
  cbn [rbind]. change (f_cols (history T dates (names ++ [mkt]) (with_market m x))) with (names ++ [mkt]). rewrite position_snoc by exact Hn.
  assert (Ecol : column (f_rows (history T dates (names ++ [mkt]) (with_market m x))) (len names) = map Some m).
  { pose proof (columns_history T dates (names ++ [mkt]) (with_market m x) HL) as Ec. unfold columns in Ec. cbn [f_cols history] in Ec.
    rewrite app_length, Nat.add_1_r, seq_S, !map_app in Ec. cbn [map] in Ec. apply app_inj_tail in Ec. destruct Ec as [_ Ec]. rewrite Hwm in Ec. exact Ec. }
  cbv zeta. rewrite Ecol, Hmm. cbn [rbind]. rewrite check_history by exact HL. f_equal. f_equal.
  rewrite combine_self, map_app, filter_app, map_app. cbn [map filter fst]. rewrite label_eqb_refl. cbn [negb map app]. rewrite app_nil_r.
  rewrite filter_all.
  - rewrite map_map. apply map_ext_in. intros t Ht. cbn [fst snd]. unfold market_beta. rewrite Hw by exact Ht. reflexivity.
  - intros [t v] Ht. apply in_map_iff in Ht. destruct Ht as (t' & E & Ht'). injection E as <- _. cbn [fst]. rewrite label_eqb_neq by (intros ->; contradiction). reflexivity.
Qed.
(** the equally weighted average of the covariances with the market is the market variance *)
Lemma average_cov : forall T names x, names <> [] -> (forall t, In t names -> len (x t) = T) -> (1 <= T)%nat ->
  forall y, len y = T -> total (map (fun t => sample_covariance (x t) y) names) = INR (len names) * sample_covariance (market T names x) y.
Proof.
  intros T names x Hn Hl HT y Hy. set (N := INR (len names)).
  assert (HN : 0 < N) by (apply lt_0_INR; destruct names; [congruence|cbn; lia]).
  assert (HTT : 0 < INR T) by (apply lt_0_INR; lia).
  assert (Hsum : forall ns, incl ns names -> total (map (fun t => sample_covariance (x t) y) ns) =
    total (map (fun k => (total (map (fun t => nth k (x t) 0) ns) - total (map (fun t => average (x t)) ns)) * (nth k y 0 - average y)) (seq 0 T)) / (INR T - 1)).
  { induction ns as [|t ns IH]; intros Hi.
    - cbn [map total]. rewrite (total_map_ext _ (fun _ => 0 * 0)) by (intros; lra). rewrite total_map_scal. lra.
    - cbn [map total]. rewrite IH by (intros u Hu; apply Hi; right; exact Hu). unfold sample_covariance. rewrite (Hl t) by (apply Hi; left; reflexivity).
      rewrite <- Rdiv_plus_distr. f_equal. generalize (seq 0 T). intros l. induction l as [|k l IHl]; cbn [map total]; [lra|]. rewrite <- IHl. lra. }
  rewrite Hsum by apply incl_refl. unfold sample_covariance. rewrite market_length.
  assert (Eavg : total (map (fun t => average (x t)) names) = N * average (market T names x)).
  { unfold average at 2. rewrite market_length. unfold market.
    assert (Es : total (map (fun k => average (map (fun t => nth k (x t) 0) names)) (seq 0 T)) = total (map (fun t => total (x t)) names) / N).
    { transitivity (total (map (fun k => total (map (fun t => nth k (x t) 0) names) / N) (seq 0 T))).
      { apply total_map_ext. intros k _. unfold average. rewrite map_length. reflexivity. }
      rewrite total_map_div. f_equal. clear Hsum HN N Hy y Hn.
      induction names as [|t ns IH]; [cbn [map total]; rewrite (total_map_ext _ (fun _ => 0 * 0)) by (intros; lra); rewrite total_map_scal; lra|].
      cbn [map total]. rewrite <- IH by (intros; apply Hl; right; assumption). rewrite <- (nth_seq_map (x t) 0) at 1. rewrite (Hl t) by (left; reflexivity).
      generalize (seq 0 T). intros l. induction l as [|k l IHl]; cbn [map total]; [lra|]. rewrite IHl. lra. }
    rewrite Es. transitivity (total (map (fun t => total (x t)) names) / INR T); [|field; lra]. rewrite <- total_map_div. apply total_map_ext.
    intros t Ht. unfold average. rewrite (Hl t Ht). reflexivity. }
  rewrite Eavg. unfold Rdiv. rewrite <- Rmult_assoc. f_equal. rewrite <- total_map_scal. apply total_map_ext. intros k Hk. apply in_seq in Hk.
  rewrite market_nth by lia. unfold average at 3. rewrite map_length. fold N. field. lra.
Qed.
Lemma product_factor : forall l, product (map (fun v => 1 + v) l) = growth_factor l.
Proof. induction l as [|a l IH]; [reflexivity|]. cbn [map product growth_factor]. rewrite IH. reflexivity. Qed.
Theorem capm_default_estimate : forall T dates names x rf (compounding : bool) fr mm log, names <> [] -> (2 <= T)%nat -> ~ In mkt names -> (forall t, In t names -> len (x t) = T) ->
  let m := market T names x in sample_covariance m m <> 0 ->
  (if compounding then (Forall (fun v => -1 < v) m /\ mm = Rpower (growth_factor m) (fr / INR T) - 1) else mm = average m * fr) ->
  capm_return (history T dates names x) None true rf compounding fr log = (None, Ok (false, map (fun t => (t, Some (rf + market_beta (x t) m * (mm - rf)))) names)).
Proof.
  intros T dates names x rf c fr mm log Hne HT Hn Hl m Hv Hmm. unfold capm_return. cbn [rbind].
  f_equal. change (f_rows (history T dates names x)) with (map (fun k => map (fun t => Some (nth k (x t) 0)) names) (seq 0 T)).
  rewrite row_means by exact Hne. fold m. assert (Hm : len m = T) by apply market_length. rewrite set_market by assumption.
  assert (Hm0 : m <> []) by (destruct m; [cbn in Hm; lia|discriminate]).
  apply capm_core; try assumption. destruct c.
  - destruct Hmm as [Hpos ->]. rewrite <- product_factor. unfold cagr, count. rewrite present_some, Hm. destruct m as [|m0 m']; [congruence|]. unfold np_pow.
    assert (Hprod : 0 < product (map (fun v => 1 + v) (m0 :: m'))).
    { clear -Hpos. induction (m0 :: m') as [|a l IH]; cbn [map product]; [lra|]. apply Forall_cons_iff in Hpos. destruct Hpos. apply Rmult_lt_0_compat; [lra|auto]. }
    rewrite (proj2 (Rltb_true 0 _)) by exact Hprod. reflexivity.
  - unfold arithmetic. rewrite mean_some by exact Hm0. cbn [option_map]. rewrite Hmm. reflexivity.
Qed.
Theorem capm_average : forall T names x rf mm, names <> [] -> (2 <= T)%nat -> (forall t, In t names -> len (x t) = T) ->
  let m := market T names x in sample_covariance m m <> 0 ->
  average (map (fun t => rf + market_beta (x t) m * (mm - rf)) names) = mm.
Proof.
  intros T names x rf mm Hne HT Hl m Hv. set (N := INR (len names)).
  assert (HN : 0 < N) by (apply lt_0_INR; destruct names; [congruence|cbn; lia]).
  assert (Hb : total (map (fun t => market_beta (x t) m) names) = N).
  { unfold market_beta. rewrite total_map_div, (average_cov T names x) by (auto; try lia; apply market_length). fold m N. field. exact Hv. }
  unfold average. rewrite map_length. fold N.
  assert (E : total (map (fun t => rf + market_beta (x t) m * (mm - rf)) names) = N * rf + N * (mm - rf)).
  { rewrite <- Hb at 2. unfold N. clearbody m. clear. induction names as [|t ns IH]; [cbn [map total List.length INR]; lra|]. cbn [map total List.length]. rewrite IH, S_INR. lra. }
  rewrite E. field. lra.
Qed.
(** C81: an asset called "mkt" is overwritten and dropped *)
Theorem capm_drops_mkt : forall prices market_prices rd rf c fr log w s, snd (capm_return prices market_prices rd rf c fr log) = Ok (w, s) -> ~ In mkt (map fst s).
Proof.
  assert (H : forall f rf c fr w s, capm_estimate f rf c fr = Ok (w, s) -> ~ In mkt (map fst s)).
  { intros f rf c fr w s H. unfold capm_estimate in H. destruct (loc (frame_cov f) mkt mkt) as [v|e]; [|discriminate H]. cbn [rbind] in H.
    destruct (mapM _ (f_index (frame_cov f))) as [betas|e]; [|discriminate H]. cbn [rbind] in H. destruct (position mkt (f_cols f)) as [j|]; [|discriminate H].
    destruct (if c then _ else _) as [m|e]; [|discriminate H]. cbn [rbind] in H. injection H as _ <-. rewrite map_map. cbn [fst]. intros Hin.
    apply in_map_iff in Hin. destruct Hin as ([t b] & E & Hf). cbn [fst] in E. subst t. apply filter_In in Hf. destruct Hf as [_ Hf]. cbn [fst] in Hf. rewrite label_eqb_refl in Hf. discriminate Hf. }
  intros prices mp rd rf c fr log w s E. unfold capm_return in E. destruct mp as [mp|].
  - destruct rd.
    + destruct (rename_market mp) as [m'|e]; [|discriminate E]. cbn [snd] in E. destruct (join_left prices m'); [|discriminate E]. cbn [rbind] in E. eapply H; exact E.
    + cbn [snd] in E. destruct (returns_from_prices prices log); [|discriminate E]. cbn [rbind] in E. destruct (returns_from_prices mp log); [|discriminate E]. cbn [rbind] in E.
      destruct (rename_market _); [|discriminate E]. cbn [rbind] in E. destruct (join_left _ _); [|discriminate E]. cbn [rbind] in E. eapply H; exact E.
  - cbn [snd] in E. destruct (if rd then _ else _) as [r|e]; [|discriminate E]. cbn [rbind] in E. eapply H; exact E.
Qed.
(** with an explicit market the same name raises *)
Theorem capm_mkt_clash : forall prices m rf c fr log, In mkt (f_cols prices) -> snd (capm_return prices (Some m) true rf c fr log) = Err ValueError.
Proof.
  intros prices m rf c fr log Hin. unfold capm_return. destruct (rename_market m) as [m'|e] eqn:E; cbn [snd].
  - unfold join_left. assert (Ex : existsb (label_eqb mkt) (f_cols prices) = true) by (apply existsb_exists; exists mkt; split; [exact Hin|apply label_eqb_refl]). rewrite Ex. reflexivity.
  - unfold rename_market in E. destruct (Nat.eqb _ _); congruence.
Qed.
(** C82 *)
Theorem capm_renames : forall prices name rows dates rf c fr log,
  fst (capm_return prices (Some (mkFrame dates [name] rows)) true rf c fr log) = Some (mkFrame dates [mkt] rows).
Proof. reflexivity. Qed.
Theorem capm_prices_kept : forall prices m rf c fr log, fst (capm_return prices (Some m) false rf c fr log) = Some m.
Proof. reflexivity. Qed.
Theorem capm_default : forall T dates names x rf (compounding : bool) fr mm log, names <> [] -> (2 <= T)%nat -> ~ In mkt names -> (forall t, In t names -> len (x t) = T) ->
  let m := market T names x in sample_covariance m m <> 0 ->
  (if compounding then (Forall (fun v => -1 < v) m /\ mm = Rpower (growth_factor m) (fr / INR T) - 1) else mm = average m * fr) ->
  exists v, capm_return (history T dates names x) None true rf compounding fr log = (None, Ok (false, map (fun t => (t, Some (v t))) names)) /\
    (forall t, In t names -> v t = rf + market_beta (x t) m * (mm - rf)) /\ average (map v names) = mm.
Proof.
  intros T dates names x rf c fr mm log Hne HT Hn Hl m Hv Hmm. eexists. split; [apply capm_default_estimate; eassumption|]. split; [reflexivity|].
  apply (capm_average T); assumption.
Qed.
Theorem capm_prices : forall T dates names p rf compounding fr, names <> [] -> len dates = S T -> (forall t, In t names -> len (p t) = S T) ->
  (forall t, In t names -> Forall (fun v => v <> 0) (p t)) ->
  capm_return (history (S T) dates names p) None false rf compounding fr false =
  capm_return (history T (tl dates) names (fun t => simple_returns (p t))) None true rf compounding fr false.
Proof. intros. unfold capm_return. rewrite returns_history by assumption. reflexivity. Qed.
