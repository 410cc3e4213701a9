(** * CAPM estimates of tables with missing entries *)
From Coq Require Import ZArith List String Bool Reals Lra Lia Arith.
From Verif Require Import Num Py RBase PyLemmas MFrame MReturns SLin SHRP SReturns SGaps Sums PBase PHRP2 PFrame PReturns PReturns2 PReturns3 PGaps1 PGaps2.
Import ListNotations.
Local Open Scope R_scope.

Definition with_mkt (x : label -> nat -> option R) (y : nat -> option R) (t : label) : nat -> option R := if label_eqb t mkt then y else x t.
(** ** a market that does not vary *)
Lemma total_squares_zero : forall l, total (map (fun v => v * v) l) = 0 -> Forall (fun v => v = 0) l.
Proof.
  assert (N : forall l, 0 <= total (map (fun v => v * v) l)). { induction l as [|a l IH]; cbn [map total]; [lra|]. nra. }
  induction l as [|a l IH]; intros H; [constructor|]. cbn [map total] in H. specialize (N l). assert (0 <= a * a) by nra.
  constructor; [nra|]. apply IH. lra.
Qed.
Lemma no_variance : forall l, (2 <= len l)%nat -> sample_covariance l l = 0 -> Forall (fun v => v = average l) l.
Proof.
  intros l HL H. unfold sample_covariance in H. assert (1 <= INR (len l) - 1) by (apply INR_ge2; exact HL).
  assert (HZ : total (map (fun k => (nth k l 0 - average l) * (nth k l 0 - average l)) (seq 0 (len l))) = 0).
  { apply (Rmult_eq_reg_r (/ (INR (len l) - 1))); [|apply Rinv_neq_0_compat; lra]. rewrite Rmult_0_l. exact H. }
  rewrite <- (map_map (fun k => nth k l 0 - average l) (fun v => v * v)) in HZ. apply total_squares_zero in HZ.
  rewrite <- (map_map (fun k => nth k l 0) (fun v => v - average l)) in HZ. rewrite nth_seq_map in HZ. rewrite Forall_map in HZ.
  eapply Forall_impl; [|exact HZ]. intros a Ha. cbn in Ha. lra.
Qed.
Lemma average_const : forall l c, l <> [] -> Forall (fun v => v = c) l -> average l = c.
Proof.
  intros l c Hl H. unfold average. assert (E : total l = c * INR (len l)).
  { clear Hl. induction H as [|a l -> Hl IH]; [cbn; lra|]. cbn [total List.length]. rewrite S_INR, IH. lra. }
  rewrite E. field. apply not_0_INR. destruct l; [congruence|discriminate].
Qed.
Lemma constant_covariance : forall x y c, len x = len y -> Forall (fun v => v = c) y -> sample_covariance x y = 0.
Proof.
  intros x y c HL H. unfold sample_covariance. rewrite (total_map_ext _ (fun _ => 0 * 0)); [rewrite total_map_scal; unfold Rdiv; lra|].
  intros k Hk. apply in_seq in Hk. rewrite (average_const y c); [|intros E; rewrite E in HL; cbn in HL; lia|exact H].
  rewrite Forall_forall in H. rewrite (H (nth k y 0)) by (apply nth_In; lia). lra.
Qed.
Lemma common_known : forall T x y, incl (common T x y) (known T y).
Proof. intros T x y k H. unfold common, known in *. apply filter_In in H. apply filter_In. destruct H as [H1 H2]. apply andb_true_iff in H2. tauto. Qed.
Lemma common_self : forall T y, common T y y = known T y.
Proof. intros. unfold common, known. apply filter_ext. intros k. apply andb_diag. Qed.
Lemma constant_common : forall T x y c, Forall (fun v => v = c) (numbers T y) -> forall b, common_covariance T x y = Some b -> b = 0.
Proof.
  intros T x y c H b Hb. unfold common_covariance in Hb. destruct (2 <=? len (common T x y))%nat; [|discriminate Hb]. injection Hb as <-.
  apply (constant_covariance _ _ c); [rewrite !map_length; reflexivity|]. rewrite Forall_map. rewrite Forall_forall. intros k Hk.
  unfold numbers in H. rewrite Forall_map, Forall_forall in H. apply H. apply (common_known T x y). exact Hk.
Qed.
Lemma variance_zero : forall T x y c, common_covariance T y y = Some 0 -> common_covariance T x y = Some c -> c = 0.
Proof.
  intros T x y c Hv Hc. unfold common_covariance in Hv. rewrite common_self in Hv. destruct (Nat.leb_spec 2 (len (known T y))); [|discriminate Hv]. injection Hv as Hv.
  apply no_variance in Hv; [|rewrite map_length; assumption]. eapply constant_common; [exact Hv|exact Hc].
Qed.
Lemma common_covariance_sym : forall T x y, common_covariance T x y = common_covariance T y x.
Proof.
  intros T x y. unfold common_covariance. assert (E : common T x y = common T y x) by (unfold common; apply filter_ext; intros; apply andb_comm). rewrite E.
  destruct (2 <=? len (common T y x))%nat; [|reflexivity]. f_equal. unfold sample_covariance. rewrite !map_length. f_equal. apply total_map_ext. intros; lra.
Qed.

(** ** the estimate *)
Lemma with_mkt_other : forall x y t, t <> mkt -> with_mkt x y t = x t.
Proof. intros x y t H. unfold with_mkt. rewrite label_eqb_neq by exact H. reflexivity. Qed.
Lemma with_mkt_mkt : forall x y, with_mkt x y mkt = y.
Proof. intros. unfold with_mkt. rewrite label_eqb_refl. reflexivity. Qed.
Lemma capm_gappy : forall T dates names x y rf (c : bool) fr m, ~ In mkt names ->
  (if c then cagr fr (map y (seq 0 T)) else Ok (arithmetic fr (map y (seq 0 T)))) = Ok m ->
  capm_estimate (gappy T dates (names ++ [mkt]) (with_mkt x y)) rf c fr =
  Ok (check_returns (gappy T dates (names ++ [mkt]) (with_mkt x y)), map (fun t => (t, capm_value T rf (x t) y m)) names).
Proof.
  intros T dates names x y rf c fr m Hn Hm. unfold capm_estimate. rewrite frame_cov_gappy. cbn [f_index].
  assert (Hin : In mkt (names ++ [mkt])) by (apply in_or_app; right; left; reflexivity).
  rewrite loc_table by exact Hin. cbn [rbind].
  rewrite (mapM_ok _ (fun t => match common_covariance T (with_mkt x y t) y, common_covariance T y y with Some a, Some v => if Req_EM_T v 0 then None else Some (a / v) | _, _ => None end)).
  2:{ intros t Ht. rewrite loc_table by assumption. cbn [rbind]. rewrite with_mkt_mkt. unfold div_cell.
      destruct (common_covariance T (with_mkt x y t) y) as [a|] eqn:Ea; [|reflexivity]. destruct (common_covariance T y y) as [v|] eqn:Ev; [|reflexivity].
      destruct (Req_EM_T v 0) as [E|E].
      - rewrite E in Ev. rewrite (variance_zero _ _ _ _ Ev Ea), E. assert (E0 : Reqb 0 0 = true) by (apply Reqb_true; reflexivity). rewrite E0. reflexivity.
      - assert (E0 : Reqb v 0 = false) by (apply Reqb_false; exact E). rewrite E0. reflexivity. }
  cbn [rbind]. change (f_cols (gappy T dates (names ++ [mkt]) (with_mkt x y))) with (names ++ [mkt]). rewrite position_snoc by exact Hn.
  assert (Ecol : column (f_rows (gappy T dates (names ++ [mkt]) (with_mkt x y))) (len names) = map y (seq 0 T)).
  { rewrite (gappy_column T dates _ (with_mkt x y) _ mkt) by (rewrite nth_error_app2 by lia; rewrite Nat.sub_diag; reflexivity). rewrite with_mkt_mkt. reflexivity. }
  cbv zeta. rewrite Ecol, Hm. cbn [rbind]. f_equal. f_equal.
  rewrite combine_self, map_app, filter_app, map_app. cbn [map filter fst]. rewrite label_eqb_refl. cbn [negb map app]. rewrite app_nil_r.
  rewrite filter_all.
  - rewrite map_map. apply map_ext_in. intros t Ht. cbn [fst snd]. f_equal. unfold capm_value. rewrite with_mkt_other by (intros ->; contradiction).
    destruct (common_covariance T (x t) y) as [a|]; [|reflexivity]. destruct (common_covariance T y y) as [v|]; [|reflexivity].
    destruct (Req_EM_T v 0); [destruct m; reflexivity|]. destruct m; reflexivity.
  - intros [t v] Ht. apply in_map_iff in Ht. destruct Ht as (t' & E & Ht'). injection E as <- _. cbn [fst]. rewrite label_eqb_neq by (intros ->; contradiction). reflexivity.
Qed.
Lemma mean_gappy_market : forall T y (c : bool) fr, (c = true -> 0 < fr /\ Forall (fun v => -1 <= v) (numbers T y)) ->
  exists m, (if c then cagr fr (map y (seq 0 T)) else Ok (arithmetic fr (map y (seq 0 T)))) = Ok m /\ market_mean c fr (numbers T y) m.
Proof.
  intros T y [|] fr H; unfold market_mean.
  - destruct (H eq_refl) as [H1 H2]. destruct (cagr_gappy fr (map y (seq 0 T)) H1) as (m & E & M); [rewrite numbers_present; exact H2|].
    rewrite numbers_present in M. exists m. auto.
  - eexists. split; [reflexivity|]. unfold arithmetic, mean. rewrite numbers_present. destruct (numbers T y); [reflexivity|]. cbn [option_map]. rewrite mean_of_average. reflexivity.
Qed.
Lemma check_with_mkt : forall T dates names x y, ~ In mkt names ->
  check_returns (gappy T dates (names ++ [mkt]) (with_mkt x y)) = true <-> interrupted T y \/ exists t, In t names /\ interrupted T (x t).
Proof.
  intros T dates names x y Hn. rewrite check_gappy. split.
  - intros (t & Ht & Hi). apply in_app_or in Ht. destruct Ht as [Ht|[<-|[]]].
    + right. exists t. rewrite with_mkt_other in Hi by (intros ->; contradiction). auto.
    + left. rewrite with_mkt_mkt in Hi. exact Hi.
  - intros [Hi|(t & Ht & Hi)].
    + exists mkt. rewrite with_mkt_mkt. split; [apply in_or_app; right; left; reflexivity|exact Hi].
    + exists t. rewrite with_mkt_other by (intros ->; contradiction). split; [apply in_or_app; left; exact Ht|exact Hi].
Qed.

(** ** matching the market by date *)
Lemma find_absent : forall (g : nat -> list (option R)) d mdates a, ~ In d mdates ->
  filter (fun mr : label * list (option R) => label_eqb d (fst mr)) (combine mdates (map g (seq a (len mdates)))) = [].
Proof.
  intros g d mdates. induction mdates as [|e l IH]; intros a H; [reflexivity|]. cbn [List.length seq map combine filter fst].
  rewrite label_eqb_neq by (intros ->; apply H; left; reflexivity). apply IH. intros Hi; apply H; right; exact Hi.
Qed.
Lemma find_date : forall (g : nat -> list (option R)) d mdates a j, NoDup mdates -> nth_error mdates j = Some d ->
  filter (fun mr : label * list (option R) => label_eqb d (fst mr)) (combine mdates (map g (seq a (len mdates)))) = [(d, g (a + j)%nat)].
Proof.
  intros g d mdates. induction mdates as [|e l IH]; intros a j HD Hj; [destruct j; discriminate Hj|]. apply NoDup_cons_iff in HD. destruct HD as [HD1 HD2].
  cbn [List.length seq map combine filter fst]. destruct j as [|j].
  - injection Hj as ->. rewrite label_eqb_refl, Nat.add_0_r. rewrite find_absent by exact HD1. reflexivity.
  - cbn [nth_error] in Hj. rewrite label_eqb_neq by (intros ->; apply HD1; eapply nth_error_In; exact Hj). rewrite (IH _ j HD2 Hj). f_equal. f_equal. f_equal. lia.
Qed.
Lemma flat_map_single : forall {X Y} (f : X -> Y) (h : X -> list Y) l, (forall x, In x l -> h x = [f x]) -> flat_map h l = map f l.
Proof. induction l as [|a l IH]; intros H; [reflexivity|]. cbn [flat_map map]. rewrite H by (left; reflexivity). cbn [app]. rewrite IH by (intros; apply H; right; assumption). reflexivity. Qed.
Lemma join_gappy : forall T T' dates mdates names x q y, ~ In mkt names -> len dates = T -> len mdates = T' -> NoDup mdates -> dated T dates mdates q y ->
  join_left (gappy T dates names x) (gappy T' mdates [mkt] (fun _ => q)) = Ok (gappy T dates (names ++ [mkt]) (with_mkt x y)).
Proof.
  intros T T' dates mdates names x q y Hn HD HM ND HY. unfold join_left. cbn [f_cols f_index f_rows gappy].
  assert (E : existsb (label_eqb mkt) names = false).
  { destruct (existsb (label_eqb mkt) names) eqn:E; [|reflexivity]. apply existsb_exists in E. destruct E as (t & Ht & E). 
    destruct (label_eq_dec mkt t) as [<-|N]; [contradiction|]. rewrite label_eqb_neq in E by exact N. discriminate E. }
  rewrite E. subst T T'. rewrite (combine_seq_map dates mkt). rewrite flat_map_concat_map, map_map, <- flat_map_concat_map. cbn [fst snd].
  rewrite (flat_map_single (fun k => (nth k dates mkt, map (fun t => x t k) names ++ [y k]))).
  - rewrite !map_map. cbn [fst snd]. unfold gappy. rewrite nth_seq_map. f_equal. f_equal. apply map_ext. intros k. rewrite map_app. cbn [map]. rewrite with_mkt_mkt. f_equal.
    apply map_ext_in. intros t Ht. rewrite with_mkt_other by (intros ->; contradiction). reflexivity.
  - intros k Hk. apply in_seq in Hk. rewrite Nat.sub_0_r. destruct (HY k (nth k dates mkt)) as [Y1 Y2]; [lia|apply nth_error_nth'; lia|].
    destruct (in_dec label_eq_dec (nth k dates mkt) mdates) as [I|I].
    + apply In_nth_error in I. destruct I as [j Hj]. rewrite (find_date _ _ _ _ j ND Hj), (Y1 j Hj). reflexivity.
    + rewrite find_absent by exact I. rewrite (Y2 I). reflexivity.
Qed.
Theorem capm_market : forall T T' dates mdates names name x q y rf (c : bool) fr log, ~ In mkt names -> len dates = T -> len mdates = T' -> NoDup mdates ->
  dated T dates mdates q y -> (c = true -> 0 < fr /\ Forall (fun v => -1 <= v) (numbers T y)) ->
  exists w m, capm_return (gappy T dates names x) (Some (gappy T' mdates [name] (fun _ => q))) true rf c fr log =
    (Some (gappy T' mdates [mkt] (fun _ => q)), Ok (w, map (fun t => (t, capm_value T rf (x t) y m)) names)) /\
    market_mean c fr (numbers T y) m /\ (w = true <-> interrupted T y \/ exists t, In t names /\ interrupted T (x t)).
Proof.
  intros T T' dates mdates names name x q y rf c fr log Hn HD HM ND HY Hc. destruct (mean_gappy_market T y c fr Hc) as (m & E & M).
  exists (check_returns (gappy T dates (names ++ [mkt]) (with_mkt x y))), m. split; [|split; [exact M|apply check_with_mkt; exact Hn]].
  unfold capm_return, rename_market. cbn [f_cols f_index f_rows gappy List.length Nat.eqb]. f_equal.
  change (mkFrame mdates [mkt] (map (fun k => map (fun _ : label => q k) [name]) (seq 0 T'))) with (gappy T' mdates [mkt] (fun _ => q)).
  change (mkFrame dates names (map (fun k => map (fun t => x t k) names) (seq 0 T))) with (gappy T dates names x).
  rewrite (join_gappy T T' dates mdates names x q y) by assumption. cbn [rbind]. apply capm_gappy; assumption.
Qed.
(** ** the default market *)
Lemma row_mean : forall names (x : label -> nat -> option R) k, mean (map (fun t => x t k) names) = row_average names x k.
Proof.
  intros names x k. unfold mean, row_average.
  assert (E : present (map (fun t => x t k) names) = map (fun t => value (x t) k) (filter (fun t => known_at (x t) k) names)).
  { unfold present. induction names as [|t names IH]; [reflexivity|]. cbn [map flat_map filter]. rewrite IH.
    destruct (x t k) as [v|] eqn:E; [rewrite (known_some _ _ _ E)|rewrite (known_none _ _ E); reflexivity]. cbn [app map]. rewrite (value_some _ _ _ E). reflexivity. }
  rewrite E. generalize (map (fun t => value (x t) k) (filter (fun t => known_at (x t) k) names)). intros [|a l]; [reflexivity|]. rewrite mean_of_average. reflexivity.
Qed.
Lemma set_market_gappy : forall T dates names x y, ~ In mkt names ->
  set_column mkt (map y (seq 0 T)) (gappy T dates names x) = gappy T dates (names ++ [mkt]) (with_mkt x y).
Proof.
  intros T dates names x y Hn. unfold set_column. cbn [f_cols f_index f_rows gappy]. rewrite position_notin by exact Hn. unfold gappy. f_equal. rewrite map2_map.
  apply map_ext. intros k. rewrite map_app. cbn [map]. rewrite with_mkt_mkt. f_equal. apply map_ext_in. intros t Ht. rewrite with_mkt_other by (intros ->; contradiction). reflexivity.
Qed.
Theorem capm_default_gappy : forall T dates names x rf (c : bool) fr log, ~ In mkt names -> 
  let y := row_average names x in (c = true -> 0 < fr /\ Forall (fun v => -1 <= v) (numbers T y)) ->
  exists w m, capm_return (gappy T dates names x) None true rf c fr log = (None, Ok (w, map (fun t => (t, capm_value T rf (x t) y m)) names)) /\
    market_mean c fr (numbers T y) m /\ (w = true <-> interrupted T y \/ exists t, In t names /\ interrupted T (x t)).
Proof.
  intros T dates names x rf c fr log Hn y Hc. destruct (mean_gappy_market T y c fr Hc) as (m & E & M).
  exists (check_returns (gappy T dates (names ++ [mkt]) (with_mkt x y))), m. split; [|split; [exact M|apply check_with_mkt; exact Hn]].
  unfold capm_return. cbn [rbind]. f_equal.
  assert (Em : map mean (f_rows (gappy T dates names x)) = map y (seq 0 T)). { unfold gappy. cbn [f_rows]. rewrite map_map. apply map_ext. intros k. apply row_mean. }
  rewrite Em, set_market_gappy by exact Hn. apply capm_gappy; assumption.
Qed.
Theorem capm_flat : forall T rf x y m c, Forall (fun v => v = c) (numbers T y) -> capm_value T rf x y m = None.
Proof.
  intros T rf x y m c H. unfold capm_value. destruct (common_covariance T x y) as [a|]; [|reflexivity]. destruct (common_covariance T y y) as [v|] eqn:E; [|reflexivity].
  destruct m; [|reflexivity]. destruct (Req_EM_T v 0) as [_|N]; [reflexivity|]. exfalso. apply N. eapply constant_common; [exact H|exact E].
Qed.
Theorem capm_columns : forall prices m rf c fr log, len (f_cols m) <> 1%nat ->
  snd (capm_return prices (Some m) true rf c fr log) = Err ValueError /\
  (forall r s, returns_from_prices prices log = Ok r -> returns_from_prices m log = Ok s -> snd (capm_return prices (Some m) false rf c fr log) = Err ValueError).
Proof.
  intros prices m rf c fr log H. apply Nat.eqb_neq in H. unfold capm_return. split.
  - unfold rename_market. rewrite H. reflexivity.
  - intros r s Hr Hs. cbn [snd]. rewrite Hr, Hs. cbn [rbind]. unfold rename_market.
    assert (E : f_cols s = f_cols m).
    { unfold returns_from_prices, pct_change in Hs. destruct (f_rows m) as [|r0 rows].
      - cbn [rbind] in Hs. destruct log; cbn [rbind] in Hs.
        + destruct (mapM (mapM log_cell) (f_rows m)); [|discriminate Hs]. cbn [rbind] in Hs. injection Hs as <-. reflexivity.
        + injection Hs as <-. reflexivity.
      - destruct (pct_rows r0 rows) as [xs|]; [|discriminate Hs]. cbn [rbind] in Hs. destruct log; cbn [rbind f_rows] in Hs.
        + destruct (mapM (mapM log_cell) _) in Hs; [|discriminate Hs]. cbn [rbind] in Hs. injection Hs as <-. reflexivity.
        + injection Hs as <-. reflexivity. }
    rewrite E, H. reflexivity.
Qed.
(** complete prices *)
Theorem capm_market_prices : forall T T' dates mdates names name p q rf c fr, names <> [] -> len dates = S T -> len mdates = S T' ->
  (forall t, In t names -> len (p t) = S T) -> len q = S T' -> (forall t, In t names -> Forall (fun v => v <> 0) (p t)) -> Forall (fun v => v <> 0) q ->
  snd (capm_return (history (S T) dates names p) (Some (history (S T') mdates [name] (fun _ => q))) false rf c fr false) =
  snd (capm_return (history T (tl dates) names (fun t => simple_returns (p t))) (Some (history T' (tl mdates) [name] (fun _ => simple_returns q))) true rf c fr false).
Proof.
  intros T T' dates mdates names name p q rf c fr Hne HD HM Hp Hq Np Nq. unfold capm_return. cbn [snd].
  rewrite returns_history by assumption. rewrite (returns_history T' mdates [name] (fun _ => q)); [|discriminate|exact HM|intros; exact Hq|intros; exact Nq].
  cbn [rbind]. destruct (rename_market _); reflexivity.
Qed.
