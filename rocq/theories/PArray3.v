(** * Proofs for arrays and Series (C111, C112) *)
From Coq Require Import ZArith String List Bool Reals Lia.
From Verif Require Import Num Py PyLemmas MFrame MBase MHRP MReturns MRisk MRisk2 MArray SArray PReturns PReturns2 PReturns3 PArray PArray2.
Import ListNotations.
Local Open Scope R_scope.
Local Notation len := List.length.

Lemma range_length : forall n, len (range_labels n) = n.
Proof. intros. unfold range_labels. rewrite map_length. apply seq_length. Qed.
Lemma range_nth : forall n i, (i < n)%nat -> nth_error (range_labels n) i = Some (LInt (Z.of_nat i)).
Proof.
  intros n i H. unfold range_labels. apply (nth_error_map_some (fun i => LInt (Z.of_nat i))).
  rewrite nth_error_nth' with (d := O) by (rewrite seq_length; exact H). rewrite seq_nth by exact H. reflexivity.
Qed.
Lemma range_counted : forall n, counted n (range_labels n).
Proof. intros n. split; [apply range_length|]. apply range_nth. Qed.
Lemma range_distinct : forall n, NoDup (range_labels n).
Proof. intros n. unfold range_labels. apply FinFun.Injective_map_NoDup; [|apply seq_NoDup]. intros a b H. injection H as H. lia. Qed.
Lemma range_no_mkt : forall n, ~ In mkt (range_labels n).
Proof. intros n H. unfold range_labels in H. apply in_map_iff in H. destruct H as [i [E _]]. discriminate E. Qed.
Lemma holds_same : forall n rows f, holds n rows f -> same_table (frame_of (TArray n rows)) f.
Proof. intros n rows f [H1 [H2 H3]]. unfold same_table. cbn [frame_of f_rows f_cols f_index]. rewrite !range_length. repeat split; congruence. Qed.

Theorem array_returns : forall n rows f rd comp fr log, holds n rows f -> exists ls, counted n ls /\
  (exists r r', mean_historical_return_any (TArray n rows) rd comp fr log = (true, r) /\
                mean_historical_return_any (TFrame f) rd comp fr log = (false, r') /\ same_estimates ls (f_cols f) r r') /\
  (forall span, exists r r', ema_historical_return_any (TArray n rows) rd comp span fr log = (true, r) /\
                ema_historical_return_any (TFrame f) rd comp span fr log = (false, r') /\ same_estimates ls (f_cols f) r r') /\
  (forall rf, NoDup (f_cols f) -> ~ In mkt (f_cols f) -> exists r r',
     capm_return_any (TArray n rows) None rd rf comp fr log = (true, false, r) /\
     capm_return_any (TFrame f) None rd rf comp fr log = (false, false, r') /\ same_estimates ls (f_cols f) r r').
Proof.
  intros n rows f rd comp fr log H. exists (range_labels n). split; [apply range_counted|]. pose proof (holds_same n rows f H) as S.
  split; [|split].
  - do 2 eexists. split; [reflexivity|]. split; [reflexivity|]. exact (mean_same _ _ rd comp fr log S).
  - intros span. do 2 eexists. split; [reflexivity|]. split; [reflexivity|]. exact (ema_same _ _ rd comp span fr log S).
  - intros rf D N. do 2 eexists. split; [reflexivity|]. split; [reflexivity|].
    exact (capm_default_same _ _ rd rf comp fr log S (range_distinct n) (range_no_mkt n) D N).
Qed.
Theorem array_matrices : forall eigh n rows f rd fr log fm, holds n rows f -> exists ls, counted n ls /\
  (exists r r', sample_cov_any eigh (TArray n rows) rd fr log fm = (true, r) /\
                sample_cov_any eigh (TFrame f) rd fr log fm = (false, r') /\ same_matrix ls (f_cols f) r r') /\
  (forall b, exists r r', semicovariance_any eigh (TArray n rows) rd b fr log fm = (true, r) /\
                semicovariance_any eigh (TFrame f) rd b fr log fm = (false, r') /\ same_matrix ls (f_cols f) r r') /\
  (forall span, exists r r', exp_cov_any eigh (TArray n rows) rd span fr log fm = (true, r) /\
                exp_cov_any eigh (TFrame f) rd span fr log fm = (false, r') /\ same_matrix ls (f_cols f) r r') /\
  (forall mcd, exists r r', min_cov_determinant_any eigh mcd (TArray n rows) rd fr log fm = (true, r) /\
                min_cov_determinant_any eigh mcd (TFrame f) rd fr log fm = (false, r') /\ same_matrix ls (f_cols f) r r').
Proof.
  intros eigh n rows f rd fr log fm H. exists (range_labels n). split; [apply range_counted|]. pose proof (holds_same n rows f H) as S.
  split; [|split; [|split]].
  - do 2 eexists. split; [reflexivity|]. split; [reflexivity|]. exact (sample_same eigh _ _ rd fr log fm S).
  - intros b. do 2 eexists. split; [reflexivity|]. split; [reflexivity|]. exact (semi_same eigh _ _ rd b fr log fm S).
  - intros span. do 2 eexists. split; [reflexivity|]. split; [reflexivity|]. exact (exp_same eigh _ _ rd span fr log fm S).
  - intros mcd. do 2 eexists. split; [reflexivity|]. split; [reflexivity|]. exact (mcd_same eigh mcd _ _ rd fr log fm S).
Qed.
Theorem array_shrinkage : forall eigh n rows f rd fr log, holds n rows f -> exists ls, counted n ls /\
  exists i j, shrinkage_init_any (TArray n rows) rd fr log = (true, i) /\ shrinkage_init_any (TFrame f) rd fr log = (false, j) /\
  (forall d, same_matrix ls (f_cols f) (do sh <- i ; shrunk_covariance eigh sh d) (do sh <- j ; shrunk_covariance eigh sh d)) /\
  (forall sk target, same_shrunk ls (f_cols f) (do sh <- i ; ledoit_wolf eigh sk sh target) (do sh <- j ; ledoit_wolf eigh sk sh target)) /\
  (forall sk, same_shrunk ls (f_cols f) (do sh <- i ; oracle_approximating eigh sk sh) (do sh <- j ; oracle_approximating eigh sk sh)).
Proof.
  intros eigh n rows f rd fr log H. exists (range_labels n). split; [apply range_counted|]. pose proof (holds_same n rows f H) as S.
  do 2 eexists. split; [reflexivity|]. split; [reflexivity|]. split; [|split].
  - intros d. exact (shrunk_same eigh _ _ rd fr log d S).
  - intros sk target. exact (ledoit_same eigh sk _ _ rd fr log target S).
  - intros sk. exact (oracle_same eigh sk _ _ rd fr log S).
Qed.

(** ** The market as an array or a Series *)
Lemma firstn_nth : forall {X} (l : list X) k i x, nth_error (firstn k l) i = Some x -> nth_error l i = Some x.
Proof.
  induction l as [|a l IH]; intros [|k] [|i] x H; cbn in *; try discriminate; [exact H|]. exact (IH k i x H).
Qed.
Lemma calendar_alike : forall days ix jx n k, same_calendar days ix jx -> aligned_alike (range_labels n) (range_labels k) ix jx.
Proof.
  intros days ix jx n k [D [[p Hp] [q Hq]]] i j a b a' b' Hi Hj Hi' Hj'. subst ix jx. apply firstn_nth in Hi'. apply firstn_nth in Hj'.
  assert (Li : (i < n)%nat) by (rewrite <- (range_length n); apply nth_error_Some; congruence).
  assert (Lj : (j < k)%nat) by (rewrite <- (range_length k); apply nth_error_Some; congruence).
  rewrite range_nth in Hi by exact Li. rewrite range_nth in Hj by exact Lj. injection Hi as <-. injection Hj as <-. split.
  - intros E. injection E as E. assert (i = j) by lia. subst. congruence.
  - intros E. subst b'. assert (i = j). { eapply NoDup_nth_error; [exact D| |congruence]. apply nth_error_Some. congruence. } subst. reflexivity.
Qed.
Theorem array_market : forall n rows f q m days rf comp fr log, holds n rows f -> holds 1 q m -> same_calendar days (f_index f) (f_index m) ->
  NoDup (f_cols f) -> ~ In mkt (f_cols f) -> exists ls r r', counted n ls /\
  capm_return_any (TArray n rows) (Some (TArray 1 q)) false rf comp fr log = (true, true, r) /\
  capm_return_any (TFrame f) (Some (TFrame m)) false rf comp fr log = (false, false, r') /\ same_estimates ls (f_cols f) r r'.
Proof.
  intros n rows f q m days rf comp fr log H K C D N. exists (range_labels n). do 2 eexists. split; [apply range_counted|].
  split; [reflexivity|]. split; [reflexivity|].
  refine (capm_market_same (frame_of (TArray n rows)) f (frame_of (TArray 1 q)) m false rf comp fr log (holds_same _ _ _ H) (holds_same _ _ _ K) _ (range_distinct n) (range_no_mkt n) D N).
  cbn [frame_of f_index]. exact (calendar_alike days _ _ _ _ C).
Qed.
Theorem array_market_returns : forall t k q rf comp fr log,
  capm_return_any t (Some (TArray k q)) true rf comp fr log = (not_frame t, false, Err AttributeError).
Proof. reflexivity. Qed.

Lemma series_join : forall f ix vals, join_series f ix (Some mkt) vals = join_left f (mkFrame ix [mkt] (map (fun v => [v]) vals)).
Proof.
  intros [fx cs rows] ix vals. rewrite join_is. unfold join_series. cbn [f_cols f_index f_rows]. destruct (existsb (label_eqb mkt) cs); [reflexivity|].
  assert (E : forall (l : label) (r : list (option R)), 
    match filter (fun mr => label_eqb l (fst mr)) (combine ix vals) with [] => [(l, r ++ [None])] | m :: ms => map (fun mr => (l, r ++ [snd mr])) (m :: ms) end =
    joined_one l r (filter (fun mr => label_eqb l (fst mr)) (combine ix (map (fun v => [v]) vals)))).
  { intros l r. replace (filter (fun mr => label_eqb l (fst mr)) (combine ix (map (fun v => [v]) vals)))
      with (map (fun mr => (fst mr, [snd mr])) (filter (fun mr => label_eqb l (fst mr)) (combine ix vals))).
    - destruct (filter (fun mr => label_eqb l (fst mr)) (combine ix vals)) as [|p ps]; [reflexivity|]. unfold joined_one. cbn [map].
      rewrite !map_map. reflexivity.
    - clear. revert vals. induction ix as [|i ix IH]; intros [|v vals]; try reflexivity. cbn [map combine filter fst snd].
      destruct (label_eqb l i); cbn [map fst snd]; rewrite IH; reflexivity. }
  unfold joined_rows. 
  assert (G : forall k, flat_map (fun ir : label * list (option R) =>
     match filter (fun mr => label_eqb (fst ir) (fst mr)) (combine ix vals) with [] => [(fst ir, snd ir ++ [None])] | m :: ms => map (fun mr => (fst ir, snd ir ++ [snd mr])) (m :: ms) end) k =
     flat_map (fun ir => joined_one (fst ir) (snd ir) (filter (fun mr => label_eqb (fst ir) (fst mr)) (combine ix (map (fun v => [v]) vals)))) k).
  { induction k as [|ir k IH]; [reflexivity|]. cbn [flat_map]. rewrite E, IH. reflexivity. }
  rewrite <- G. reflexivity.
Qed.
Theorem series_market_prices : forall t ix name vals l rf comp fr log,
  snd (capm_return_any t (Some (TSeries ix name vals)) false rf comp fr log) =
  snd (capm_return_any t (Some (TFrame (mkFrame ix [l] (map (fun v => [v]) vals)))) false rf comp fr log).
Proof.
  intros. unfold capm_return_any. cbn [snd option_map frame_of]. unfold capm_return. cbn [snd].
  destruct (returns_from_prices (frame_of t) log); cbn [rbind]; [|reflexivity]. rewrite !returns_rows. cbn [f_rows f_index f_cols].
  destruct (rows_of log (map (fun v => [v]) vals)); cbn [rbind]; [|reflexivity]. reflexivity.
Qed.
Theorem series_market_returns : forall t ix name vals rf comp fr log,
  (name = Some mkt -> forall l,
     snd (capm_return_any t (Some (TSeries ix name vals)) true rf comp fr log) =
     snd (capm_return_any t (Some (TFrame (mkFrame ix [l] (map (fun v => [v]) vals)))) true rf comp fr log)) /\
  (name <> Some mkt -> ~ In mkt (f_cols (frame_of t)) -> exists e, (e = ValueError \/ e = KeyError) /\
     snd (capm_return_any t (Some (TSeries ix name vals)) true rf comp fr log) = Err e).
Proof.
  intros t ix name vals rf comp fr log. split.
  - intros -> l. unfold capm_return_any. cbn [snd option_map frame_of]. rewrite series_join. reflexivity.
  - intros H N. unfold capm_return_any. cbn [snd]. destruct name as [l|]; [|exists ValueError; split; [left; reflexivity|reflexivity]].
    unfold join_series. destruct (existsb (label_eqb l) (f_cols (frame_of t))); [exists ValueError; split; [left; reflexivity|reflexivity]|].
    exists KeyError. split; [right; reflexivity|]. cbn [rbind]. unfold capm_estimate. cbv zeta.
    match goal with |- context [loc (frame_cov ?F) mkt mkt] => assert (E : loc (frame_cov F) mkt mkt = Err KeyError) end.
    { unfold loc, frame_cov, pairwise. cbn [f_index f_cols]. rewrite position_notin; [reflexivity|]. rewrite in_app_iff. cbn [In].
      intros [I|[I|[]]]; [exact (N I)|]. apply H. rewrite I. reflexivity. }
    rewrite E. reflexivity.
Qed.

(** no date in common: no estimate at all *)
Lemma pct_row_length : forall a b x, pct_row a b = Ok x -> len a = len b -> len x = len a.
Proof.
  induction a as [|p a IH]; intros [|q b] x H L; try discriminate L; cbn [pct_row] in H; [injection H as <-; reflexivity|].
  destruct (pct_cell p q); [|discriminate]. cbn [rbind] in H. destruct (pct_row a b) eqn:E; [|discriminate]. cbn [rbind] in H. injection H as <-.
  cbn [List.length]. rewrite (IH b _ E); [reflexivity|]. injection L; auto.
Qed.
Lemma pct_rows_width : forall n rs r xs, pct_rows r rs = Ok xs -> len r = n -> Forall (fun q => len q = n) rs -> Forall (fun q => len q = n) xs.
Proof.
  intros n. induction rs as [|q rs IH]; intros r xs H L F; cbn [pct_rows] in H; [injection H as <-; constructor|].
  destruct (pct_row r q) eqn:E1; [|discriminate]. cbn [rbind] in H. destruct (pct_rows q rs) eqn:E; [|discriminate]. cbn [rbind] in H. injection H as <-.
  inversion F as [|? ? F1 F2]. constructor; [|exact (IH _ _ E F1 F2)]. rewrite (pct_row_length _ _ _ E1); congruence.
Qed.
Lemma mapM_width : forall n (rows : list (list (option R))) x, mapM (mapM log_cell) rows = Ok x -> Forall (fun q => len q = n) rows -> Forall (fun q => len q = n) x.
Proof.
  intros n. induction rows as [|q rows IH]; intros x H F; cbn [mapM] in H; [injection H as <-; constructor|].
  destruct (mapM log_cell q) eqn:E1; [|discriminate]. cbn [rbind] in H. destruct (mapM (mapM log_cell) rows) eqn:E; [|discriminate]. cbn [rbind] in H. injection H as <-.
  inversion F as [|? ? F1 F2]. constructor; [|exact (IH _ eq_refl F2)]. apply mapM_length in E1. congruence.
Qed.
Lemma rows_of_width : forall n log rows x, rows_of log rows = Ok x -> Forall (fun q => len q = n) rows -> Forall (fun q => len q = n) x.
Proof.
  intros n log [|r rs] x H F; cbn [rows_of] in H; [injection H as <-; constructor|].
  destruct (pct_rows r rs) as [xs|] eqn:E; [|discriminate]. cbn [rbind] in H. inversion F as [|? ? F1 F2].
  assert (G : Forall (fun q => len q = n) (map (fun _ => @None R) r :: xs)) by (constructor; [rewrite map_length; exact F1|exact (pct_rows_width n _ _ _ E F1 F2)]).
  destruct log; [exact (mapM_width n _ _ H G)|injection H as <-; exact G].
Qed.
Lemma joined_none : forall k q, (forall t u, In t k -> In u q -> fst t <> fst u) -> map snd (joined_rows k q) = map (fun t => snd t ++ [None]) k.
Proof.
  unfold joined_rows. induction k as [|t k IH]; intros q H; [reflexivity|]. cbn [flat_map map]. rewrite map_app, IH by (intros; apply H; [right|]; assumption).
  rewrite filter_false; [reflexivity|]. intros u I. apply label_eqb_neq. apply H; [left; reflexivity|exact I].
Qed.
Lemma both_none : forall x y, (forall v, In v y -> v = None) -> both x y = [].
Proof.
  induction x as [|a x IH]; intros [|b y] H; try reflexivity; [destruct a; reflexivity|]. rewrite (H b (or_introl eq_refl)).
  destruct a; cbn [both]; apply IH; intros v I; apply H; right; exact I.
Qed.
Lemma mapM_const : forall {X Y} (f : X -> res Y) y l, (forall x, In x l -> f x = Ok y) -> mapM f l = Ok (map (fun _ => y) l).
Proof.
  induction l as [|x l IH]; intros H; [reflexivity|]. cbn [mapM map]. rewrite (H x (or_introl eq_refl)). cbn [rbind]. rewrite IH; [reflexivity|].
  intros z I. apply H. right. exact I.
Qed.
Lemma removelast_const : forall {X Y} (y : Y) (l : list X), removelast (map (fun _ => y) l) = map (fun _ => y) (tl l).
Proof. induction l as [|a [|b l] IH]; try reflexivity. change (y :: removelast (map (fun _ => y) (b :: l)) = y :: map (fun _ => y) l). rewrite IH. reflexivity. Qed.
Theorem market_elsewhere : forall p m rf comp fr log x y, returns_from_prices p log = Ok x -> returns_from_prices m log = Ok y ->
  len (f_cols m) = 1%nat -> disjoint_labels (f_index p) (f_index m) -> NoDup (f_cols p) -> ~ In mkt (f_cols p) -> rectangular p ->
  exists b s, snd (capm_return p (Some m) false rf comp fr log) = Ok (b, s) /\ map fst s = f_cols p /\ Forall (fun v => v = None) (map snd s) /\
  exists s', mean_historical_return p false false fr log = Ok (b, s').
Proof.
  intros [ix cs rows] [jx cm q] rf comp fr log x y Hx Hy L1 Dj D N W. unfold rectangular in W. cbn [f_cols f_index f_rows] in *.
  unfold mean_historical_return. rewrite Hx. cbn [rbind]. unfold capm_return. cbn [snd]. rewrite Hx, Hy. cbn [rbind].
  rewrite returns_rows in Hx, Hy. cbn [f_cols f_index f_rows] in *.
  destruct (rows_of log rows) as [xr|] eqn:Ex; [|discriminate]. destruct (rows_of log q) as [yr|] eqn:Ey; [|discriminate].
  cbn [rbind] in Hx, Hy. injection Hx as <-. injection Hy as <-. pose proof (rows_of_width _ _ _ _ Ex W) as Wx.
  unfold dropna_all. cbn [f_cols f_index f_rows]. set (k := filter _ (combine ix xr)). set (z := filter _ (combine jx yr)).
  assert (Wk : Forall (fun t => len (snd t) = len cs) k).
  { apply Forall_forall. intros t I. apply filter_In in I. destruct I as [I _]. destruct t as [a r]. apply in_combine_r in I. rewrite Forall_forall in Wx. exact (Wx r I). }
  unfold rename_market. cbn [f_cols f_index f_rows]. rewrite L1. cbn [Nat.eqb rbind]. rewrite join_is, no_mkt by exact N. cbn [rbind].
  rewrite !combine_map_pair. rewrite joined_none.
  2:{ intros [a r] [b s] I J. cbn [fst]. apply filter_In in I. apply filter_In in J. destruct I as [I _], J as [J _].
      apply in_combine_l in I. apply in_combine_l in J. intros ->. exact (Dj b I J). }
  rewrite estimate_at by assumption. set (rws := map (fun t => snd t ++ [None]) k).
  assert (Cn : forall v, In v (column rws (len cs)) -> v = None).
  { intros v I. unfold column, rws in I. rewrite map_map in I. apply in_map_iff in I. destruct I as [t [<- I]]. rewrite Forall_forall in Wk.
    rewrite app_nth2 by (rewrite (Wk t I); lia). rewrite (Wk t I), Nat.sub_diag. reflexivity. }
  assert (Ci : forall i, (i < len cs)%nat -> column rws i = column (map snd k) i).
  { intros i Hi. unfold column, rws. rewrite !map_map. apply map_ext_in. intros t I. rewrite Forall_forall in Wk. rewrite app_nth1; [reflexivity|]. rewrite (Wk t I). exact Hi. }
  unfold estimates_at. rewrite (mapM_const _ None).
  2:{ intros i _. unfold pair_cov. rewrite !both_none by exact Cn. reflexivity. }
  cbn [rbind]. 
  assert (M : exists mm, (if comp then cagr fr (column rws (len cs)) else Ok (arithmetic fr (column rws (len cs)))) = Ok mm).
  { destruct comp; [|eexists; reflexivity]. unfold cagr. rewrite present_none by exact Cn. eexists. reflexivity. }
  destruct M as [mm ->]. cbn [rbind fst snd]. rewrite removelast_const. cbn [seq tl]. rewrite map_map.
  set (vals := map (fun _ => None) (seq 1 (len cs))).
  assert (Lv : len vals = len cs) by (unfold vals; rewrite map_length; apply seq_length).
  do 2 eexists. split; [reflexivity|]. split; [apply combine_fst; symmetry; exact Lv|]. split.
  - rewrite combine_snd' by (symmetry; exact Lv). apply Forall_forall. intros v I. unfold vals in I. apply in_map_iff in I. destruct I as [_ [<- _]]. reflexivity.
  - eexists. f_equal. f_equal. unfold check_returns, columns. cbn [f_cols f_rows].
    change (0%nat :: seq 1 (len cs)) with (seq 0 (S (len cs))). rewrite seq_S, map_app, existsb_app. cbn [map existsb plus].
    rewrite (gap_none _ Cn), !orb_false_r.
    rewrite (map_ext_in (column rws) (column (map snd k))) by (intros i I; apply in_seq in I; apply Ci; lia). reflexivity.
Qed.
Theorem array_market_elsewhere : forall f q rf comp fr log x y, returns_from_prices f log = Ok x -> returns_from_prices (frame_of (TArray 1 q)) log = Ok y ->
  (forall i, ~ In (LInt i) (f_index f)) -> NoDup (f_cols f) -> ~ In mkt (f_cols f) -> rectangular f ->
  exists b s, capm_return_any (TFrame f) (Some (TArray 1 q)) false rf comp fr log = (false, true, Ok (b, s)) /\
    map fst s = f_cols f /\ Forall (fun v => v = None) (map snd s) /\ exists s', mean_historical_return f false false fr log = Ok (b, s').
Proof.
  intros f q rf comp fr log x y Hx Hy I D N W.
  destruct (market_elsewhere f (frame_of (TArray 1 q)) rf comp fr log x y Hx Hy eq_refl) as [b [s [H R]]]; try assumption.
  - intros l A B. cbn [frame_of f_index] in B. unfold range_labels in B. apply in_map_iff in B. destruct B as [i [<- _]]. exact (I _ A).
  - exists b, s. split; [|exact R]. unfold capm_return_any. cbn [not_frame negb andb option_map frame_of]. cbn [frame_of] in H. rewrite H. reflexivity.
Qed.
