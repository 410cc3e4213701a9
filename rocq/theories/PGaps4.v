(** * Covariance estimates of tables with missing entries *)
From Coq Require Import ZArith List String Bool Reals Lra Lia Arith.
From Verif Require Import Num Py RBase PyLemmas MFrame MHRP MReturns MRisk SLin SHRP SReturns SRisk SGaps Sums Mat PBase PHRP2 PHRP3 PFrame PReturns PReturns2 PReturns3 PCov1 PCov2 PCov3 PCov4 PRisk2 PGaps1 PGaps2 PGaps3.
Import ListNotations.
Local Open Scope R_scope.

Lemma labelled_symmetric : forall names c, (forall t u, In t names -> In u names -> c t u = c u t) -> symmetric (len names) (f_rows (labelled names c)).
Proof. intros names c H i j Hi Hj. rewrite !labelled_entry by assumption. apply H; apply name_in; assumption. Qed.
Theorem sample_cov_gappy : forall eigh T dates names x c fr log fm,
  (forall t u, In t names -> In u names -> common_covariance T (x t) (x u) = Some (c t u)) ->
  let C := labelled names (fun t u => c t u * fr) in psd (len names) (f_rows C) ->
  sample_cov eigh (gappy T dates names x) true fr log fm = Ok C.
Proof.
  intros eigh T dates names x c fr log fm Hc C HP. unfold sample_cov, get_returns. cbn [rbind]. rewrite frame_cov_gappy. cbn [f_rows].
  rewrite (map_ext_in _ (fun t => map (fun u => Some (c t u)) names)) by (intros t Ht; apply map_ext_in; intros u Hu; apply Hc; assumption).
  rewrite whole_table. cbn [rbind f_cols gappy]. rewrite scale_table. rewrite fixed_good; [reflexivity|exact HP|].
  apply labelled_symmetric. intros t u Ht Hu. f_equal. pose proof (Hc t u Ht Hu) as E. rewrite common_covariance_sym, (Hc u t Hu Ht) in E. congruence.
Qed.
Lemma all_some_in_none : forall {X} (l : list (option X)), In None l -> all_some l = None.
Proof. induction l as [|[a|] l IH]; intros H; [destruct H| |reflexivity]. destruct H as [E|H]; [discriminate E|]. cbn [all_some]. rewrite IH by exact H. reflexivity. Qed.
Lemma whole_missing : forall {X} (g : X -> X -> option R) l t u, In t l -> In u l -> g t u = None -> whole (map (fun t => map (g t) l) l) = Err FloatSpecial.
Proof.
  intros X g l t u Ht Hu E. unfold whole. rewrite all_some_in_none; [reflexivity|]. rewrite map_map. apply in_map_iff. exists t. split; [|exact Ht].
  apply all_some_in_none. apply in_map_iff. exists u. auto.
Qed.
Theorem sample_cov_too_short : forall eigh T dates names x fr log fm t u, In t names -> In u names -> common_covariance T (x t) (x u) = None ->
  sample_cov eigh (gappy T dates names x) true fr log fm = Err FloatSpecial.
Proof.
  intros eigh T dates names x fr log fm t u Ht Hu E. unfold sample_cov, get_returns. cbn [rbind]. rewrite frame_cov_gappy. cbn [f_rows].
  rewrite (whole_missing _ names t u Ht Hu E). reflexivity.
Qed.

(** ** exponential covariance *)
Lemma mean_column : forall T x, numbers T x <> [] -> mean (map x (seq 0 T)) = Some (average (numbers T x)).
Proof. intros T x H. unfold mean. rewrite numbers_present. destruct (numbers T x) as [|a l]; [congruence|]. rewrite mean_of_average. reflexivity. Qed.
Lemma covariation_column : forall mx my (x y : nat -> option R) l, covariation mx my (map x l) (map y l) =
  map (fun k => match x k, y k with Some v, Some u => Some ((v - mx) * (u - my)) | _, _ => None end) l.
Proof. induction l as [|k l IH]; [reflexivity|]. cbn [map covariation]. rewrite IH. reflexivity. Qed.
Lemma common_numbers : forall T x y, common T x y <> [] -> numbers T x <> [] /\ numbers T y <> [].
Proof.
  intros T x y H. destruct (common T x y) as [|k l] eqn:E; [congruence|]. assert (I : In k (common T x y)) by (rewrite E; left; reflexivity).
  split.
  - assert (I2 : In k (common T y x)). { unfold common in *. apply filter_In in I. apply filter_In. rewrite andb_comm. exact I. }
    apply common_known in I2. unfold numbers. destruct (known T x); [destruct I2|discriminate].
  - apply common_known in I. unfold numbers. destruct (known T y); [destruct I|discriminate].
Qed.
Lemma pair_exp_cov_column : forall T x y span, 1 < span -> common T x y <> [] -> pair_exp_cov (map x (seq 0 T)) (map y (seq 0 T)) span = Ok (Some (common_ema T span x y)).
Proof.
  intros T x y span Hs HC. destruct (common_numbers T x y HC) as [Hx Hy]. unfold pair_exp_cov. rewrite (proj2 (Rltb_false span 1)) by lra.
  rewrite !mean_column by assumption. rewrite covariation_column. set (z := fun k => match x k, y k with Some v, Some u => _ | _, _ => None end).
  assert (Kz : filter (known_at z) (seq 0 T) = common T x y). { unfold common. apply filter_ext. intros k. unfold known_at, z. destruct (x k), (y k); reflexivity. }
  assert (E : ewm_last (1 - 2 / (span + 1)) (map z (seq 0 T)) = Some (common_ema T span x y)).
  { destruct (ema_missing (map z (seq 0 T)) span Hs) as [-> _].
    - rewrite present_column, Kz. destruct (common T x y); [congruence|discriminate].
    - f_equal. rewrite aged_decayed. unfold aged_average, known, common_ema. rewrite Kz. f_equal. apply total_map_ext. intros k Hk.
      f_equal. unfold common in Hk. apply filter_In in Hk. destruct Hk as [_ Hk]. unfold known_at, value, z in *. destruct (x k), (y k); try discriminate Hk. reflexivity. }
  destruct T as [|T]; [exfalso; apply HC; reflexivity|]. exact (f_equal Ok E).
Qed.
Lemma common_ema_sym : forall T span x y, common_ema T span x y = common_ema T span y x.
Proof.
  intros. unfold common_ema. assert (E : common T x y = common T y x) by (unfold common; apply filter_ext; intros; apply andb_comm). rewrite E. f_equal.
  apply total_map_ext. intros; lra.
Qed.
Theorem exp_cov_gappy : forall eigh T dates names x span fr log fm, 1 < span ->
  (forall t u, In t names -> In u names -> common T (x t) (x u) <> []) ->
  let C := labelled names (fun t u => common_ema T span (x t) (x u) * fr) in psd (len names) (f_rows C) ->
  exp_cov eigh (gappy T dates names x) true span fr log fm = Ok C.
Proof.
  intros eigh T dates names x span fr log fm Hs HC C HP. unfold exp_cov, get_returns. cbn [rbind]. change (f_cols (gappy T dates names x)) with names.
  set (c := fun i j => common_ema T span (x (name names i)) (x (name names j))).
  assert (EC : forall i, (i < len names)%nat -> column (f_rows (gappy T dates names x)) i = map (x (name names i)) (seq 0 T)) by (intros i Hi; apply gappy_column; apply nth_error_nth'; exact Hi).
  rewrite (mapM_ok _ (fun i => map (fun j => Some (c i j)) (seq 0 (len names)))).
  - cbn [rbind]. rewrite (whole_table c). cbn [rbind].
    assert (E : scale_rows fr (map (fun t => map (c t) (seq 0 (len names))) (seq 0 (len names))) = f_rows C).
    { unfold C. rewrite labelled_rows. unfold scale_rows, array. rewrite map_map. apply map_ext. intros i. rewrite map_map. reflexivity. }
    rewrite E. rewrite fixed_good; [reflexivity|exact HP|]. apply labelled_symmetric. intros; f_equal; apply common_ema_sym.
  - intros i Hi. apply in_seq in Hi. apply mapM_ok. intros j Hj. apply in_seq in Hj. rewrite !EC by lia. unfold c. destruct (le_dec i j).
    + rewrite Nat.min_l, Nat.max_r by lia. apply pair_exp_cov_column; [exact Hs|apply HC; apply name_in; lia].
    + rewrite Nat.min_r, Nat.max_l by lia. rewrite pair_exp_cov_column; [|exact Hs|apply HC; apply name_in; lia]. rewrite common_ema_sym. reflexivity.
Qed.

(** ** shrinkage *)
Lemma dropna_rows : forall T (dates names : list label) (d : label) (x : label -> nat -> option R), len dates = T ->
  dropna_all (gappy T dates names x) = mkFrame (map (fun k => nth k dates d) (kept T names x)) names (map (fun k => map (fun t => x t k) names) (kept T names x)).
Proof.
  intros T dates names d x <-. unfold dropna_all, gappy. cbn [f_index f_cols f_rows]. rewrite (combine_seq_map dates d), filter_map_comm, !map_map. cbn [snd fst].
  assert (E : filter (fun k => negb (forallb is_none (map (fun t => x t k) names))) (seq 0 (len dates)) = kept (len dates) names x).
  { unfold kept. apply filter_ext. intros k. rewrite none_row. reflexivity. }
  rewrite E. f_equal. apply map_ext. intros k. rewrite Nat.sub_0_r. reflexivity.
Qed.
Lemma nan_to_num_rows : forall ds names (x : label -> nat -> option R) ks, nan_to_num (mkFrame ds names (map (fun k => map (fun t => x t k) names) ks)) = map (fun k => map (fun t => value (x t) k) names) ks.
Proof. intros. unfold nan_to_num. cbn [f_rows]. rewrite map_map. apply map_ext. intros k. rewrite map_map. reflexivity. Qed.
Theorem sklearn_gappy : forall eigh sk T dates names x fr log M i, len dates = T -> 0 <= fr -> sk (zero_filled T names x) = (M, i) -> psd (len names) M -> symmetric (len names) M ->
  exists sh, shrinkage_init (gappy T dates names x) true fr log = Ok sh /\
    oracle_approximating eigh sk sh = Ok (mkFrame names names (scale_rows fr M), i) /\
    ledoit_wolf eigh sk sh "constant_variance" = Ok (mkFrame names names (scale_rows fr M), i).
Proof.
  intros eigh sk T dates names x fr log M i HD Hfr Hsk HP HS. eexists. split; [reflexivity|].
  set (sh := mkShrink _ _ _). assert (EX : nan_to_num (sh_X sh) = zero_filled T names x).
  { unfold sh. cbn [sh_X]. rewrite (dropna_rows T dates names mkt x HD), nan_to_num_rows. reflexivity. }
  assert (EF : format_annualize eigh sh M = Ok (mkFrame names names (scale_rows fr M))).
  { unfold format_annualize. unfold sh at 1 2. cbn [sh_X sh_frequency]. rewrite (dropna_rows T dates names mkt x HD). cbn [f_cols].
    destruct (scale_good (len names) fr M Hfr HP HS) as [G1 G2]. rewrite fixed_good by assumption. reflexivity. }
  assert (ET : String.eqb "constant_variance" "constant_variance" = true) by reflexivity.
  unfold oracle_approximating, ledoit_wolf. rewrite EX, Hsk, ET. cbn [rbind fst snd]. rewrite EF. split; reflexivity.
Qed.
Lemma dropna_full : forall ds (names : list label) rows, (forall r, In r rows -> r <> []) -> len ds = len rows ->
  dropna_all (mkFrame ds names (map (map Some) rows)) = mkFrame ds names (map (map Some) rows).
Proof.
  intros ds names rows Hr HL. unfold dropna_all. cbn [f_index f_cols f_rows].
  rewrite filter_all.
  - rewrite combine_map_fst, combine_snd by (rewrite map_length; exact HL). reflexivity.
  - intros [d r] H. apply in_combine_r in H. apply in_map_iff in H. destruct H as (r' & <- & H). cbn [snd]. specialize (Hr r' H). destruct r'; [congruence|reflexivity].
Qed.
Theorem single_factor_gappy : forall eigh sk T dates ds names x fr log, len dates = T -> len ds = len (kept T names x) ->
  exists sh sh', shrinkage_init (gappy T dates names x) true fr log = Ok sh /\
    shrinkage_init (mkFrame ds names (map (map Some) (zero_filled T names x))) true fr log = Ok sh' /\
    ledoit_wolf eigh sk sh "single_factor" = ledoit_wolf eigh sk sh' "single_factor".
Proof.
  intros eigh sk T dates ds names x fr log HD HL. do 2 eexists. split; [reflexivity|]. split; [reflexivity|].
  rewrite dropna_full.
  2:{ intros r Hr. unfold zero_filled in Hr. apply in_map_iff in Hr. destruct Hr as (k & <- & Hk). unfold kept in Hk. apply filter_In in Hk. destruct Hk as [_ Hk]. destruct names; [discriminate Hk|discriminate]. }
  2:{ unfold zero_filled. rewrite map_length. exact HL. }
  assert (E1 : String.eqb "single_factor" "constant_variance" = false) by reflexivity.
  assert (E2 : String.eqb "single_factor" "single_factor" = true) by reflexivity.
  unfold ledoit_wolf. rewrite E1, E2. unfold format_annualize. cbn [sh_X sh_frequency f_cols]. rewrite (dropna_rows T dates names mkt x HD). cbn [f_cols].
  set (sh := mkShrink _ _ _). set (sh' := mkShrink _ _ _).
  assert (ES : single_factor sh = single_factor sh').
  { assert (EX : nan_to_num (sh_X sh) = nan_to_num (sh_X sh')).
    { unfold sh, sh'. cbn [sh_X]. rewrite nan_to_num_rows. unfold nan_to_num. cbn [f_rows]. unfold zero_filled. rewrite !map_map. apply map_ext. intros k. rewrite !map_map. reflexivity. }
    unfold single_factor. rewrite EX. change (f_cols (sh_X sh)) with names. change (f_cols (sh_X sh')) with names. reflexivity. }
  rewrite ES. reflexivity.
Qed.
