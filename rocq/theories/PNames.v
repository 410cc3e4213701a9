(** * risk_matrix and return_model select the estimator named; an asset called mkt *)
From Coq Require Import ZArith List String Bool Reals Lra Lia Arith.
From Verif Require Import Num Py RBase PyLemmas MFrame MHRP MReturns MRisk SLin SHRP SReturns SRisk SShrink Sums Mat PBase PHRP2 PHRP3 PFrame PReturns PReturns2 PReturns3 PCov1 PCov2 PCov3 PCov4 PShrink.
Import ListNotations.
Local Open Scope R_scope.

Section Prices.
  Variables (eigh : eigh_oracle) (sk_lw sk_oas : shrink_oracle) (T : nat) (dates names : list label) (p : label -> list R).
  Hypothesis (HT : (2 <= T)%nat) (Hn : names <> []) (Hd : len dates = S T).
  Hypothesis (Hl : forall t, In t names -> len (p t) = S T) (Hp : forall t, In t names -> Forall (fun v => 0 < v) (p t)).
  Let x := fun t => simple_returns (p t).
  Let prices := history (S T) dates names p.
  Let n := len names.
  Lemma px_length : forall t, In t names -> len (x t) = T.
  Proof. intros t Ht. unfold x. rewrite simple_returns_length, (Hl t Ht). lia. Qed.
  Lemma px_returns : returns_from_prices prices false = Ok (history T (tl dates) names x).
  Proof. apply returns_history; auto. intros; apply pos_nonzero; auto. Qed.
  Lemma px_init : shrinkage_init prices false 252 false = Ok (seen T (tl dates) names x 252).
  Proof.
    assert (Htl : len (tl dates) = T) by (destruct dates; [discriminate Hd|injection Hd; auto]).
    pose proof (init_history T (tl dates) names x 252 false Hn Htl HT px_length) as E. unfold shrinkage_init, get_returns in *. rewrite px_returns. exact E.
  Qed.
  Theorem risk_sample : risk_matrix eigh sk_lw sk_oas prices "sample_cov" = Ok (labelled names (fun t u => sample_covariance (x t) (x u) * 252)).
  Proof. exact (sample_cov_prices eigh T dates names p 252 "spectral" HT ltac:(lra) Hn Hd Hl Hp false). Qed.
  Theorem risk_semi : forall m, m = "semicovariance"%string \/ m = "semivariance"%string ->
    risk_matrix eigh sk_lw sk_oas prices m = Ok (labelled names (fun t u => semi (79 / 10 ^ 6) (x t) (x u) * 252)).
  Proof.
    intros m Hm. destruct (semicovariance_complete eigh T (tl dates) names x (79 / 10 ^ 6) 252 false "spectral" ltac:(lia) ltac:(lra) px_length) as (E & _).
    assert (E2 : semicovariance eigh prices false (79 / 10 ^ 6) 252 false "spectral" = Ok (labelled names (fun t u => semi (79 / 10 ^ 6) (x t) (x u) * 252)))
      by (unfold semicovariance, get_returns in *; rewrite px_returns; exact E).
    unfold risk_matrix. destruct Hm as [-> | ->]; cbn [String.eqb Ascii.eqb Bool.eqb orb]; exact E2.
  Qed.
  Theorem risk_exp : risk_matrix eigh sk_lw sk_oas prices "exp_cov" = Ok (labelled names (fun t u => ema_covariance 180 (x t) (x u) * 252)).
  Proof.
    destruct (exp_cov_complete eigh T (tl dates) names x 180 252 false "spectral" ltac:(lia) ltac:(lra) ltac:(lra) px_length) as (E & _).
    unfold risk_matrix. cbn [String.eqb Ascii.eqb Bool.eqb orb]. unfold exp_cov, get_returns in *. rewrite px_returns. exact E.
  Qed.
  Lemma risk_oracle_core : forall M, psd n M -> symmetric n M -> format_annualize eigh (seen T (tl dates) names x 252) M = Ok (mkFrame names names (scale_rows 252 M)).
  Proof.
    intros M P1 P2. unfold format_annualize. cbn [seen sh_X sh_frequency history f_cols]. apply fixed_good.
    - rewrite <- (array_self n M (proj1 P1)). rewrite scale_array. apply array_good; [|intros; rewrite P2 by assumption; reflexivity]. intros v. rewrite bil_scal_M. apply Rmult_le_pos; [apply psd_bil; exact P1|lra].
    - rewrite <- (array_self n M (proj1 P1)). rewrite scale_array. apply array_good; [|intros; rewrite P2 by assumption; reflexivity]. intros v. rewrite bil_scal_M. apply Rmult_le_pos; [apply psd_bil; exact P1|lra].
  Qed.
  (** what scikit-learn gets: one row per period *)
  Let rows := map (fun k => map (fun t => nth k (x t) 0) names) (seq 0 T).
  Lemma px_rows : nan_to_num (sh_X (seen T (tl dates) names x 252)) = rows.
  Proof. apply nan_history. Qed.
  Theorem risk_ledoit_wolf : forall m, m = "ledoit_wolf"%string \/ m = "ledoit_wolf_constant_variance"%string -> psd n (fst (sk_lw rows)) -> symmetric n (fst (sk_lw rows)) ->
    risk_matrix eigh sk_lw sk_oas prices m = Ok (mkFrame names names (map (map (fun v => v * 252)) (fst (sk_lw rows)))).
  Proof.
    intros m Hm P1 P2. assert (E : (do sh <- shrinkage_init prices false 252 false ; do r <- ledoit_wolf eigh sk_lw sh "constant_variance" ; Ok (fst r)) = Ok (mkFrame names names (scale_rows 252 (fst (sk_lw rows))))).
    { rewrite px_init. cbn [rbind]. unfold ledoit_wolf. cbn [String.eqb Ascii.eqb Bool.eqb rbind]. rewrite px_rows, (risk_oracle_core _ P1 P2). reflexivity. }
    unfold risk_matrix. destruct Hm as [-> | ->]; cbn [String.eqb Ascii.eqb Bool.eqb orb]; exact E.
  Qed.
  Theorem risk_oas : psd n (fst (sk_oas rows)) -> symmetric n (fst (sk_oas rows)) ->
    risk_matrix eigh sk_lw sk_oas prices "oracle_approximating" = Ok (mkFrame names names (map (map (fun v => v * 252)) (fst (sk_oas rows)))).
  Proof.
    intros P1 P2. unfold risk_matrix. cbn [String.eqb Ascii.eqb Bool.eqb orb]. rewrite px_init. cbn [rbind]. unfold oracle_approximating. rewrite px_rows, (risk_oracle_core _ P1 P2). reflexivity.
  Qed.
  Let V := sample_matrix names x.
  Let xs := fun i => x (nth i names (LInt 0)).
  Theorem risk_single_factor : let m := market T names x in let k := 252 * ((INR T - 1) / INR T) in
    let b i := plain_covariance T (xs i) m in let s i j := plain_covariance T (xs i) (xs j) in let v := plain_covariance T m m in
    let g := lw_gamma n s (fun i j => b i * b j / v) in
    sample_covariance m m <> 0 -> g <> 0 ->
    let d := lw_intensity T (lw_pi T n xs s) (rho_market T n xs m s) g in
    exists r, risk_matrix eigh sk_lw sk_oas prices "ledoit_wolf_single_factor" = Ok (mkFrame names names r) /\
      (forall i, (i < n)%nat -> entry r i i = k * entry V i i) /\
      (forall i j, (i < n)%nat -> (j < n)%nat -> i <> j -> entry r i j =
         k * (d * (sample_covariance (xs i) m * sample_covariance (xs j) m / sample_covariance m m) + (1 - d) * entry V i j)).
  Proof.
    intros m k b s v g Hm Hg d. pose proof (INR_ge2 T HT) as HI.
    assert (Hv : v <> 0).
    { intros E. apply Hm. unfold v, plain_covariance in E. rewrite mean_over_sumn in E. rewrite sample_cov_sumn. assert (Hml : len m = T) by apply market_length. rewrite Hml. apply Rmult_integral in E. destruct E as [E|E].
      - unfold deviation in E. rewrite E. unfold Rdiv. ring.
      - exfalso. assert (0 < / INR T) by (apply Rinv_0_lt_compat; lra). lra. }
    destruct (market_intensity eigh sk_lw T (tl dates) names x 252 HT Hn px_length ltac:(lra) Hv Hg) as (F & E).
    destruct (single_factor_good eigh sk_lw T (tl dates) names x 252 HT Hn px_length ltac:(lra) Hm) as (r & d' & E' & _ & _ & _ & D1 & D2).
    rewrite E in E'. injection E' as EF Ed. subst F. exists r. split.
    - unfold risk_matrix. cbn [String.eqb Ascii.eqb Bool.eqb orb]. rewrite px_init. cbn [rbind]. rewrite E. reflexivity.
    - split; [exact D1|]. intros i j Hi Hj Hij. rewrite (D2 i j Hi Hj Hij). rewrite <- Ed. reflexivity.
  Qed.
  Theorem risk_constant_correlation : (2 <= n)%nat -> (forall t, In t names -> 0 < sample_covariance (x t) (x t)) ->
    let s i j := sample_covariance (xs i) (xs j) in let rho := mean_correlation n V in
    let g := lw_gamma n s (fun i j => rho * sqrt (s i i * s j j)) in g <> 0 ->
    let d := lw_intensity T (lw_pi T n xs s) (rho_constant T n xs s rho) g in
    exists r, risk_matrix eigh sk_lw sk_oas prices "ledoit_wolf_constant_correlation" = Ok (mkFrame names names r) /\
      (forall i, (i < n)%nat -> entry r i i = 252 * entry V i i) /\
      (forall i j, (i < n)%nat -> (j < n)%nat -> i <> j -> entry r i j =
         252 * (d * (rho * (sqrt (entry V i i) * sqrt (entry V j j))) + (1 - d) * entry V i j)).
  Proof.
    intros H2 Hv s rho g Hg d.
    destruct (constant_intensity eigh sk_lw T (tl dates) names x 252 HT H2 px_length ltac:(lra) Hv Hg) as (F & E).
    destruct (constant_correlation_good eigh sk_lw T (tl dates) names x 252 HT H2 px_length ltac:(lra) Hv) as (r & d' & E' & _ & _ & _ & D1 & D2).
    rewrite E in E'. injection E' as EF Ed. subst F. exists r. split.
    - unfold risk_matrix. cbn [String.eqb Ascii.eqb Bool.eqb orb]. rewrite px_init. cbn [rbind]. rewrite E. reflexivity.
    - split; [exact D1|]. intros i j Hi Hj Hij. rewrite (D2 i j Hi Hj Hij). rewrite <- Ed. reflexivity.
  Qed.

  Theorem model_mean : return_model prices "mean_historical_return" = Ok (false, map (fun t => (t, Some (growth_rate 252 (p t)))) names).
  Proof. exact (mean_cagr T dates names p 252 Hn ltac:(lia) Hd Hl Hp). Qed.
  Theorem model_ema : (forall t, In t names -> -1 < ema_value 500 (x t)) ->
    return_model prices "ema_historical_return" = Ok (false, map (fun t => (t, Some (Rpower (1 + ema_value 500 (x t)) 252 - 1))) names).
  Proof.
    intros He. unfold return_model. cbn [String.eqb Ascii.eqb Bool.eqb]. unfold prices. rewrite ema_prices by (auto; intros; apply pos_nonzero; auto).
    apply (ema_compound T); auto; [lia|lra|exact px_length].
  Qed.
  Theorem model_capm : ~ In mkt names -> let m := market T names x in sample_covariance m m <> 0 -> Forall (fun v => -1 < v) m ->
    return_model prices "capm_return" = Ok (false, map (fun t => (t, Some (0 + market_beta (x t) m * (Rpower (growth_factor m) (252 / INR T) - 1 - 0)))) names).
  Proof.
    intros Hk m Hm Hf. unfold return_model. cbn [String.eqb Ascii.eqb Bool.eqb]. unfold prices. rewrite capm_prices by (auto; intros; apply pos_nonzero; auto).
    transitivity (snd (capm_return (history T (tl dates) names x) None true 0 true 252 false)); [reflexivity|].
    rewrite (capm_default_estimate T (tl dates) names x 0 true 252 (Rpower (growth_factor m) (252 / INR T) - 1) false Hn HT Hk px_length Hm); [reflexivity|]. split; [exact Hf|reflexivity].
  Qed.
End Prices.
Theorem model_unknown : forall prices method, ~ In method ["mean_historical_return"; "ema_historical_return"; "capm_return"]%string -> return_model prices method = Err NotImplementedError.
Proof.
  intros prices method H. cbn [In] in H. unfold return_model.
  repeat match goal with |- context [String.eqb method ?s] => destruct (String.eqb_spec method s); [exfalso; apply H; subst; tauto|] end. reflexivity.
Qed.
Theorem target_unknown : forall eigh sk sh target, ~ In target ["constant_variance"; "single_factor"; "constant_correlation"]%string -> ledoit_wolf eigh sk sh target = Err NotImplementedError.
Proof.
  intros eigh sk sh target H. cbn [In] in H. unfold ledoit_wolf.
  repeat match goal with |- context [String.eqb target ?s] => destruct (String.eqb_spec target s); [exfalso; apply H; subst; tauto|] end. reflexivity.
Qed.

(** ** an asset called mkt is overwritten *)
Lemma list_set_mkt : forall (names : list label) j (f : label -> option R) v, NoDup names -> position mkt names = Some j ->
  list_set j v (map f names) = map (fun t => if label_eqb t mkt then v else f t) names.
Proof.
  induction names as [|a names IH]; intros j f v Hnd Hj; [discriminate Hj|]. apply NoDup_cons_iff in Hnd. destruct Hnd as [Ha Hnd]. cbn [position] in Hj.
  destruct (label_eqb_spec mkt a) as [<-|E].
  - injection Hj as <-. cbn [map list_set]. rewrite label_eqb_refl. f_equal. apply map_ext_in. intros t Ht. rewrite label_eqb_neq by (intros ->; contradiction). reflexivity.
  - destruct (position mkt names) as [j'|] eqn:Ep; [|discriminate Hj]. injection Hj as <-. cbn [map list_set]. rewrite (IH j' f v Hnd eq_refl). f_equal.
    rewrite label_eqb_neq; [reflexivity|]. intros ->. apply E; reflexivity.
Qed.
Lemma overwrite_market : forall T dates names x m, NoDup names -> In mkt names -> len m = T ->
  set_column mkt (map Some m) (history T dates names x) = history T dates names (with_market m x).
Proof.
  intros T dates names x m Hnd Hin Hm. destruct (position_in mkt names Hin) as (j & Ej & _). unfold set_column. cbn [f_cols f_index f_rows history]. rewrite Ej.
  unfold history. f_equal. rewrite <- (nth_seq_map m 0) at 1. rewrite Hm, map_map, map2_seq. apply map_ext_in. intros k Hk.
  rewrite (list_set_mkt names j _ _ Hnd Ej). apply map_ext. intros t. unfold with_market. destruct (label_eqb t mkt); reflexivity.
Qed.
Theorem capm_overwrites : forall T dates names x rf (compounding : bool) fr mm log, NoDup names -> (2 <= T)%nat -> In mkt names -> (forall t, In t names -> len (x t) = T) ->
  let m := market T names x in sample_covariance m m <> 0 ->
  (if compounding then (Forall (fun v => -1 < v) m /\ mm = Rpower (growth_factor m) (fr / INR T) - 1) else mm = average m * fr) ->
  capm_return (history T dates names x) None true rf compounding fr log =
  (None, Ok (false, map (fun t => (t, Some (rf + market_beta (x t) m * (mm - rf)))) (filter (fun t => negb (label_eqb t mkt)) names))).
Proof.
  intros T dates names x rf c fr mm log Hnd HT Hin Hl m Hv Hmm. assert (Hne : names <> []) by (intros ->; destruct Hin). unfold capm_return. cbn [rbind]. f_equal.
  change (f_rows (history T dates names x)) with (map (fun k => map (fun t => Some (nth k (x t) 0)) names) (seq 0 T)).
  rewrite row_means by exact Hne. fold m. assert (Hm : len m = T) by apply market_length. rewrite overwrite_market by assumption.
  assert (Hm0 : m <> []) by (destruct m; [cbn in Hm; lia|discriminate]).
  assert (Hcol : (if c then cagr fr (map Some m) else Ok (arithmetic fr (map Some m))) = Ok (Some mm)).
  { destruct c.
    - destruct Hmm as [Hpos ->]. rewrite <- product_factor. unfold cagr, count. rewrite present_some, Hm. destruct m as [|m0 m']; [congruence|]. unfold np_pow.
      assert (Hprod : 0 < product (map (fun v => 1 + v) (m0 :: m'))).
      { clear -Hpos. induction (m0 :: m') as [|a l IH]; cbn [map product]; [lra|]. apply Forall_cons_iff in Hpos. destruct Hpos. apply Rmult_lt_0_compat; [lra|auto]. }
      rewrite (proj2 (Rltb_true 0 _)) by exact Hprod. reflexivity.
    - unfold arithmetic. rewrite mean_some by exact Hm0. cbn [option_map]. rewrite Hmm. reflexivity. }
  assert (Hw : forall t, t <> mkt -> with_market m x t = x t) by (intros t Ht; unfold with_market; rewrite label_eqb_neq by exact Ht; reflexivity).
  assert (Hwm : with_market m x mkt = m) by (unfold with_market; rewrite label_eqb_refl; reflexivity).
  assert (HL : forall t, In t names -> len (with_market m x t) = T).
  { intros t Ht. unfold with_market. destruct (label_eqb t mkt); [exact Hm|auto]. }
  unfold capm_estimate. rewrite frame_cov_history by assumption. cbn [f_index]. rewrite loc_table by exact Hin. cbn [rbind].
  rewrite (mapM_ok _ (fun t => Some (sample_covariance (with_market m x t) m / sample_covariance m m))).
  2:{ intros t Ht. rewrite loc_table by assumption. cbn [rbind div_cell]. rewrite Hwm. rewrite (proj2 (Reqb_false (sample_covariance m m) 0) Hv). reflexivity. }
  cbn [rbind]. change (f_cols (history T dates names (with_market m x))) with names. destruct (position_in mkt names Hin) as (j & Ej & Nj). rewrite Ej.
  assert (Ecol : column (f_rows (history T dates names (with_market m x))) j = map Some m).
  { pose proof (columns_history T dates names (with_market m x) HL) as Ec. unfold columns in Ec. cbn [f_cols history] in Ec.
    assert (Hj : (j < len names)%nat) by (apply nth_error_Some; congruence).
    assert (E1 : nth_error (map (column (f_rows (history T dates names (with_market m x)))) (seq 0 (len names))) j = Some (column (f_rows (history T dates names (with_market m x))) j)).
    { rewrite nth_error_map. rewrite (nth_error_nth' (seq 0 (len names)) 0%nat) by (rewrite seq_length; exact Hj). rewrite seq_nth by exact Hj. reflexivity. }
    rewrite Ec in E1. rewrite nth_error_map, Nj in E1. cbn [option_map] in E1. rewrite Hwm in E1. injection E1 as E1. symmetry. exact E1. }
  cbv zeta. rewrite Ecol, Hcol. cbn [rbind]. rewrite check_history by exact HL. f_equal. f_equal.
  rewrite combine_self. clearbody m. clear - Hw. induction names as [|a ns IH]; [reflexivity|]. cbn [map filter fst]. destruct (label_eqb a mkt) eqn:E; cbn [negb map fst snd]; [exact IH|]. rewrite IH. do 3 f_equal.
  unfold market_beta. rewrite Hw; [reflexivity|]. intros ->. rewrite label_eqb_refl in E. discriminate E.
Qed.
