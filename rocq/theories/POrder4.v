(** * Assets in another order: the statements of C128 *)
From Coq Require Import ZArith List String Bool Reals Lra Lia Permutation.
From Verif Require Import Num Py RBase MBase MFrame MHRP MReturns MRisk SLin SHRP SHRP2 SHRP3 SReturns SRisk SShrink SPerm MAlloc SAlloc MRound QRBase PAllocQ PAllocW SOrder POrder POrder2 POrder3.
Import ListNotations.
Local Open Scope R_scope.

Lemma reorders_frames : forall eigh sk_lw sk_oas T dates names prc p m, reorders eigh sk_lw sk_oas T dates names prc p m ->
  covariances_reordered eigh sk_lw sk_oas T dates names prc p m.
Proof. intros eigh sk_lw sk_oas T dates names prc p m H F E. destruct (H F E) as (r & E1 & E2 & E3). eexists. split; [exact E3|]. exists r. auto. Qed.

Theorem order_returns : forall T dates names prc p, price_table T dates names prc -> ordering (List.length names) p ->
  forall m s, m = "mean_historical_return"%string \/
      (m = "ema_historical_return"%string /\ forall t, In t names -> -1 < ema_value 500 (simple_returns (prc t))) \/
      (m = "capm_return"%string /\ ~ In (LStr "mkt") names /\
        let mk := market T names (fun t => simple_returns (prc t)) in sample_covariance mk mk <> 0 /\ Forall (fun v => -1 < v) mk) ->
    return_model (history (S T) dates names prc) m = Ok (false, s) ->
    return_model (history (S T) dates (pick (LInt 0) p names) prc) m = Ok (false, pick (LInt 0, None) p s).
Proof. intros T dates names prc p (HT & Hn & Hd & H) Ho. apply returns_reordered; try assumption; intros t Ht; apply H; exact Ht. Qed.

Theorem order_plain : forall eigh sk_lw sk_oas T dates names prc p, price_table T dates names prc -> ordering (List.length names) p ->
  forall m, In m ["sample_cov"; "semicovariance"; "semivariance"; "exp_cov"]%string -> covariances_reordered eigh sk_lw sk_oas T dates names prc p m.
Proof. intros eigh sk_lw sk_oas T dates names prc p (HT & Hn & Hd & H) Ho m Hm. apply reorders_frames, plain_reordered; try assumption; intros t Ht; apply H; exact Ht. Qed.

Theorem order_single_factor : forall eigh sk_lw sk_oas T dates names prc p, price_table T dates names prc -> ordering (List.length names) p ->
  let xs i := simple_returns (prc (nth i names (LInt 0))) in
  let m := market T names (fun t => simple_returns (prc t)) in let b i := plain_covariance T (xs i) m in
  sample_covariance m m <> 0 -> lw_gamma (List.length names) (fun i j => plain_covariance T (xs i) (xs j)) (fun i j => b i * b j / plain_covariance T m m) <> 0 ->
  covariances_reordered eigh sk_lw sk_oas T dates names prc p "ledoit_wolf_single_factor".
Proof. intros eigh sk_lw sk_oas T dates names prc p (HT & Hn & Hd & H) Ho xs m b H1 H2. apply reorders_frames, single_factor_reordered; try assumption; intros t Ht; apply H; exact Ht. Qed.

Theorem order_constant_correlation : forall eigh sk_lw sk_oas T dates names prc p, price_table T dates names prc -> ordering (List.length names) p ->
  (2 <= List.length names)%nat -> let x t := simple_returns (prc t) in (forall t, In t names -> 0 < sample_covariance (x t) (x t)) ->
  let s i j := sample_covariance (x (nth i names (LInt 0))) (x (nth j names (LInt 0))) in
  lw_gamma (List.length names) s (fun i j => mean_correlation (List.length names) (sample_matrix names x) * sqrt (s i i * s j j)) <> 0 ->
  covariances_reordered eigh sk_lw sk_oas T dates names prc p "ledoit_wolf_constant_correlation".
Proof. intros eigh sk_lw sk_oas T dates names prc p (HT & Hn & Hd & H) Ho H2 x Hv s Hg. apply reorders_frames, constant_correlation_reordered; try assumption; intros t Ht; apply H; exact Ht. Qed.

Theorem order_greedy_rounded : forall rnd fuel d d' r, Permutation (da_weights d) (da_weights d') -> NoDup (map snd (da_weights d)) ->
  (forall t, dget t (da_prices d) = dget t (da_prices d')) -> da_int d = da_int d' -> da_total d = da_total d' -> da_short_ratio d = da_short_ratio d' ->
  snd (@greedy_portfolio R (RndNum rnd) fuel d r) = snd (@greedy_portfolio R (RndNum rnd) fuel d' r).
Proof. intros rnd. apply greedy_reordered. reflexivity. Qed.
Theorem order_greedy : forall fuel d d' r, Permutation (da_weights d) (da_weights d') -> NoDup (map snd (da_weights d)) ->
  (forall t, dget t (da_prices d) = dget t (da_prices d')) -> da_int d = da_int d' -> da_total d = da_total d' -> da_short_ratio d = da_short_ratio d' ->
  snd (greedy_portfolio fuel d r) = snd (greedy_portfolio fuel d' r).
Proof. apply greedy_reordered. reflexivity. Qed.

Theorem order_ties : exists d d' : @da R, valid_da d /\ valid_da d' /\ long_only (da_weights d) /\ total_weight (da_weights d) = 1 /\ Permutation (da_weights d) (da_weights d') /\
  da_prices d = da_prices d' /\ da_int d = da_int d' /\ da_total d = da_total d' /\ da_short_ratio d = da_short_ratio d' /\
  forall r, exists al al' lo, snd (greedy_portfolio 5 d r) = Ok (al, lo) /\ snd (greedy_portfolio 5 d' r) = Ok (al', lo) /\
    dget (LStr "A") al = Some 1%Z /\ dget (LStr "A") al' = None.
Proof.
  exists tie, tie'.
  assert (V : valid_da tie /\ valid_da tie').
  { split; (split; [repeat constructor; cbn; intuition discriminate|cbn; unfold Q2R; cbn; lra]). }
  split; [apply V|]. split; [apply V|]. split.
  { intros t x H. apply qdict_In in H. destruct H as [q [Hin ->]]. simpl in Hin. repeat (destruct Hin as [E|Hin]; [inversion E; subst; unfold Q2R; simpl; lra|]). destruct Hin. }
  split; [unfold total_weight, tie, qda, qdict; simpl; unfold Q2R; simpl; lra|]. split; [apply perm_swap|]. do 4 (split; [reflexivity|]).
  intros r. destruct (tie_run r) as [E1 E2]. exists [(LStr "A", 1%Z)], [(LStr "B", 1%Z)], 4. split; [exact E1|]. split; [exact E2|]. split; reflexivity.
Qed.

Theorem order_hrp : exists (names names' : list label) c link, Permutation names names' /\ NoDup names /\ positive_risk c names /\ positive_risk c names' /\
  valid_linkage (List.length names) link /\
  let dist t u := correlation_distance (correlation_of c t u) in
  only_single_linkage (List.length names) (fun i j => dist (nth i names (LInt 0)) (nth j names (LInt 0))) link /\
  pair_distances dist names' = pair_distances dist names /\
  forall lk, linkage_valid lk "single" (List.length names) -> lk "single"%string (pair_distances dist names) = link ->
  exists h0 h d h0' h' d', hrp_init HRetNone (HCovFrame (labelled names c)) = Ok h0 /\ hrp_optimize lk "single" h0 = (h, Ok d) /\
    hrp_init HRetNone (HCovFrame (labelled names' c)) = Ok h0' /\ hrp_optimize lk "single" h0' = (h', Ok d') /\
    exists t v v', dget t d = Some v /\ dget t d' = Some v' /\ v < 18/100 /\ 26/100 < v'.
Proof.
  exists five, five', five_cov, five_link. split; [exact five_perm|]. split; [exact five_nodup|]. split; [apply five_risk|]. split; [apply five_risk|]. split; [exact five_valid|].
  cbv zeta. split; [exact five_single|]. split; [exact five_same_distances|]. intros lk Hv Hl.
  destruct (five_run lk five (or_introl eq_refl) Hv Hl) as (h0 & h & d & E0 & E1 & W1 & W2).
  destruct (five_run lk five' (or_intror eq_refl) Hv Hl) as (h0' & h' & d' & E0' & E1' & W1' & W2').
  exists h0, h, d, h0', h', d'. split; [exact E0|]. split; [exact E1|]. split; [exact E0'|]. split; [exact E1'|].
  exists hC, (19/110), (252/935). split; [exact W1|]. split; [exact W2'|]. lra.
Qed.
