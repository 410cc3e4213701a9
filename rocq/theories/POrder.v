(** * Columns in another order: the estimators (C128) *)
From Coq Require Import ZArith List String Bool Reals Lra Lia Arith Permutation.
From Verif Require Import Num Py RBase PyLemmas MBase MFrame MHRP MReturns MRisk SLin SHRP SReturns SRisk SShrink Sums SBase SConvex SPerm PFrame PCov1 PCov2 PCov3 PCov4 PReturns PReturns2 PReturns3 PShrink PNames PPerm.
Import ListNotations.
Local Open Scope R_scope.
Notation len := List.length.

Lemma pick_nth : forall {X} (d : X) p l, map (fun i => nth (nth i p 0%nat) l d) (seq 0 (len p)) = pick d p l.
Proof. intros X d p l. unfold pick. rewrite <- (pick_seq 0%nat p) at 2. unfold pick. rewrite map_map. reflexivity. Qed.
Lemma total_picked : forall n p (g : nat -> R), ordering n p -> total (map (fun i => g (nth i p 0%nat)) (seq 0 n)) = total (map g (seq 0 n)).
Proof.
  intros n p g H. rewrite <- (ordering_length n p H) at 1. replace (map (fun i => g (nth i p 0%nat)) (seq 0 (len p))) with (map g p).
  - apply total_perm, Permutation_map. exact H.
  - rewrite <- (pick_seq 0%nat p) at 1. unfold pick. rewrite map_map. reflexivity.
Qed.
Lemma over_pairs_pick : forall n p (g g' : nat -> nat -> R), ordering n p -> (forall i j, (i < n)%nat -> (j < n)%nat -> g' i j = g (nth i p 0%nat) (nth j p 0%nat)) ->
  over_pairs n g' = over_pairs n g.
Proof.
  intros n p g g' H E. unfold over_pairs. rewrite <- (total_picked n p (fun i => total (map (g i) (seq 0 n))) H). f_equal.
  apply map_ext_in. intros i Hi. apply in_seq in Hi. rewrite <- (total_picked n p (g (nth i p 0%nat)) H). f_equal.
  apply map_ext_in. intros j Hj. apply in_seq in Hj. apply E; lia.
Qed.
Lemma over_different_pick : forall n p (g g' : nat -> nat -> R), ordering n p -> (forall i j, (i < n)%nat -> (j < n)%nat -> g' i j = g (nth i p 0%nat) (nth j p 0%nat)) ->
  over_different n g' = over_different n g.
Proof.
  intros n p g g' H E. unfold over_different. apply (over_pairs_pick n p); [exact H|]. intros i j Hi Hj.
  destruct (Nat.eqb_spec i j) as [->|Hij]; [rewrite Nat.eqb_refl; reflexivity|].
  destruct (Nat.eqb_spec (nth i p 0%nat) (nth j p 0%nat)) as [Hp|Hp]; [|apply E; assumption].
  exfalso. apply Hij. rewrite <- (ordering_length n p H) in Hi, Hj. apply (proj1 (NoDup_nth p 0%nat) (ordering_nodup n p H)); assumption.
Qed.
Lemma same_array : forall n M N, square n M -> square n N -> (forall i j, (i < n)%nat -> (j < n)%nat -> entry M i j = entry N i j) -> M = N.
Proof.
  intros n M N [L1 F1] [L2 F2] E. apply nth_ext with (d := []) (d' := []); [congruence|]. intros i Hi.
  assert (A : len (nth i M []) = n) by (rewrite Forall_forall in F1; apply F1, nth_In; exact Hi).
  assert (B : len (nth i N []) = n) by (rewrite Forall_forall in F2; apply F2, nth_In; lia).
  apply nth_ext with (d := 0) (d' := 0); [congruence|]. intros j Hj. apply E; lia.
Qed.
Lemma entry_reordered : forall n p M i j, ordering n p -> square n M -> (i < n)%nat -> (j < n)%nat ->
  entry (cov_reordered p M) i j = entry M (nth i p 0%nat) (nth j p 0%nat).
Proof.
  intros n p M i j H [L F] Hi Hj. pose proof (ordering_length n p H) as Lp. unfold entry, cov_reordered.
  rewrite nth_pick by lia. set (i' := nth i p 0%nat). assert (Hi' : (i' < n)%nat) by (apply (ordering_lt n p); [exact H|apply nth_In; lia]).
  rewrite (nth_indep _ [] (pick 0 p [])) by (rewrite map_length; lia). rewrite map_nth. apply nth_pick. lia.
Qed.

Section Order.
  Variables (eigh : eigh_oracle) (sk_lw sk_oas : shrink_oracle) (T : nat) (dates names : list label) (prc : label -> list R) (p : list nat).
  Hypothesis (HT : (2 <= T)%nat) (Hn : names <> []) (Hd : len dates = S T).
  Hypothesis (Hl : forall t, In t names -> len (prc t) = S T) (Hp : forall t, In t names -> Forall (fun v => 0 < v) (prc t)).
  Hypothesis Ho : ordering (len names) p.
  Let names' := pick (LInt 0) p names.
  Let x := fun t => simple_returns (prc t).
  Let n := len names.

  Lemma names_perm : Permutation names' names. Proof. apply pick_perm. exact Ho. Qed.
  Lemma names_in : forall t, In t names' -> In t names. Proof. intros t. apply Permutation_in. exact names_perm. Qed.
  Lemma names_len : len names' = n. Proof. apply Permutation_length. exact names_perm. Qed.
  Lemma names_ne : names' <> [].
  Proof. intros E. pose proof names_perm as H. rewrite E in H. apply Permutation_nil in H. contradiction. Qed.
  Lemma names_at : forall i, (i < n)%nat -> nth i names' (LInt 0) = nth (nth i p 0%nat) names (LInt 0).
  Proof. intros i Hi. unfold names'. rewrite nth_pick; [reflexivity|]. rewrite (ordering_length _ _ Ho). exact Hi. Qed.
  Lemma in_range : forall i, (i < n)%nat -> (nth i p 0%nat < n)%nat.
  Proof. intros i Hi. apply (ordering_lt _ _ _ Ho). apply nth_In. rewrite (ordering_length _ _ Ho). exact Hi. Qed.
  Lemma market_pick : market T names' x = market T names x.
  Proof.
    unfold market. apply map_ext. intros k. unfold average. rewrite !map_length, names_len. unfold n. f_equal. apply total_perm, Permutation_map, names_perm.
  Qed.

  (** ** Returns *)
  Lemma series_pick : forall (f : label -> option R), map (fun t => (t, f t)) names' = pick (LInt 0, f (LInt 0)) p (map (fun t => (t, f t)) names).
  Proof. intros f. unfold names'. apply (pick_map (fun t => (t, f t))). Qed.

  Theorem returns_reordered : forall m s, m = "mean_historical_return"%string \/
      (m = "ema_historical_return"%string /\ forall t, In t names -> -1 < ema_value 500 (simple_returns (prc t))) \/
      (m = "capm_return"%string /\ ~ In (LStr "mkt") names /\
        let mk := market T names (fun t => simple_returns (prc t)) in sample_covariance mk mk <> 0 /\ Forall (fun v => -1 < v) mk) ->
    return_model (history (S T) dates names prc) m = Ok (false, s) ->
    return_model (history (S T) dates names' prc) m = Ok (false, pick (LInt 0, None) p s).
  Proof.
    assert (G : forall (f : label -> option R) s, Ok (false, map (fun t => (t, f t)) names) = Ok (false, s) -> Ok (false, map (fun t => (t, f t)) names') = Ok (false, pick (LInt 0, None) p s)).
    { intros f s E. injection E as E. subst s. do 2 f_equal. rewrite series_pick. apply nth_ext with (d := (LInt 0, None)) (d' := (LInt 0, None)); [rewrite !pick_length; reflexivity|].
      intros k Hk. rewrite pick_length in Hk. rewrite nth_pick by exact Hk.
      assert (A : (nth k p 0%nat < len (map (fun t => (t, f t)) names))%nat) by (rewrite map_length; apply in_range; pose proof (ordering_length _ _ Ho); unfold n; lia).
      rewrite (nth_indep _ (LInt 0, None) (LInt 0, f (LInt 0))) by (rewrite pick_length; exact Hk). rewrite nth_pick by exact Hk. apply nth_indep. exact A. }
    pose proof names_in as Hin.
    intros m s [->|[[-> He]|[-> [Hk [Hv Hm]]]]] E.
    - rewrite (model_mean T dates names prc HT Hn Hd Hl Hp) in E. rewrite (model_mean T dates names' prc HT names_ne Hd) by auto. apply G. exact E.
    - rewrite (model_ema T dates names prc HT Hn Hd Hl Hp He) in E. rewrite (model_ema T dates names' prc HT names_ne Hd) by auto. apply G. exact E.
    - rewrite (model_capm T dates names prc HT Hn Hd Hl Hp Hk Hv Hm) in E.
      assert (M : market T names' (fun t => simple_returns (prc t)) = market T names (fun t => simple_returns (prc t))) by apply market_pick.
      rewrite (model_capm T dates names' prc HT names_ne Hd); auto; try (rewrite M; assumption). rewrite M. exact (G _ s E).
  Qed.

  (** ** Risk *)
  Lemma labelled_pick : forall c, labelled names' c = mkFrame names' names' (cov_reordered p (map (fun t => map (c t) names) names)).
  Proof.
    intros c. unfold labelled. f_equal. assert (S1 : square n (map (fun t => map (c t) names) names)).
    { split; [apply map_length|]. apply Forall_forall. intros r Hr. apply in_map_iff in Hr. destruct Hr as [t [<- _]]. apply map_length. }
    assert (S2 : square n (map (fun t => map (c t) names') names')).
    { split; [rewrite map_length; exact names_len|]. apply Forall_forall. intros r Hr. apply in_map_iff in Hr. destruct Hr as [t [<- _]]. rewrite map_length. exact names_len. }
    apply (same_array n); [exact S2|apply cov_reordered_square; assumption|]. intros i j Hi Hj. rewrite (entry_reordered n) by assumption.
    assert (EN : forall l a b, (a < len l)%nat -> (b < len l)%nat -> entry (map (fun t => map (c t) l) l) a b = c (nth a l (LInt 0)) (nth b l (LInt 0))).
    { intros l a b Ha Hb. unfold entry. rewrite (nth_indep _ [] (map (c (LInt 0)) l)) by (rewrite map_length; exact Ha). rewrite (map_nth (fun t => map (c t) l)).
      rewrite (nth_indep _ 0 (c (nth a l (LInt 0)) (LInt 0))) by (rewrite map_length; exact Hb). apply map_nth. }
    rewrite !EN by (try rewrite names_len; try apply in_range; assumption). rewrite !names_at by assumption. reflexivity.
  Qed.
  Let xs := fun i => x (nth i names (LInt 0)).
  Let xs' := fun i => x (nth i names' (LInt 0)).
  Lemma xs_at : forall i, (i < n)%nat -> xs' i = xs (nth i p 0%nat).
  Proof. intros i Hi. unfold xs, xs'. rewrite names_at by exact Hi. reflexivity. Qed.
  Lemma pi_pick : forall s s', (forall i j, (i < n)%nat -> (j < n)%nat -> s' i j = s (nth i p 0%nat) (nth j p 0%nat)) -> lw_pi T n xs' s' = lw_pi T n xs s.
  Proof. intros s s' H. unfold lw_pi. apply (over_pairs_pick n p); [exact Ho|]. intros i j Hi Hj. rewrite !xs_at, H by assumption. reflexivity. Qed.
  Lemma diagonal_pick : forall s s', (forall i j, (i < n)%nat -> (j < n)%nat -> s' i j = s (nth i p 0%nat) (nth j p 0%nat)) -> lw_diagonal T n xs' s' = lw_diagonal T n xs s.
  Proof.
    intros s s' H. unfold lw_diagonal. rewrite <- (total_picked n p (fun i => asymptotic T (xs i) (xs i) (s i i) (xs i) (xs i) (s i i)) Ho). f_equal.
    apply map_ext_in. intros i Hi. apply in_seq in Hi. rewrite !xs_at, H by lia. reflexivity.
  Qed.
  Lemma gamma_pick : forall s s' f f', (forall i j, (i < n)%nat -> (j < n)%nat -> s' i j = s (nth i p 0%nat) (nth j p 0%nat)) ->
    (forall i j, (i < n)%nat -> (j < n)%nat -> f' i j = f (nth i p 0%nat) (nth j p 0%nat)) -> lw_gamma n s' f' = lw_gamma n s f.
  Proof. intros s s' f f' H1 H2. unfold lw_gamma. apply (over_different_pick n p); [exact Ho|]. intros i j Hi Hj. rewrite H1, H2 by assumption. reflexivity. Qed.
  Lemma rho_market_pick : forall m s s', (forall i j, (i < n)%nat -> (j < n)%nat -> s' i j = s (nth i p 0%nat) (nth j p 0%nat)) -> rho_market T n xs' m s' = rho_market T n xs m s.
  Proof.
    intros m s s' H. unfold rho_market. cbv zeta. rewrite (diagonal_pick s s' H). f_equal. apply (over_different_pick n p); [exact Ho|]. intros i j Hi Hj.
    rewrite !xs_at, !H by assumption. reflexivity.
  Qed.
  Lemma rho_constant_pick : forall r s s', (forall i j, (i < n)%nat -> (j < n)%nat -> s' i j = s (nth i p 0%nat) (nth j p 0%nat)) -> rho_constant T n xs' s' r = rho_constant T n xs s r.
  Proof.
    intros r s s' H. unfold rho_constant. rewrite (diagonal_pick s s' H). f_equal. apply (over_different_pick n p); [exact Ho|]. intros i j Hi Hj.
    rewrite !xs_at, !H by assumption. reflexivity.
  Qed.
  Let V := sample_matrix names x.
  Let V' := sample_matrix names' x.
  Lemma V_at : forall i j, (i < n)%nat -> (j < n)%nat -> entry V' i j = entry V (nth i p 0%nat) (nth j p 0%nat).
  Proof.
    intros i j Hi Hj. pose proof (labelled_pick (fun t u => sample_covariance (x t) (x u))) as E. unfold labelled in E. injection E as E.
    unfold V', V, sample_matrix. rewrite E. apply entry_reordered with (n := n); try assumption. split; [apply map_length|].
    apply Forall_forall. intros r Hr. apply in_map_iff in Hr. destruct Hr as [t [<- _]]. apply map_length.
  Qed.
  Lemma correlation_pick : mean_correlation n V' = mean_correlation n V.
  Proof.
    unfold mean_correlation. f_equal.
    change (total (map (fun i => total (map (fun j => if Nat.eqb i j then 0 else entry V' i j / (sqrt (entry V' i i) * sqrt (entry V' j j))) (seq 0 n))) (seq 0 n)))
      with (over_different n (fun i j => entry V' i j / (sqrt (entry V' i i) * sqrt (entry V' j j)))).
    change (total (map (fun i => total (map (fun j => if Nat.eqb i j then 0 else entry V i j / (sqrt (entry V i i) * sqrt (entry V j j))) (seq 0 n))) (seq 0 n)))
      with (over_different n (fun i j => entry V i j / (sqrt (entry V i i) * sqrt (entry V j j)))).
    apply (over_different_pick n p); [exact Ho|]. intros i j Hi Hj. rewrite !V_at by assumption. reflexivity.
  Qed.

  Lemma px_length' : forall t, In t names' -> len (x t) = T.
  Proof. intros t Ht. apply (px_length T dates names prc HT Hd Hl). apply names_in. exact Ht. Qed.

  (** the matrix for the new order is the old one with rows and columns re-ordered *)
  Definition reorders (m : string) : Prop := forall F, risk_matrix eigh sk_lw sk_oas (history (S T) dates names prc) m = Ok F ->
    exists r, F = mkFrame names names r /\ square n r /\
      risk_matrix eigh sk_lw sk_oas (history (S T) dates names' prc) m = Ok (mkFrame names' names' (cov_reordered p r)).
  Lemma labelled_square : forall c, square n (map (fun t => map (c t) names) names).
  Proof. intros c. split; [apply map_length|]. apply Forall_forall. intros r Hr. apply in_map_iff in Hr. destruct Hr as [t [<- _]]. apply map_length. Qed.
  Lemma reorders_labelled : forall m c, risk_matrix eigh sk_lw sk_oas (history (S T) dates names prc) m = Ok (labelled names c) ->
    risk_matrix eigh sk_lw sk_oas (history (S T) dates names' prc) m = Ok (labelled names' c) -> reorders m.
  Proof.
    intros m c E E' F H. rewrite E in H. injection H as <-. exists (map (fun t => map (c t) names) names). split; [reflexivity|]. split; [apply labelled_square|].
    rewrite E', labelled_pick. reflexivity.
  Qed.
  Theorem plain_reordered : forall m, In m ["sample_cov"; "semicovariance"; "semivariance"; "exp_cov"]%string -> reorders m.
  Proof.
    pose proof names_in as Hin. intros m [<-|[<-|[<-|[<-|[]]]]].
    - eapply reorders_labelled; [apply risk_sample; assumption|apply risk_sample; auto using names_ne].
    - eapply reorders_labelled; [apply risk_semi; auto|apply risk_semi; auto using names_ne].
    - eapply reorders_labelled; [apply risk_semi; auto|apply risk_semi; auto using names_ne].
    - eapply reorders_labelled; [apply risk_exp; assumption|apply risk_exp; auto using names_ne].
  Qed.

  Theorem single_factor_reordered : let m := market T names x in let b i := plain_covariance T (xs i) m in
    let s i j := plain_covariance T (xs i) (xs j) in let v := plain_covariance T m m in
    sample_covariance m m <> 0 -> lw_gamma n s (fun i j => b i * b j / v) <> 0 -> reorders "ledoit_wolf_single_factor".
  Proof.
    intros m b s v Hm Hg F HF. pose proof (INR_ge2 T HT) as HI.
    assert (Hv : v <> 0).
    { intros E. apply Hm. unfold v, plain_covariance in E. rewrite mean_over_sumn in E. rewrite sample_cov_sumn. assert (Hml : len m = T) by apply market_length. rewrite Hml. apply Rmult_integral in E. destruct E as [E|E].
      - unfold deviation in E. rewrite E. unfold Rdiv. ring.
      - exfalso. assert (0 < / INR T) by (apply Rinv_0_lt_compat; lra). lra. }
    pose proof market_pick as MP. pose proof px_length' as PL.
    assert (Es : forall i j, (i < n)%nat -> (j < n)%nat -> plain_covariance T (xs' i) (xs' j) = s (nth i p 0%nat) (nth j p 0%nat)).
    { intros i j Hi Hj. unfold s. rewrite !xs_at by assumption. reflexivity. }
    destruct (market_intensity eigh sk_lw T (tl dates) names x 252 HT Hn (px_length T dates names prc HT Hd Hl) ltac:(lra) Hv Hg) as (F1 & E1).
    destruct (single_factor_good eigh sk_lw T (tl dates) names x 252 HT Hn (px_length T dates names prc HT Hd Hl) ltac:(lra) Hm) as (r1 & d1 & G1 & _ & P1 & _ & A1 & B1).
    rewrite E1 in G1. injection G1 as EF1 Ed1. subst F1.
    assert (Eg : lw_gamma n (fun i j => plain_covariance T (xs' i) (xs' j)) (fun i j => plain_covariance T (xs' i) m * plain_covariance T (xs' j) m / v) = lw_gamma n s (fun i j => b i * b j / v)).
    { apply gamma_pick; [exact Es|]. intros i j Hi Hj. unfold b. rewrite !xs_at by assumption. reflexivity. }
    pose proof (market_intensity eigh sk_lw T (tl dates) names' x 252 HT names_ne PL ltac:(lra)) as MI. cbv zeta in MI. rewrite MP in MI. rewrite names_len in MI.
    destruct (MI Hv) as (F2 & E2); [rewrite <- Eg in Hg; exact Hg|].
    pose proof (single_factor_good eigh sk_lw T (tl dates) names' x 252 HT names_ne PL ltac:(lra)) as SG. cbv zeta in SG. rewrite MP in SG. rewrite names_len in SG.
    destruct (SG Hm) as (r2 & d2 & G2 & _ & P2 & _ & A2 & B2). rewrite E2 in G2. injection G2 as EF2 Ed2. subst F2.
    assert (ED : d1 = d2).
    { rewrite <- Ed1, <- Ed2. f_equal.
      - symmetry. exact (pi_pick s _ Es).
      - symmetry. exact (rho_market_pick m s _ Es).
      - symmetry. exact Eg. }
    exists r1. split; [|split; [exact (proj1 P1)|]].
    - unfold risk_matrix in HF. cbn [String.eqb Ascii.eqb Bool.eqb orb] in HF. rewrite (px_init T dates names prc HT Hn Hd Hl Hp) in HF. cbn [rbind] in HF. fold x in HF. rewrite E1 in HF. cbn [rbind] in HF. injection HF as <-. reflexivity.
    - unfold risk_matrix. cbn [String.eqb Ascii.eqb Bool.eqb orb]. rewrite (px_init T dates names' prc HT names_ne Hd) by (intros t Ht; apply names_in in Ht; auto). cbn [rbind]. fold x. rewrite E2. cbn [rbind fst].
      do 2 f_equal. apply (same_array n); [exact (proj1 P2)|apply cov_reordered_square; [exact Ho|exact (proj1 P1)]|].
      intros i j Hi Hj. rewrite (entry_reordered n) by (try assumption; exact (proj1 P1)). destruct (Nat.eq_dec i j) as [->|Hij].
      + rewrite A2, A1 by (try apply in_range; assumption). f_equal. apply V_at; assumption.
      + rewrite B2, B1; try (apply in_range; assumption); try assumption.
        * rewrite ED. f_equal. fold V' V. rewrite V_at by assumption. change (x (name names' i)) with (xs' i). change (x (name names' j)) with (xs' j). rewrite !xs_at by assumption. reflexivity.
        * intros Hp'. apply Hij. apply (proj1 (NoDup_nth p 0%nat) (ordering_nodup _ _ Ho)); try (rewrite (ordering_length _ _ Ho); assumption). exact Hp'.
  Qed.

  Theorem constant_correlation_reordered : (2 <= n)%nat -> (forall t, In t names -> 0 < sample_covariance (x t) (x t)) ->
    let s i j := sample_covariance (xs i) (xs j) in let rho := mean_correlation n V in
    lw_gamma n s (fun i j => rho * sqrt (s i i * s j j)) <> 0 -> reorders "ledoit_wolf_constant_correlation".
  Proof.
    intros H2 Hv s rho Hg F HF. pose proof px_length' as PL.
    assert (Es : forall i j, (i < n)%nat -> (j < n)%nat -> sample_covariance (xs' i) (xs' j) = s (nth i p 0%nat) (nth j p 0%nat)).
    { intros i j Hi Hj. unfold s. rewrite !xs_at by assumption. reflexivity. }
    destruct (constant_intensity eigh sk_lw T (tl dates) names x 252 HT H2 (px_length T dates names prc HT Hd Hl) ltac:(lra) Hv Hg) as (F1 & E1).
    destruct (constant_correlation_good eigh sk_lw T (tl dates) names x 252 HT H2 (px_length T dates names prc HT Hd Hl) ltac:(lra) Hv) as (r1 & d1 & G1 & _ & P1 & _ & A1 & B1).
    rewrite E1 in G1. injection G1 as EF1 Ed1. subst F1.
    assert (Eg : lw_gamma n (fun i j => sample_covariance (xs' i) (xs' j)) (fun i j => rho * sqrt (sample_covariance (xs' i) (xs' i) * sample_covariance (xs' j) (xs' j))) = lw_gamma n s (fun i j => rho * sqrt (s i i * s j j))).
    { apply gamma_pick; [exact Es|]. intros i j Hi Hj. rewrite !Es by assumption. reflexivity. }
    assert (H2' : (2 <= len names')%nat) by (rewrite names_len; exact H2).
    assert (Hv' : forall t, In t names' -> 0 < sample_covariance (x t) (x t)) by (intros t Ht; apply Hv, names_in; exact Ht).
    pose proof correlation_pick as CP. fold rho in CP.
    pose proof (constant_intensity eigh sk_lw T (tl dates) names' x 252 HT H2' PL ltac:(lra) Hv') as MI. cbv zeta in MI. rewrite names_len in MI. fold V' in MI. rewrite CP in MI.
    destruct MI as (F2 & E2); [rewrite <- Eg in Hg; exact Hg|].
    pose proof (constant_correlation_good eigh sk_lw T (tl dates) names' x 252 HT H2' PL ltac:(lra) Hv') as SG. cbv zeta in SG. rewrite names_len in SG. fold V' in SG. rewrite CP in SG.
    destruct SG as (r2 & d2 & G2 & _ & P2 & _ & A2 & B2). rewrite E2 in G2. injection G2 as EF2 Ed2. subst F2.
    assert (ED : d1 = d2).
    { rewrite <- Ed1, <- Ed2. f_equal.
      - symmetry. exact (pi_pick s _ Es).
      - symmetry. exact (rho_constant_pick rho s _ Es).
      - symmetry. exact Eg. }
    exists r1. split; [|split; [exact (proj1 P1)|]].
    - unfold risk_matrix in HF. cbn [String.eqb Ascii.eqb Bool.eqb orb] in HF. rewrite (px_init T dates names prc HT Hn Hd Hl Hp) in HF. cbn [rbind] in HF. fold x in HF. rewrite E1 in HF. cbn [rbind] in HF. injection HF as <-. reflexivity.
    - unfold risk_matrix. cbn [String.eqb Ascii.eqb Bool.eqb orb]. rewrite (px_init T dates names' prc HT names_ne Hd) by (intros t Ht; apply names_in in Ht; auto). cbn [rbind]. fold x. rewrite E2. cbn [rbind fst].
      do 2 f_equal. apply (same_array n); [exact (proj1 P2)|apply cov_reordered_square; [exact Ho|exact (proj1 P1)]|].
      intros i j Hi Hj. rewrite (entry_reordered n) by (try assumption; exact (proj1 P1)). destruct (Nat.eq_dec i j) as [->|Hij].
      + rewrite A2, A1 by (try apply in_range; assumption). f_equal. apply V_at; assumption.
      + rewrite B2, B1; try (apply in_range; assumption); try assumption.
        * rewrite ED. fold V. fold rho. rewrite !V_at by assumption. reflexivity.
        * intros Hp'. apply Hij. apply (proj1 (NoDup_nth p 0%nat) (ordering_nodup _ _ Ho)); try (rewrite (ordering_length _ _ Ho); assumption). exact Hp'.
  Qed.
End Order.
