(** * Which other warnings are issued (C121) *)
From Coq Require Import ZArith List String Bool Reals Lia Lra.
From Verif Require Import Num RBase Py SLin Sums MConvex MEF MDown MCalls MPlot MPlot2 MFrame MBase MHRP MReturns MRisk MRisk2 MArray MBL MWarn SWarn.
Import ListNotations.
Local Open Scope R_scope.

Lemma frame_warned : forall t, (In WNotFrame (frame_warning t) <-> forall f, t <> TFrame f) /\ incl (frame_warning t) [WNotFrame].
Proof.
  intros [f|n rows|ix nm vals]; unfold frame_warning; cbn [not_frame]; (split; [split|]); try (intros H; discriminate); try (intros x []; fail).
  - intros [].
  - intros H. exfalso. apply (H f). reflexivity.
  - intros _. left. reflexivity.
  - intros x H. exact H.
  - intros _. left. reflexivity.
  - intros x H. exact H.
Qed.
Lemma fix_other : forall eigh M fm, incl (fst (fix_psd_w eigh M fm)) [WAmended; WNotFixed].
Proof.
  intros eigh M fm. unfold fix_psd_w. destruct (is_psd M); [intros x []|]. destruct (eigh M) as [q V].
  destruct (String.eqb fm "spectral"); [destruct (is_psd _)|destruct (String.eqb fm "diag"); [destruct (is_psd _)|]]; cbn [fst]; intros x H; cbn in *; tauto.
Qed.
Lemma fixed_other : forall eigh names rows fm, incl (fst (fixed_frame_w eigh names rows fm)) [WAmended; WNotFixed].
Proof.
  intros. unfold fixed_frame_w. pose proof (fix_other eigh rows fm) as H. destruct (fix_psd_w eigh rows fm) as [ws [m|e]]; exact H.
Qed.
Lemma announced : forall t more l ws, incl l ([WAmended; WNotFixed] ++ more) -> ~ In WNotFrame more -> ws = frame_warning t ++ l -> announces t more ws.
Proof.
  intros t more l ws H N ->. destruct (frame_warned t) as [A B]. split.
  - rewrite in_app_iff. rewrite A. split; [intros [K|K]; [exact K|]|intros K; left; exact K].
    apply H in K. apply in_app_iff in K. destruct K as [K|K]; [cbn in K; intuition discriminate|contradiction].
  - intros x K. apply in_app_iff in K. destruct K as [K|K]; [apply B in K; cbn in *; tauto|]. apply H in K. cbn in *. tauto.
Qed.
Theorem sample_cov_announces : forall eigh t rd fr log fm, announces t [] (fst (sample_cov_w eigh t rd fr log fm)).
Proof.
  intros. unfold sample_cov_w. destruct (get_returns _ rd log) as [r|e]; [destruct (whole _) as [C|e]|];
    try (eapply (announced t [] []); [intros x []|intros []|rewrite app_nil_r; reflexivity]).
  pose proof (fixed_other eigh (f_cols r) (scale_rows fr C) fm) as H. destruct (fixed_frame_w _ _ _ _) as [ws q].
  apply (announced t [] ws); [rewrite app_nil_r; exact H|intros []|reflexivity].
Qed.
Theorem semicovariance_announces : forall eigh t rd b fr log fm, announces t [] (fst (semicovariance_w eigh t rd b fr log fm)).
Proof.
  intros. unfold semicovariance_w. destruct (get_returns _ rd log) as [r|e]; [destruct (Nat.eqb _ 0)|];
    try (eapply (announced t [] []); [intros x []|intros []|rewrite app_nil_r; reflexivity]).
  match goal with |- context [fixed_frame_w ?e ?n ?r ?f] => pose proof (fixed_other e n r f) as H; destruct (fixed_frame_w e n r f) as [ws q] end.
  apply (announced t [] ws); [rewrite app_nil_r; exact H|intros []|reflexivity].
Qed.
Lemma spans_only : forall l sp, incl (span_warnings l sp) [WSpan].
Proof.
  intros l sp. unfold span_warnings. destruct (Rltb sp 10); [|intros x []].
  induction l as [|[y|e] l IH]; intros x H; [destruct H| |exact H]. destruct H as [<-|H]; [left; reflexivity|]. apply IH, H.
Qed.
Theorem exp_cov_announces : forall eigh t rd sp fr log fm, announces t [WSpan] (fst (exp_cov_w eigh t rd sp fr log fm)).
Proof.
  intros. unfold exp_cov_w. destruct (get_returns _ rd log) as [r|e].
  2:{ apply (announced t [WSpan] []); [intros x []|cbn; intuition discriminate|rewrite app_nil_r; reflexivity]. }
  set (sw := span_warnings _ sp). assert (K : incl sw [WSpan]) by apply spans_only. cbv zeta.
  match goal with |- context [match ?m with Ok _ => _ | Err _ => _ end] => destruct m as [C|e] end.
  2:{ apply (announced t [WSpan] sw); [intros x H; apply K in H; cbn in *; tauto|cbn; intuition discriminate|reflexivity]. }
  match goal with |- context [fixed_frame_w ?e ?n ?r ?f] => pose proof (fixed_other e n r f) as H; destruct (fixed_frame_w e n r f) as [ws q] end.
  apply (announced t [WSpan] (sw ++ ws)); [|cbn; intuition discriminate|cbn [fst]; rewrite <- app_assoc; reflexivity].
  intros x Hx. apply in_app_iff in Hx. destruct Hx as [Hx|Hx]; [apply K in Hx|apply H in Hx]; cbn in *; tauto.
Qed.
Lemma deprecated_first : forall t ws, announces t [] ws -> announces t [WDeprecated] (WDeprecated :: ws).
Proof.
  intros t ws [A B]. split.
  - rewrite <- A. split; [intros [H|H]; [discriminate|exact H]|intros H; right; exact H].
  - intros x [<-|H]; [cbn; tauto|]. apply B in H. cbn in *. tauto.
Qed.
Theorem min_cov_determinant_announces : forall eigh mcd t rd fr log fm,
  announces t [WDeprecated] (fst (min_cov_determinant_w eigh mcd t rd fr log fm)) /\ In WDeprecated (fst (min_cov_determinant_w eigh mcd t rd fr log fm)).
Proof.
  intros. unfold min_cov_determinant_w. cbv zeta. destruct (get_returns _ rd log) as [X|e].
  2:{ split; [|left; reflexivity]. apply deprecated_first, (announced t [] []); [intros x []|intros []|rewrite app_nil_r; reflexivity]. }
  destruct (fits _ _).
  2:{ split; [|left; reflexivity]. apply deprecated_first, (announced t [] []); [intros x []|intros []|rewrite app_nil_r; reflexivity]. }
  match goal with |- context [fixed_frame_w ?e ?n ?r ?f] => pose proof (fixed_other e n r f) as H; destruct (fixed_frame_w e n r f) as [ws q] end.
  split; [|left; reflexivity]. cbn [fst app]. apply deprecated_first, (announced t [] ws); [rewrite app_nil_r; exact H|intros []|reflexivity].
Qed.
Theorem shrunk_announces : forall eigh sh raw, incl (fst (format_annualize_w eigh sh raw)) [WAmended; WNotFixed] /\
  snd (format_annualize_w eigh sh raw) = format_annualize eigh sh raw.
Proof.
  intros. split; [apply fixed_other|]. unfold format_annualize_w, format_annualize, fixed_frame_w, fixed_frame.
  assert (E : snd (fix_psd_w eigh (scale_rows (sh_frequency sh) raw) "spectral") = fix_psd eigh (scale_rows (sh_frequency sh) raw) "spectral").
  { unfold fix_psd_w, fix_psd. destruct (is_psd _); [reflexivity|]. destruct (eigh _) as [q V]. reflexivity. }
  rewrite <- E. destruct (fix_psd_w _ _ _) as [ws [m|e]]; reflexivity.
Qed.
(** ** Black-Litterman *)
Theorem caps_warned : forall caps ra cov rf, snd (market_implied_prior_returns_w caps ra cov rf) = market_implied_prior_returns caps ra cov rf /\
  (In WAlignCaps (fst (market_implied_prior_returns_w caps ra cov rf)) <-> exists m, cov = CovArray m).
Proof.
  intros caps ra [cols rows|m] rf; unfold market_implied_prior_returns_w; cbn [fst snd]; (split; [reflexivity|]); split.
  - intros [].
  - intros [m H]. discriminate.
  - intros _. exists m. reflexivity.
  - intros _. left. reflexivity.
Qed.
Theorem bl_warnings : forall a, incl (fst (bl_init_w a)) [WNoPrior; WAlignCaps] /\
  (forall b, snd (bl_init_w a) = Ok b -> ~ In WAlignCaps (fst (bl_init_w a))).
Proof.
  intros a. unfold bl_init_w. cbv zeta.
  match goal with |- context [match ?m with Ok _ => _ | Err _ => _ end] => destruct m as [[[Q P] ra]|e] end; [|split; [intros x []|intros b H; discriminate]].
  unfold set_pi_w. destruct (a_pi a).
  1,2,4,5: cbn [fst snd]; split; [intros x H; cbn in *; tauto|intros b _ H; cbn in H; intuition discriminate].
  destruct (a_caps a) as [c|]; [|split; [intros x []|intros b H; discriminate]]. unfold market_implied_prior_returns_w.
  destruct (a_cov a) as [cols rows|m]; destruct (market_implied_prior_returns c ra _ (a_rf a)) as [prior|e]; cbn [fst snd];
    (split; [intros x H; cbn in *; tauto|intros b E H; first [discriminate|destruct H]]).
Qed.
(** ** CAPM *)
Theorem capm_warned : forall prices market rd,
  (In WNotFrame (capm_warnings prices market rd) <-> forall f, prices <> TFrame f) /\
  (In WMarketNotFrame (capm_warnings prices market rd) <-> rd = false /\ exists m, market = Some m /\ forall f, m <> TFrame f).
Proof.
  intros prices market rd. unfold capm_warnings. destruct (frame_warned prices) as [A B]. split.
  - rewrite in_app_iff, A. split; [intros [H|H]; [exact H|]|intros H; left; exact H].
    destruct market as [m|]; [destruct (negb rd && not_frame m); [destruct H as [H|[]]; discriminate|destruct H]|destruct H].
  - rewrite in_app_iff. split.
    + intros [H|H]; [apply B in H; destruct H as [H|[]]; discriminate|]. destruct market as [m|]; [|destruct H].
      destruct rd; [destruct H|]. split; [reflexivity|]. exists m. split; [reflexivity|]. intros f ->. destruct H.
    + intros [-> (m & -> & H)]. right. cbn [negb andb]. destruct m as [f|n r|i n v]; [exfalso; apply (H f); reflexivity| |]; left; reflexivity.
Qed.
