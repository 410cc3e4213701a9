(** * Proofs about data that are converted on the way in (C100, C111, C121) *)
From Coq Require Import ZArith List String Bool Reals Lia Lra.
From Verif Require Import Num RBase Py PyLemmas SLin MFrame MBase MHRP MReturns MRisk MRisk2 MArray MPlot2 MWarn SLabels SPlot2 SConv PLabels PPlot2.
Import ListNotations.
Local Open Scope R_scope.

(** ** A Series is a table with one column *)
Lemma series_table : forall ix name vals f, one_column ix name vals f -> frame_of (TSeries ix name vals) = f.
Proof.
  intros ix name vals [fi fc fr] (A & (l & B & C) & D). cbn [f_index f_cols f_rows] in *. subst fi fc. cbn [frame_of].
  replace (map (fun v => [v]) vals) with fr by (symmetry; induction D as [|v row vs rows E _ IH]; [reflexivity|cbn; subst row; rewrite IH; reflexivity]).
  destruct C as [->|[-> ->]]; reflexivity.
Qed.
Theorem series_returns : forall ix name vals f rd comp fr log, one_column ix name vals f ->
  mean_historical_return_any (TSeries ix name vals) rd comp fr log = (true, mean_historical_return f rd comp fr log) /\
  (forall span, ema_historical_return_any (TSeries ix name vals) rd comp span fr log = (true, ema_historical_return f rd comp span fr log)) /\
  (forall rf, capm_return_any (TSeries ix name vals) None rd rf comp fr log = (true, false, snd (capm_return f None rd rf comp fr log))).
Proof.
  intros ix name vals f rd comp fr log H. unfold mean_historical_return_any, ema_historical_return_any, capm_return_any.
  rewrite (series_table _ _ _ _ H). repeat split.
Qed.
Theorem series_market : forall t ix name vals f rf comp fr log, one_column ix name vals f ->
  capm_return_any t (Some (TSeries ix name vals)) false rf comp fr log =
  (fst (fst (capm_return_any t (Some (TFrame f)) false rf comp fr log)), true, snd (capm_return_any t (Some (TFrame f)) false rf comp fr log)).
Proof. intros t ix name vals f rf comp fr log H. unfold capm_return_any. cbn [option_map fst snd negb andb not_frame]. rewrite (series_table _ _ _ _ H). reflexivity. Qed.
Theorem series_matrices : forall eigh ix name vals f rd fr log fm, one_column ix name vals f ->
  sample_cov_any eigh (TSeries ix name vals) rd fr log fm = (true, sample_cov eigh f rd fr log fm) /\
  (forall b, semicovariance_any eigh (TSeries ix name vals) rd b fr log fm = (true, semicovariance eigh f rd b fr log fm)) /\
  (forall span, exp_cov_any eigh (TSeries ix name vals) rd span fr log fm = (true, exp_cov eigh f rd span fr log fm)) /\
  (forall mcd, min_cov_determinant_any eigh mcd (TSeries ix name vals) rd fr log fm = (true, min_cov_determinant eigh mcd f rd fr log fm)) /\
  shrinkage_init_any (TSeries ix name vals) rd fr log = (true, shrinkage_init f rd fr log).
Proof.
  intros eigh ix name vals f rd fr log fm H. unfold sample_cov_any, semicovariance_any, exp_cov_any, min_cov_determinant_any, shrinkage_init_any.
  rewrite (series_table _ _ _ _ H). repeat split.
Qed.

(** ** The names of linkage methods *)
Theorem methods_known : forall m, In m linkage_methods <-> known_method m.
Proof. intros m. unfold linkage_methods, known_method. cbn [In]. intuition congruence. Qed.
Theorem methods_unknown : forall lk m h, ~ known_method m -> hrp_optimize lk m h = (h, Err ValueError).
Proof.
  intros lk m h H. unfold hrp_optimize. destruct (existsb (String.eqb m) linkage_methods) eqn:E; [|reflexivity].
  exfalso. apply H, methods_known. apply existsb_exists in E. destruct E as [x [Hx E]]. apply String.eqb_eq in E. subst x. exact Hx.
Qed.

(** ** Covariances and correlations *)
Theorem to_corr : forall c n, square n (f_rows (as_frame c)) -> all_risky n (f_rows (as_frame c)) ->
  exists f, snd (cov_to_corr_w c) = Ok f /\ f_index f = f_index (as_frame c) /\ f_cols f = f_index (as_frame c) /\ correlations n (f_rows (as_frame c)) (f_rows f).
Proof.
  intros c n H Hp. assert (E : n = List.length (f_rows (as_frame c))) by (symmetry; apply H). subst n. destruct (covariance_correlation c true H Hp) as [M [E K]].
  unfold plot_covariance in E. unfold cov_to_corr_w. cbn [snd]. unfold cov_to_corr in *.
  destruct (forallb _ (f_rows (as_frame c))); [|discriminate]. destruct (forallb _ (diagonal _)); [|discriminate].
  cbn [rbind f_rows f_index] in E. injection E as E. eexists. split; [reflexivity|]. cbn [f_index f_cols f_rows]. rewrite E. repeat split. exact K.
Qed.
Theorem to_cov : forall c s n, square n (f_rows (as_frame c)) -> List.length s = n ->
  exists f, snd (corr_to_cov_w c s) = Ok f /\ f_index f = f_index (as_frame c) /\ f_cols f = f_cols (as_frame c) /\ rescaled n (f_rows (as_frame c)) s (f_rows f).
Proof.
  intros c s n [Hl Hr] Hs. unfold corr_to_cov_w. cbn [snd]. unfold corr_to_cov. set (F := as_frame c) in *.
  rewrite Hl, Hs, Nat.eqb_refl. replace (forallb _ (f_rows F)) with true; [|symmetry; apply forallb_forall; intros r H; rewrite Forall_forall in Hr; apply Nat.eqb_eq, Hr, H].
  cbn [andb]. eexists. split; [reflexivity|]. cbn [f_index f_cols f_rows]. repeat split. intros i j Hi Hj.
  assert (S1 : forall k, (k < n)%nat -> nth_error s k = Some (nth k s 0)) by (intros k Hk; apply nth_error_nth'; lia).
  assert (R1 : nth_error (f_rows F) i = Some (nth i (f_rows F) [])) by (apply nth_error_nth'; lia).
  assert (R2 : nth_error (nth i (f_rows F) []) j = Some (nth j (nth i (f_rows F) []) 0)).
  { apply nth_error_nth'. rewrite Forall_forall in Hr. rewrite Hr; [exact Hj|]. apply nth_In. lia. }
  rewrite (nth_error_nth _ _ _ (map2_nth _ s (f_rows F) i _ _ (S1 i Hi) R1)).
  rewrite (nth_error_nth _ _ _ (map2_nth _ s _ j _ _ (S1 j Hj) R2)). reflexivity.
Qed.
Theorem array_to_corr : forall m n, square n m -> all_risky n m ->
  exists f, cov_to_corr_w (LArray m) = ([WCovNotFrame], Ok f) /\ positions n (f_index f) /\ f_cols f = f_index f /\ correlations n m (f_rows f).
Proof.
  intros m n H Hp. destruct (to_corr (LArray m) n H Hp) as (f & E & A & B & C). exists f. split; [unfold cov_to_corr_w in *; cbn [snd] in E; rewrite E; reflexivity|].
  rewrite A, B. split; [|split; [reflexivity|exact C]]. destruct H as [<- _]. apply range_positions.
Qed.
Theorem frame_to_corr : forall g n, square n (f_rows g) -> all_risky n (f_rows g) ->
  exists f, cov_to_corr_w (LFrame g) = ([], Ok f) /\ f_index f = f_index g /\ f_cols f = f_index g /\ correlations n (f_rows g) (f_rows f).
Proof.
  intros g n H Hp. destruct (to_corr (LFrame g) n H Hp) as (f & E & A & B & C). exists f. split; [unfold cov_to_corr_w in *; cbn [snd] in E; rewrite E; reflexivity|].
  repeat split; assumption.
Qed.
Theorem array_to_cov : forall m s n, square n m -> List.length s = n ->
  exists f, corr_to_cov_w (LArray m) s = ([WCorrNotFrame], Ok f) /\ positions n (f_index f) /\ positions n (f_cols f) /\ rescaled n m s (f_rows f).
Proof.
  intros m s n H Hs. destruct (to_cov (LArray m) s n H Hs) as (f & E & A & B & C). exists f. split; [unfold corr_to_cov_w in *; cbn [snd] in E; rewrite E; reflexivity|].
  rewrite A, B. destruct H as [<- _]. split; [apply range_positions|]. split; [apply range_positions|exact C].
Qed.
Theorem frame_to_cov : forall g s n, square n (f_rows g) -> List.length s = n ->
  exists f, corr_to_cov_w (LFrame g) s = ([], Ok f) /\ f_index f = f_index g /\ f_cols f = f_cols g /\ rescaled n (f_rows g) s (f_rows f).
Proof.
  intros g s n H Hs. destruct (to_cov (LFrame g) s n H Hs) as (f & E & A & B & C). exists f. split; [unfold corr_to_cov_w in *; cbn [snd] in E; rewrite E; reflexivity|].
  repeat split; assumption.
Qed.
Theorem misfit_to_cov : forall c s n, square n (f_rows (as_frame c)) -> List.length s <> n -> snd (corr_to_cov_w c s) = Err ShapeError.
Proof.
  intros c s n [Hl Hr] Hs. unfold corr_to_cov_w, corr_to_cov. cbn [snd]. rewrite Hl.
  replace (Nat.eqb n (List.length s)) with false by (symmetry; apply Nat.eqb_neq; congruence). reflexivity.
Qed.
