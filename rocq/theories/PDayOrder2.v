(** * The estimators, HRP and the order of the days; where the order matters (C131) *)
From Coq Require Import ZArith List String Bool Reals Lra Lia Permutation.
From Verif Require Import Num Py RBase PBase MBase MFrame MHRP MReturns MRisk SLin Sums SDayOrder PDayOrder.
Import ListNotations.
Local Open Scope R_scope.

Lemma order_mean : forall f g, same_days f g -> forall compounding fr lg,
  same_estimates (mean_historical_return f true compounding fr lg) (mean_historical_return g true compounding fr lg).
Proof. intros f g H. apply mean_rows; [apply H|apply same_days_rows, H]. Qed.

Lemma no_gaps_check : forall f : frame (option R), no_gaps f -> Forall (fun row => List.length row = List.length (f_cols f)) (f_rows f) ->
  check_returns f = false.
Proof.
  intros f H L. unfold check_returns, columns.
  apply not_true_is_false. intros E. apply existsb_exists in E. destruct E as (c & I & G).
  apply in_map_iff in I. destruct I as (j & <- & J). apply in_seq in J.
  assert (N : forall rows : list (list (option R)), Forall (fun row => Forall (fun x => x <> None) row) rows ->
     Forall (fun row => List.length row = List.length (f_cols f)) rows -> has_none (column rows j) = false).
  { induction rows as [|r rows IH]; intros A B; [reflexivity|]. inversion A; inversion B; subst. cbn [column map has_none].
    destruct (nth j r None) as [v|] eqn:V; [apply IH; assumption|]. exfalso.
    rewrite Forall_forall in H2. apply (H2 (nth j r None)); [|exact V]. apply nth_In. lia. }
  unfold no_gaps in H. destruct (f_rows f) as [|r rows]; [discriminate G|]. cbn [column map gap] in G.
  pose proof (N (r :: rows) H L) as Q. cbn [column map has_none] in Q.
  destruct (nth j r None); [rewrite Q in G|]; discriminate.
Qed.

Lemma same_days_gaps : forall f g : frame (option R), same_days f g -> no_gaps f -> no_gaps g.
Proof. intros f g H N. unfold no_gaps. eapply Permutation_Forall; [apply (same_days_rows _ _ _ H)|exact N]. Qed.

Lemma order_mean_whole : forall f g, same_days f g -> no_gaps f -> Forall (fun row => List.length row = List.length (f_cols f)) (f_rows f) ->
  forall compounding fr lg, mean_historical_return f true compounding fr lg = mean_historical_return g true compounding fr lg.
Proof.
  intros f g H N L compounding fr lg. pose proof (order_mean f g H compounding fr lg) as Q.
  assert (A : check_returns f = false) by (apply no_gaps_check; assumption).
  assert (B : check_returns g = false).
  { apply no_gaps_check; [apply (same_days_gaps f g); assumption|]. rewrite <- (sd_cols _ _ H).
    eapply Permutation_Forall; [apply (same_days_rows _ _ _ H)|exact L]. }
  unfold mean_historical_return in *. cbn [rbind] in *. rewrite A, B in *.
  destruct (if compounding then mapM (cagr fr) (columns f) else _); destruct (if compounding then mapM (cagr fr) (columns g) else _);
    unfold same_estimates in Q; cbn [rbind snd] in *; congruence || contradiction.
Qed.

Lemma order_capm : forall f g, same_days f g -> forall rf compounding fr lg,
  same_estimates (snd (capm_return f None true rf compounding fr lg)) (snd (capm_return g None true rf compounding fr lg)).
Proof.
  intros f g H rf compounding fr lg. unfold capm_return. cbn [snd rbind].
  apply capm_rows; [apply set_mkt_cols, H|apply set_mkt_rows; [apply H|apply same_days_rows, H]].
Qed.

Lemma order_capm_market : forall f g m m', same_days f g -> same_days m m' -> forall rf compounding fr lg,
  same_estimates (snd (capm_return f (Some m) true rf compounding fr lg)) (snd (capm_return g (Some m') true rf compounding fr lg)).
Proof.
  intros f g m m' H K rf compounding fr lg. unfold capm_return.
  pose proof (rename_days m m' (sd_cols _ _ K) (sd_days _ _ K)) as Q.
  destruct (rename_market m) as [a|], (rename_market m') as [b|]; try contradiction; [|subst; unfold same_estimates; reflexivity].
  destruct Q as [C P]. pose proof (join_days f g a b (sd_cols _ _ H) C (sd_days _ _ H) P) as J. cbn [snd].
  destruct (join_left f a) as [x|], (join_left g b) as [y|]; try contradiction; cbn [rbind]; [|subst; unfold same_estimates; reflexivity].
  apply capm_rows; apply J.
Qed.

Lemma order_sample_cov : forall f g, same_days f g -> forall eigh fr lg fm, sample_cov eigh f true fr lg fm = sample_cov eigh g true fr lg fm.
Proof.
  intros f g H eigh fr lg fm. unfold sample_cov, get_returns. cbn [rbind].
  rewrite (frame_cov_perm f g (sd_cols _ _ H) (same_days_rows _ _ _ H)), (sd_cols _ _ H). reflexivity.
Qed.
Lemma order_semicovariance : forall f g, same_days f g -> forall eigh b fr lg fm,
  semicovariance eigh f true b fr lg fm = semicovariance eigh g true b fr lg fm.
Proof. intros f g H. apply semicov_days; [apply H|apply same_days_rows, H]. Qed.

Lemma order_shrinkage : forall f g, same_days f g -> forall fr lg, exists a b,
  shrinkage_init f true fr lg = Ok a /\ shrinkage_init g true fr lg = Ok b /\
  (forall eigh d, shrunk_covariance eigh a d = shrunk_covariance eigh b d) /\
  single_factor a = single_factor b /\ constant_correlation a = constant_correlation b /\
  (forall eigh sk target, (forall x y, Permutation x y -> sk x = sk y) -> ledoit_wolf eigh sk a target = ledoit_wolf eigh sk b target) /\
  (forall eigh sk, (forall x y, Permutation x y -> sk x = sk y) -> oracle_approximating eigh sk a = oracle_approximating eigh sk b).
Proof.
  intros f g H fr lg. destruct (init_days f g fr lg H) as (a & b & A & B & S). exists a, b. split; [exact A|]. split; [exact B|].
  split; [apply shrunk_days, S|]. split; [apply single_factor_days, S|]. split; [apply constant_correlation_days, S|].
  split; [apply ledoit_days, S|apply oas_days, S].
Qed.

Lemma order_hrp : forall f g c lk m rf fr h h', same_days f g -> hrp_init (HRetFrame f) c = Ok h -> hrp_init (HRetFrame g) c = Ok h' ->
  snd (hrp_optimize lk m h) = snd (hrp_optimize lk m h') /\
  hrp_performance (fst (hrp_optimize lk m h)) rf fr = hrp_performance (fst (hrp_optimize lk m h')) rf fr.
Proof.
  intros f g c lk m rf fr h h' H E E'. cbn in E, E'. injection E as <-. injection E' as <-.
  pose proof (frame_cov_perm f g (sd_cols _ _ H) (same_days_rows _ _ _ H)) as V.
  pose proof (frame_corr_perm f g (sd_cols _ _ H) (same_days_rows _ _ _ H)) as K.
  pose proof (sd_cols _ _ H) as C.
  assert (M : frame_mean f = frame_mean g).
  { unfold frame_mean, columns. rewrite C, !map_map. apply map_ext. intros j. apply mean_perm, column_perm, same_days_rows, H. }
  assert (P : forall b co x x' , h_returns x = Some f -> h_returns x' = Some g -> h_base x = b -> h_base x' = b -> h_cov x = co -> h_cov x' = co ->
     hrp_performance x rf fr = hrp_performance x' rf fr).
  { intros b co x x' X X' Y Y' _ _. unfold hrp_performance. rewrite X, X', Y, Y', M, V, C. reflexivity. }
  unfold hrp_optimize. rewrite C. destruct (existsb _ _).
  2: { cbn [fst snd]. split; [reflexivity|]. eapply P; reflexivity. }
  unfold hrp_inputs. cbn [h_returns h_cov h_base]. rewrite V, K. cbv zeta.
  destruct (all_some (map all_some (f_rows (frame_corr g)))) as [rc|].
  2: { cbn [fst snd]. split; [reflexivity|]. eapply P; reflexivity. }
  destruct (all_some (map all_some (f_rows (frame_cov g)))) as [rv|].
  2: { cbn [fst snd]. split; [reflexivity|]. eapply P; reflexivity. }
  destruct (upper 0 _) as [|d0 ds].
  { cbn [fst snd]. split; [reflexivity|]. eapply P; reflexivity. }
  destruct (hrp_weights _ _ _) as [w|].
  2: { cbn [fst snd]. split; [reflexivity|]. eapply P; reflexivity. }
  destruct (set_weights _ _) as [b' [u|u]]; cbn [fst snd]; (split; [reflexivity|]); eapply P; reflexivity.
Qed.

(** ** where the order matters *)
Definition day (k : Z) : label := LInt k.
Definition one (x y : option R) : frame (option R) := mkFrame [day 0; day 1] [LStr "A"] [[x]; [y]].
Definition other (x y : option R) : frame (option R) := mkFrame [day 1; day 0] [LStr "A"] [[y]; [x]].
Lemma one_other : forall x y, same_days (one x y) (other x y).
Proof. intros x y. split; try reflexivity. apply perm_swap. Qed.

Lemma ewm_zero2 : forall x y, ewm_last 0 [Some x; Some y] = Some y.
Proof. intros x y. unfold ewm_last. cbn [fold_left ewm_step option_map fst]. f_equal. field. Qed.
Lemma ewm_zero3 : forall x y z, ewm_last 0 [Some x; Some y; Some z] = Some z.
Proof. intros x y z. unfold ewm_last. cbn [fold_left ewm_step option_map fst]. f_equal. field. Qed.
Lemma span_one : 1 - 2 / (1 + 1) = 0. Proof. lra. Qed.

Lemma ema_order : exists f g b c, same_days f g /\
  ema_historical_return f true false 1 1 false = Ok (b, [(LStr "A", Some 1)]) /\
  ema_historical_return g true false 1 1 false = Ok (c, [(LStr "A", Some 0)]).
Proof.
  exists (one (Some 0) (Some 1)), (other (Some 0) (Some 1)), false, false. split; [apply one_other|].
  split; unfold ema_historical_return; cbn [rbind f_rows one other]; (rewrite (proj2 (Rltb_false 1 1)) by lra); rewrite span_one;
    cbv zeta; unfold columns, column, one, other; cbn [f_cols f_rows List.length seq map nth mapM]; rewrite ewm_zero2;
    cbn [rbind combine]; rewrite ?Rmult_1_r; reflexivity.
Qed.

Definition three (x y z : R) : frame (option R) := mkFrame [day 0; day 1; day 2] [LStr "A"] [[Some x]; [Some y]; [Some z]].
Definition turned (x y z : R) : frame (option R) := mkFrame [day 2; day 0; day 1] [LStr "A"] [[Some z]; [Some x]; [Some y]].
Lemma three_turned : forall x y z, same_days (three x y z) (turned x y z).
Proof.
  intros x y z. split; try reflexivity. unfold days, three, turned. cbn [f_index f_rows combine].
  apply Permutation_sym. apply (Permutation_cons_append [(day 0, [Some x]); (day 1, [Some y])] (day 2, [Some z])).
Qed.
Lemma psd_one : forall x, 0 < x -> is_psd [[x]] = true.
Proof.
  intros x H. unfold is_psd. cbn [List.length cholesky entry nth]. rewrite andb_true_r. apply Rltb_true. unfold entry, delta. cbn [nth Nat.eqb].
  assert (0 < eps16); [|lra]. unfold eps16. apply Rinv_0_lt_compat, pow_lt. lra.
Qed.
Lemma mean3 : forall x y z, mean [Some x; Some y; Some z] = Some ((x + y + z) / 3).
Proof.
  intros x y z. unfold mean. cbn [present flat_map app]. unfold mean_of. rewrite vsum_total. cbn [List.length INR total]. f_equal. field.
Qed.
Lemma exp_cov_order : forall eigh, exists f g, same_days f g /\
  exp_cov eigh f true 1 1 false "spectral" = Ok (mkFrame [LStr "A"] [LStr "A"] [[4]]) /\
  exp_cov eigh g true 1 1 false "spectral" = Ok (mkFrame [LStr "A"] [LStr "A"] [[1]]).
Proof.
  intros eigh. exists (three 0 0 3), (turned 0 0 3). split; [apply three_turned|].
  assert (P : forall x y z, pair_exp_cov [Some x; Some y; Some z] [Some x; Some y; Some z] 1
    = Ok (Some ((z - (x + y + z) / 3) * (z - (x + y + z) / 3)))).
  { intros x y z. unfold pair_exp_cov. rewrite (proj2 (Rltb_false 1 1)) by lra. rewrite mean3. cbn [covariation].
    rewrite span_one, ewm_zero3. reflexivity. }
  assert (E1 : (3 - (0 + 0 + 3) / 3) * (3 - (0 + 0 + 3) / 3) * 1 = 4) by field.
  assert (E2 : (0 - (3 + 0 + 0) / 3) * (0 - (3 + 0 + 0) / 3) * 1 = 1) by field.
  split; unfold exp_cov, get_returns, three, turned, column; cbn [rbind f_rows f_cols List.length seq map nth mapM Nat.min Nat.max];
    rewrite P; cbn [rbind]; unfold whole; cbn [map all_some option_map rbind]; unfold fixed_frame, fix_psd, scale_rows; cbn [map];
    rewrite ?E1, ?E2, psd_one by lra; reflexivity.
Qed.

Lemma warning_order : exists f g s, same_days f g /\
  mean_historical_return f true false 1 false = Ok (false, s) /\ mean_historical_return g true false 1 false = Ok (true, s).
Proof.
  exists (one None (Some 1)), (other None (Some 1)), [(LStr "A", Some 1)]. split; [apply one_other|].
  assert (M : arithmetic 1 [None; Some 1] = Some 1 /\ arithmetic 1 [Some 1; None] = Some 1).
  { unfold arithmetic, mean. cbn [present flat_map app option_map]. unfold mean_of. rewrite vsum_total. cbn [List.length INR total].
    split; f_equal; field. }
  destruct M as [M1 M2].
  unfold mean_historical_return, columns, column, one, other. cbn [rbind one other f_rows f_cols List.length seq map nth]. rewrite M1, M2. split; reflexivity.
Qed.
