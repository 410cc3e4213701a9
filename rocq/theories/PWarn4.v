(** * The warnings of the estimators, of the Black-Litterman model and of the plots *)
From Coq Require Import ZArith List String Bool Reals Lia Lra Classical.
From Verif Require Import Num RBase Py SLin Sums Mat MConvex MEF MDown MCalls MPlot MPlot2 MFrame MBase MHRP MReturns MRisk MRisk2 MArray MBL MWarn SWarn SPlot SRisk PCov1.
Import ListNotations.
Local Open Scope R_scope.

(** ** The results are those of the functions without warnings *)
Theorem fix_psd_same : forall eigh M fm, snd (fix_psd_w eigh M fm) = fix_psd eigh M fm.
Proof.
  intros eigh M fm. unfold fix_psd_w, fix_psd. destruct (is_psd M); [reflexivity|]. destruct (eigh M) as [q V].
  destruct (String.eqb fm "spectral"); [reflexivity|]. destruct (String.eqb fm "diag"); reflexivity.
Qed.
Lemma fixed_frame_same : forall eigh names rows fm, snd (fixed_frame_w eigh names rows fm) = fixed_frame eigh names rows fm.
Proof.
  intros. unfold fixed_frame_w, fixed_frame. rewrite <- fix_psd_same. destruct (fix_psd_w eigh rows fm) as [ws [m|e]]; reflexivity.
Qed.
Theorem sample_cov_same : forall eigh t rd fr log fm, snd (sample_cov_w eigh t rd fr log fm) = sample_cov eigh (frame_of t) rd fr log fm.
Proof.
  intros. unfold sample_cov_w, sample_cov. destruct (get_returns (frame_of t) rd log) as [f|e]; cbn [rbind]; [|reflexivity].
  destruct (whole (f_rows (frame_cov f))) as [C|e]; cbn [rbind]; [|reflexivity]. rewrite <- fixed_frame_same. destruct (fixed_frame_w _ _ _ _); reflexivity.
Qed.
Theorem semicovariance_same : forall eigh t rd b fr log fm, snd (semicovariance_w eigh t rd b fr log fm) = semicovariance eigh (frame_of t) rd b fr log fm.
Proof.
  intros. unfold semicovariance_w, semicovariance. destruct (get_returns (frame_of t) rd log) as [f|e]; cbn [rbind]; [|reflexivity].
  destruct (Nat.eqb (List.length (f_rows f)) 0); [reflexivity|]. rewrite <- fixed_frame_same. destruct (fixed_frame_w _ _ _ _); reflexivity.
Qed.
Theorem exp_cov_same : forall eigh t rd sp fr log fm, snd (exp_cov_w eigh t rd sp fr log fm) = exp_cov eigh (frame_of t) rd sp fr log fm.
Proof.
  intros. unfold exp_cov_w, exp_cov. destruct (get_returns (frame_of t) rd log) as [f|e]; cbn [rbind]; [|reflexivity].
  destruct (mapM _ _) as [C|e]; cbn [rbind]; [|reflexivity]. destruct (whole C) as [C'|e]; cbn [rbind]; [|reflexivity].
  rewrite <- fixed_frame_same. destruct (fixed_frame_w _ _ _ _); reflexivity.
Qed.
Theorem min_cov_determinant_same : forall eigh mcd t rd fr log fm,
  snd (min_cov_determinant_w eigh mcd t rd fr log fm) = min_cov_determinant eigh mcd (frame_of t) rd fr log fm.
Proof.
  intros. unfold min_cov_determinant_w, min_cov_determinant. destruct (get_returns (frame_of t) rd log) as [f|e]; cbn [rbind]; [|reflexivity].
  destruct (fits _ _); [|reflexivity]. rewrite <- fixed_frame_same. destruct (fixed_frame_w _ _ _ _); reflexivity.
Qed.

(** ** The repair of a matrix *)
Lemma fix_warned : forall eigh M fm, In WAmended (fst (fix_psd_w eigh M fm)) <-> is_psd M = false.
Proof.
  intros eigh M fm. unfold fix_psd_w. destruct (is_psd M); [cbn; split; [tauto|discriminate]|]. destruct (eigh M) as [q V].
  destruct (String.eqb fm "spectral"); [|destruct (String.eqb fm "diag")]; cbn; tauto.
Qed.
Theorem repair_warned : forall eigh fm n M, square n M -> symmetric n M ->
  (In WAmended (fst (fix_psd_w eigh M fm)) <->
   exists x, (exists i, (i < n)%nat /\ x i <> 0) /\ sumn n (fun i => sumn n (fun j => x i * entry M i j * x j)) + / 10 ^ 16 * sumn n (fun i => x i * x i) <= 0).
Proof.
  intros eigh fm n M HM Hs. rewrite fix_warned. pose proof (is_psd_iff n M HM Hs) as I.
  assert (EB : forall x, bil n (entry M) x x = sumn n (fun i => sumn n (fun j => x i * entry M i j * x j))).
  { intros x. unfold bil. apply sumn_ext. intros i Hi. rewrite <- sumn_scal. apply sumn_ext. intros; ring. }
  split.
  - intros F. apply NNPP. intros N. assert (T : is_psd M = true); [|congruence]. apply I. intros x Hx.
    destruct (Rlt_le_dec 0 (bil n (entry M) x x + eps16 * sumn n (fun i => x i * x i))) as [H|H]; [exact H|]. exfalso. apply N. exists x. split; [exact Hx|].
    rewrite <- EB. exact H.
  - intros (x & Hx & H). destruct (is_psd M) eqn:T; [|reflexivity]. exfalso. destruct I as [I _]. specialize (I eq_refl x Hx). rewrite EB in I. unfold eps16 in I. lra.
Qed.
Theorem unamended : forall eigh M fm, ~ In WAmended (fst (fix_psd_w eigh M fm)) -> snd (fix_psd_w eigh M fm) = Ok M.
Proof.
  intros eigh M fm H. rewrite fix_warned in H. rewrite fix_psd_same. apply fix_passing. destruct (is_psd M); [reflexivity|exfalso; apply H; reflexivity].
Qed.
Theorem always_fixed : forall eigh n M fm, square n M -> symmetric n M -> eigen_of n M (fst (eigh M)) (snd (eigh M)) -> ~ In WNotFixed (fst (fix_psd_w eigh M fm)).
Proof.
  intros eigh n M fm HM Hs He. unfold fix_psd_w. destruct (is_psd M) eqn:E; [cbn; tauto|]. destruct (eigh M) as [q V]. cbn [fst snd] in He.
  destruct HM as [HL HR]. rewrite HL. destruct (String.eqb fm "spectral").
  - destruct (spectral_psd n q V) as [A B]. match goal with |- context[is_psd ?F] => change F with (spectral_fix n q V) end. rewrite (psd_passes n _ A B). cbn. intros [H|[]]; discriminate.
  - destruct (String.eqb fm "diag"); [|cbn; intros [H|[]]; discriminate].
    destruct (diag_psd n M q V He Hs (negative_eigenvalue n M q V He (conj HL HR) Hs E)) as (_ & _ & P).
    match goal with |- context[is_psd ?F] => change F with (diag_fix n M q) end. rewrite P. cbn. intros [H|[]]; discriminate.
Qed.
(** an estimator that does not say so has not touched its estimate *)
Lemma fixed_frame_unamended : forall eigh names rows fm, ~ In WAmended (fst (fixed_frame_w eigh names rows fm)) ->
  snd (fixed_frame_w eigh names rows fm) = Ok (mkFrame names names rows).
Proof.
  intros eigh names rows fm H. unfold fixed_frame_w in *. pose proof (unamended eigh rows fm) as U.
  destruct (fix_psd_w eigh rows fm) as [ws [m|e]]; cbn [fst snd] in *; specialize (U H); congruence.
Qed.
Lemma frame_warning_other : forall t, ~ In WAmended (frame_warning t).
Proof. intros t. unfold frame_warning. destruct (not_frame t); cbn; [intros [H|[]]; discriminate|tauto]. Qed.
Theorem sample_cov_unamended : forall eigh t rd fr log fm f, snd (sample_cov_w eigh t rd fr log fm) = Ok f -> ~ In WAmended (fst (sample_cov_w eigh t rd fr log fm)) ->
  exists returns C, get_returns (frame_of t) rd log = Ok returns /\ whole (f_rows (frame_cov returns)) = Ok C /\
    f = mkFrame (f_cols returns) (f_cols returns) (map (map (fun x => x * fr)) C).
Proof.
  intros eigh t rd fr log fm f H N. unfold sample_cov_w in *. destruct (get_returns (frame_of t) rd log) as [g|e]; [|discriminate]. exists g.
  destruct (whole (f_rows (frame_cov g))) as [C|e] eqn:EC; [|discriminate]. exists C. split; [reflexivity|]. split; [reflexivity|].
  pose proof (fixed_frame_unamended eigh (f_cols g) (scale_rows fr C) fm) as U. destruct (fixed_frame_w eigh (f_cols g) (scale_rows fr C) fm) as [ws r]. cbn [fst snd] in *.
  rewrite in_app_iff in N. rewrite U in H by tauto. inversion H. reflexivity.
Qed.

Lemma fixed_frame_any : forall eigh eigh' names rows fm fm' f, snd (fixed_frame_w eigh names rows fm) = Ok f -> ~ In WAmended (fst (fixed_frame_w eigh names rows fm)) ->
  fixed_frame eigh' names rows fm' = Ok f.
Proof.
  intros eigh eigh' names rows fm fm' f H N. unfold fixed_frame_w in *. pose proof (fix_warned eigh rows fm) as W. pose proof (unamended eigh rows fm) as U.
  destruct (fix_psd_w eigh rows fm) as [ws [m|e]]; cbn [fst snd] in *; [|discriminate]. specialize (U N). inversion U; subst m. inversion H; subst f.
  unfold fixed_frame. rewrite fix_passing; [reflexivity|]. destruct (is_psd rows); [reflexivity|]. exfalso. apply N. apply W. reflexivity.
Qed.
Theorem sample_cov_any_method : forall eigh t rd fr log fm f, snd (sample_cov_w eigh t rd fr log fm) = Ok f -> ~ In WAmended (fst (sample_cov_w eigh t rd fr log fm)) ->
  forall eigh' fm', sample_cov eigh' (frame_of t) rd fr log fm' = Ok f.
Proof.
  intros eigh t rd fr log fm f H N eigh' fm'. unfold sample_cov_w, sample_cov in *. destruct (get_returns (frame_of t) rd log) as [g|e]; cbn [rbind]; [|discriminate].
  destruct (whole (f_rows (frame_cov g))) as [C|e]; cbn [rbind]; [|discriminate].
  pose proof (fixed_frame_any eigh eigh' (f_cols g) (scale_rows fr C) fm fm' f) as U. destruct (fixed_frame_w _ _ _ _) as [ws r]. cbn [fst snd] in *.
  rewrite in_app_iff in N. apply U; [exact H|tauto].
Qed.
Theorem semicovariance_any_method : forall eigh t rd b fr log fm f, snd (semicovariance_w eigh t rd b fr log fm) = Ok f -> ~ In WAmended (fst (semicovariance_w eigh t rd b fr log fm)) ->
  forall eigh' fm', semicovariance eigh' (frame_of t) rd b fr log fm' = Ok f.
Proof.
  intros eigh t rd b fr log fm f H N eigh' fm'. unfold semicovariance_w, semicovariance in *. destruct (get_returns (frame_of t) rd log) as [g|e]; cbn [rbind]; [|discriminate].
  destruct (Nat.eqb (List.length (f_rows g)) 0); [discriminate|].
  match goal with |- fixed_frame _ ?n ?r _ = _ => pose proof (fixed_frame_any eigh eigh' n r fm fm' f) as U end. destruct (fixed_frame_w _ _ _ _) as [ws r]. cbn [fst snd] in *.
  rewrite in_app_iff in N. apply U; [exact H|tauto].
Qed.
Theorem exp_cov_any_method : forall eigh t rd sp fr log fm f, snd (exp_cov_w eigh t rd sp fr log fm) = Ok f -> ~ In WAmended (fst (exp_cov_w eigh t rd sp fr log fm)) ->
  forall eigh' fm', exp_cov eigh' (frame_of t) rd sp fr log fm' = Ok f.
Proof.
  intros eigh t rd sp fr log fm f H N eigh' fm'. unfold exp_cov_w, exp_cov in *. destruct (get_returns (frame_of t) rd log) as [g|e]; cbn [rbind]; [|discriminate].
  destruct (mapM _ _) as [C|e]; cbn [rbind] in *; [|discriminate]. destruct (whole C) as [C'|e]; cbn [rbind]; [|discriminate].
  match goal with |- fixed_frame _ ?n ?r _ = _ => pose proof (fixed_frame_any eigh eigh' n r fm fm' f) as U end. destruct (fixed_frame_w _ _ _ _) as [ws r]. cbn [fst snd] in *.
  rewrite in_app_iff in N. apply U; [exact H|tauto].
Qed.
Theorem min_cov_determinant_any_method : forall eigh mcd t rd fr log fm f, snd (min_cov_determinant_w eigh mcd t rd fr log fm) = Ok f ->
  ~ In WAmended (fst (min_cov_determinant_w eigh mcd t rd fr log fm)) -> forall eigh' fm', min_cov_determinant eigh' mcd (frame_of t) rd fr log fm' = Ok f.
Proof.
  intros eigh mcd t rd fr log fm f H N eigh' fm'. unfold min_cov_determinant_w, min_cov_determinant in *. destruct (get_returns (frame_of t) rd log) as [g|e]; cbn [rbind]; [|discriminate].
  destruct (fits _ _); [|discriminate].
  match goal with |- fixed_frame _ ?n ?r _ = _ => pose proof (fixed_frame_any eigh eigh' n r fm fm' f) as U end. destruct (fixed_frame_w _ _ _ _) as [ws r]. cbn [fst snd app] in *.
  cbn [In] in N. rewrite in_app_iff in N. apply U; [exact H|tauto].
Qed.
(** ** exp_cov: a short span is announced once for every pair *)
Lemma upper_pairs_length : forall N, (2 * List.length (upper_pairs N) = N * (N + 1))%nat.
Proof.
  intros N. unfold upper_pairs.
  assert (G : forall k a, (a + k = N)%nat -> (2 * List.length (flat_map (fun i => map (pair i) (seq i (N - i))) (seq a k)) = k * (k + 1))%nat).
  { induction k as [|k IH]; intros a Ha; [reflexivity|]. cbn [seq flat_map]. rewrite app_length, map_length, seq_length.
    specialize (IH (S a) ltac:(lia)). lia. }
  apply G. reflexivity.
Qed.
Lemma span_count : forall l sp, sp < 10 -> Forall (fun x => exists y, x = Ok y) l -> span_warnings l sp = repeat WSpan (List.length l).
Proof.
  intros l sp H F. unfold span_warnings. rewrite (proj2 (Rltb_true sp 10) H). induction l as [|x l IH]; [reflexivity|].
  inversion F as [|? ? [y ->] F']; subst. cbn [List.length repeat]. rewrite IH by exact F'. reflexivity.
Qed.
Lemma mapM_entries : forall X Y (f : X -> res Y) l r, mapM f l = Ok r -> forall x, In x l -> exists y, f x = Ok y.
Proof.
  induction l as [|a l IH]; intros r H x [].
  - subst a. cbn [mapM] in H. destruct (f x); [eauto|discriminate].
  - cbn [mapM] in H. destruct (f a); cbn [rbind] in H; [|discriminate]. destruct (mapM f l) eqn:E; [|discriminate]. eapply IH; [reflexivity|assumption].
Qed.
Lemma upper_pairs_in : forall N p, In p (upper_pairs N) -> (fst p <= snd p < N)%nat.
Proof.
  intros N p H. unfold upper_pairs in H. apply in_flat_map in H. destruct H as (i & Hi & H). apply in_map_iff in H. destruct H as (j & <- & H).
  apply in_seq in Hi, H. cbn. lia.
Qed.
Lemma spans_app : forall a b, spans (a ++ b) = spans a ++ spans b.
Proof. intros. unfold spans. apply filter_app. Qed.
Lemma spans_fixed : forall eigh names rows fm, spans (fst (fixed_frame_w eigh names rows fm)) = [].
Proof.
  intros. unfold fixed_frame_w, fix_psd_w. destruct (is_psd rows); [reflexivity|]. destruct (eigh rows).
  destruct (String.eqb fm "spectral"); [|destruct (String.eqb fm "diag")]; cbn [fst]; try reflexivity; destruct (is_psd _); reflexivity.
Qed.
Theorem exp_cov_span : forall eigh t rd sp fr log fm f, snd (exp_cov_w eigh t rd sp fr log fm) = Ok f ->
  (10 <= sp -> spans (fst (exp_cov_w eigh t rd sp fr log fm)) = []) /\
  (sp < 10 -> (2 * List.length (spans (fst (exp_cov_w eigh t rd sp fr log fm))) = List.length (f_cols f) * (List.length (f_cols f) + 1))%nat).
Proof.
  intros eigh t rd sp fr log fm f H. unfold exp_cov_w in *. destruct (get_returns (frame_of t) rd log) as [g|e]; [|discriminate].
  set (N := List.length (f_cols (frame_of t))) in *. set (col := fun i => column (f_rows g) i) in *.
  destruct (mapM (fun i => mapM (fun j => pair_exp_cov (col (Nat.min i j)) (col (Nat.max i j)) sp) (seq 0 N)) (seq 0 N)) as [C|e] eqn:EM; cbn [rbind] in *; [|discriminate].
  destruct (whole C) as [C'|e]; [|discriminate]. pose proof (spans_fixed eigh (f_cols (frame_of t)) (scale_rows fr C') fm) as SF.
  assert (EF : f_cols f = f_cols (frame_of t)).
  { destruct (fixed_frame_w eigh (f_cols (frame_of t)) (scale_rows fr C') fm) as [ws r] eqn:E. cbn [snd] in H. subst r.
    unfold fixed_frame_w in E. destruct (fix_psd_w _ _ _) as [w [m|e]]; inversion E. reflexivity. }
  destruct (fixed_frame_w eigh (f_cols (frame_of t)) (scale_rows fr C') fm) as [ws r]. cbn [fst snd] in *. rewrite !spans_app, SF, app_nil_r.
  assert (E0 : spans (frame_warning t) = []) by (unfold frame_warning; destruct (not_frame t); reflexivity). rewrite E0. cbn [app].
  split; intros Hs.
  - unfold span_warnings. rewrite (proj2 (Rltb_false sp 10) Hs). reflexivity.
  - rewrite span_count; [|exact Hs|].
    + assert (ES : forall n, List.length (spans (repeat WSpan n)) = n) by (induction n; cbn; [reflexivity|f_equal; assumption]).
      rewrite ES, map_length, upper_pairs_length, EF. reflexivity.
    + rewrite Forall_forall. intros x Hx. apply in_map_iff in Hx. destruct Hx as (p & <- & Hp). apply upper_pairs_in in Hp.
      destruct (mapM_entries _ _ _ _ _ EM (fst p)) as [row Hrow]; [apply in_seq; lia|].
      destruct (mapM_entries _ _ _ _ _ Hrow (snd p)) as [y Hy]; [apply in_seq; lia|]. rewrite Nat.min_l, Nat.max_r in Hy by lia. eauto.
Qed.

(** ** The downside optimizers *)
Lemma row_complete : forall (row : list (option R)), existsb (fun x => match x with None => true | Some _ => false end) row = false ->
  complete row = Some (map (fun x => match x with None => 0 | Some v => v end) row).
Proof.
  induction row as [|[v|] row IH]; cbn; intros H; [reflexivity| |discriminate]. rewrite (IH H). reflexivity.
Qed.
Lemma row_incomplete : forall (row : list (option R)), existsb (fun x => match x with None => true | Some _ => false end) row = true -> complete row = None.
Proof.
  induction row as [|[v|] row IH]; cbn; intros H; [discriminate| |reflexivity]. rewrite (IH H). reflexivity.
Qed.
Lemma dropna_complete : forall rows, existsb (existsb (fun x => match x with None => true | Some _ => false end)) rows = false ->
  dropna rows = map (map (fun x => match x with None => 0 | Some v => v end)) rows.
Proof.
  induction rows as [|row rows IH]; cbn [existsb]; intros H; [reflexivity|]. apply orb_false_iff in H. destruct H as [A B].
  unfold dropna. cbn [flat_map]. rewrite (row_complete _ A). cbn [app map]. f_equal. apply IH. exact B.
Qed.
Theorem validate_returns_same : forall mu r, snd (validate_returns_w mu r) = validate_returns mu r.
Proof.
  intros mu [ncols rows|]; [|reflexivity]. unfold validate_returns_w, validate_returns.
  destruct (existsb _ rows) eqn:E; [reflexivity|]. cbn [snd]. rewrite dropna_complete by exact E. reflexivity.
Qed.
Theorem removed_warned : forall mu ncols rows, In WRemoved (fst (validate_returns_w mu (RTable ncols rows))) <-> exists row, In row rows /\ In None row.
Proof.
  intros mu ncols rows. unfold validate_returns_w.
  assert (I : existsb (existsb (fun x : option R => match x with None => true | Some _ => false end)) rows = true <-> exists row, In row rows /\ In None row).
  { rewrite existsb_exists. split; intros (row & A & B); exists row; (split; [exact A|]).
    - apply existsb_exists in B. destruct B as ([v|] & C & D); [discriminate|exact C].
    - apply existsb_exists. exists None. auto. }
  rewrite <- I. destruct (existsb _ rows); cbn; split; auto; try tauto; discriminate.
Qed.
Theorem not_removed : forall mu ncols rows l, snd (validate_returns_w mu (RTable ncols rows)) = Ok l ->
  ~ In WRemoved (fst (validate_returns_w mu (RTable ncols rows))) -> map (map Some) l = rows.
Proof.
  intros mu ncols rows l H N. unfold validate_returns_w in *. destruct (existsb _ rows) eqn:E; cbn [fst snd] in *; [exfalso; apply N; left; reflexivity|].
  match type of H with (if ?c then _ else _) = _ => destruct c; [discriminate|] end. inversion H; subst l. clear H N.
  induction rows as [|row rows IH]; [reflexivity|]. cbn [existsb] in E. apply orb_false_iff in E. destruct E as [A B]. cbn [map]. rewrite (IH B). f_equal.
  clear IH B. induction row as [|[v|] row IH]; cbn in *; [reflexivity| |discriminate]. rewrite IH by exact A. reflexivity.
Qed.
Theorem validate_beta_same : forall b, snd (validate_beta_w b) = validate_beta b.
Proof. intros b. unfold validate_beta_w, validate_beta. destruct (Rleb 0 b && Rltb b 1); reflexivity. Qed.
Theorem beta_warned : forall b, In WBeta (fst (validate_beta_w b)) <-> 0 <= b <= 2 / 10.
Proof.
  intros b. unfold validate_beta_w. destruct (Rleb 0 b) eqn:A; cbn [andb].
  - apply Rleb_true in A. destruct (Rltb b 1) eqn:B; cbn [fst].
    + destruct (Rleb b (2 / 10)) eqn:C; [apply Rleb_true in C|apply Rleb_false in C]; cbn; split; auto; try lra; tauto.
    + apply Rltb_false in B. cbn. split; [tauto|lra].
  - apply Rleb_false in A. cbn. split; [tauto|lra].
Qed.

(** ** portfolio_performance *)
Theorem performance_same : forall rf o, snd (ef_performance_w rf o) = ef_performance rf o.
Proof. intros rf o. unfold ef_performance_w, ef_performance. destruct (e_rf o); reflexivity. Qed.
Theorem rate_warned : forall rf o, In WRate (fst (ef_performance_w rf o)) <-> exists x, e_rf o = Some x /\ x <> rf.
Proof.
  intros rf o. unfold ef_performance_w. destruct (e_rf o) as [x|]; cbn [fst].
  - destruct (Reqb rf x) eqn:E; [apply Reqb_true in E|apply Reqb_false in E]; cbn; split; auto.
    + tauto.
    + intros (y & H & N). inversion H; subst. congruence.
    + intros _. exists x. auto.
  - cbn. split; [tauto|]. intros (x & H & _). discriminate.
Qed.
Theorem rate_as_given : forall rf o, ~ In WRate (fst (ef_performance_w rf o)) ->
  snd (ef_performance_w rf o) = portfolio_performance (match e_weights o with None => WtNone | Some w => WtArray w end)
    (match e_mu o with None => MuNone | Some m => MuArray m end) (CovArray (e_cov o)) rf.
Proof.
  intros rf o H. rewrite rate_warned in H. rewrite performance_same. unfold ef_performance. destruct (e_rf o) as [x|]; [|reflexivity].
  destruct (Req_dec x rf) as [->|N]; [reflexivity|]. exfalso. apply H. exists x. auto.
Qed.

(** ** Black-Litterman *)
Lemma set_pi_same : forall n pi cov ra caps rf, snd (set_pi_w n pi cov ra caps rf) = set_pi n pi cov ra caps rf.
Proof.
  intros n pi cov ra caps rf. destruct pi; try reflexivity. cbn [set_pi_w set_pi]. destruct caps as [c|]; [|reflexivity].
  unfold market_implied_prior_returns_w. destruct (market_implied_prior_returns c ra cov rf); destruct cov; reflexivity.
Qed.
Theorem bl_init_same : forall a, snd (bl_init_w a) = bl_init a.
Proof.
  intros a. unfold bl_init_w, bl_init. cbv zeta.
  destruct (match a_views a with VNone => _ | VDict d => _ | VBad => _ end) as [[Q P]|e]; cbn [rbind]; [|reflexivity].
  destruct (Rleb (a_ra a) 0); cbn [rbind]; [reflexivity|]. rewrite <- set_pi_same.
  destruct (set_pi_w _ _ _ _ _ _) as [ws [pi|e]]; reflexivity.
Qed.
Theorem prior_warned : forall a, In WNoPrior (fst (bl_init_w a)) -> a_pi a = PiNone.
Proof.
  intros a H. unfold bl_init_w in H. cbv zeta in H.
  match type of H with context[match ?m with Err e => _ | Ok p => _ end] => destruct m as [[[Q P] ra]|e] end; [|destruct H].
  destruct (a_pi a); [reflexivity| | | |]; exfalso; cbn [set_pi_w] in H.
  all: try (cbn in H; tauto).
  destruct (a_caps a) as [c|]; [|destruct H]. unfold market_implied_prior_returns_w in H.
  destruct (market_implied_prior_returns _ _ _ _); destruct (a_cov a); cbn in H; intuition discriminate.
Qed.
Theorem prior_silent : forall a b, snd (bl_init_w a) = Ok b -> (a_pi a = PiNone <-> In WNoPrior (fst (bl_init_w a))).
Proof.
  intros a b H. split; [|apply prior_warned]. intros E. unfold bl_init_w in *. cbv zeta in *.
  match type of H with context[match ?m with Err e => _ | Ok p => _ end] => destruct m as [[[Q P] ra]|e] end; [|discriminate]. rewrite E in *. cbn. auto.
Qed.

(** ** plot_dendrogram and plot_efficient_frontier *)
Theorem dendrogram_warned : forall lk h, In WNotOptimized (fst (plot_dendrogram_w lk h)) <-> h_clusters h = None.
Proof. intros lk h. unfold plot_dendrogram_w. destruct (h_clusters h); cbn; split; auto; try tauto; discriminate. Qed.
Section Loop.
  Context {St : Type} (methods : string -> option (R -> M St unit)) (performance : St -> res (option R * R)).
  Theorem plot_same : forall p vs w s, snd (plot_loop_w methods performance p vs w s) = plot_loop methods performance p vs w s.
  Proof.
    intros p. induction vs as [|v vs IH]; intros w s; [reflexivity|]. cbn [plot_loop_w plot_loop].
    destruct (attempt methods p v w s) as [[w1 s1] [x|e]].
    - destruct (performance s1); [|reflexivity]. rewrite <- IH. destruct (plot_loop_w methods performance p vs w1 s1) as [ws [[w2 s2] [ps|e]]]; reflexivity.
    - destruct e; try reflexivity; [|apply IH]. destruct (performance s1); [|reflexivity]. rewrite <- IH.
      destruct (plot_loop_w methods performance p vs w1 s1) as [ws [[w2 s2] [ps|e]]]; reflexivity.
  Qed.
  Theorem plot_warned : forall p vs w s w' s' ps, snd (plot_loop_w methods performance p vs w s) = (w', s', Ok ps) ->
    fst (plot_loop_w methods performance p vs w s) =
    map (fun x => WNoPortfolio (fst x))
      (filter (fun x => match v_outcome (snd x) with Err ValueError => true | _ => false end) (combine vs (history (try_once methods p) vs (w, s)))).
  Proof.
    intros p. induction vs as [|v vs IH]; intros w s w' s' ps H; [reflexivity|]. cbn [plot_loop_w history combine filter map] in *.
    destruct (attempt methods p v w s) as [[w1 s1] r] eqn:E.
    assert (T : try_once methods p v (w, s) = ((w1, s1), r)) by (unfold try_once; cbn [fst snd]; rewrite E; reflexivity). rewrite T. cbn [fst snd v_outcome].
    destruct r as [x|e].
    - destruct (performance s1); [|discriminate]. destruct (plot_loop_w methods performance p vs w1 s1) as [ws [[w2 s2] [qs|e]]] eqn:L; [|discriminate].
      specialize (IH w1 s1). rewrite L in IH. cbn [fst snd] in IH. cbn [fst app]. eapply IH. reflexivity.
    - destruct e; try discriminate.
      + destruct (performance s1); [|discriminate]. destruct (plot_loop_w methods performance p vs w1 s1) as [ws [[w2 s2] [qs|e]]] eqn:L; [|discriminate].
        specialize (IH w1 s1). rewrite L in IH. cbn [fst snd] in IH. cbn [fst app map]. f_equal. eapply IH. reflexivity.
      + eapply IH. exact H.
  Qed.
  Theorem plot_silent : forall p vs w s, Forall (fun x => v_outcome x = Err OptimizationError) (history (try_once methods p) vs (w, s)) ->
    exists w' s', plot_loop_w methods performance p vs w s = ([], (w', s', Ok [])).
  Proof.
    intros p. induction vs as [|v vs IH]; intros w s H; [exists w, s; reflexivity|]. cbn [plot_loop_w history] in *. inversion H as [|x l A B]; subst.
    unfold try_once in A, B. cbn [fst snd] in A, B. destruct (attempt methods p v w s) as [[w1 s1] r]. cbn [v_outcome fst snd] in A, B. subst r. apply IH. exact B.
  Qed.
End Loop.
