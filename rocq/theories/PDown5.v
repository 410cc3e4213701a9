(** * Construction of the downside optimisers, and rounding of the reported semideviation *)
From Coq Require Import ZArith List String Bool Reals Lra Lia.
From Verif Require Import Num Py RBase PyLemmas MBase MConvex MEF MDown SLin SBase SConvex SDown Sums PBase PConvex PEF PEF2 PEF4 PRisk PDown PDown2 PDown4.
Import ListNotations.
Local Open Scope R_scope.

Lemma read_bounds_length : forall n b lb ub, read_bounds n b = Ok (lb, ub) -> List.length lb = n /\ List.length ub = n.
Proof.
  intros n b lb ub H. destruct b as [l u|isl rows|]; cbn [read_bounds] in H; [| |discriminate H].
  - destruct ((n =? 2)%nat && _); [discriminate H|]. inversion H; subst. rewrite !repeat_length. auto.
  - destruct (List.length rows =? n)%nat eqn:E.
    + apply Nat.eqb_eq in E. unfold columns in H. destruct rows as [|r0 rows']; [discriminate H|].
      destruct (forallb _ _); [|discriminate H]. destruct (_ <? 2)%nat; [discriminate H|]. injection H as <- <-.
      rewrite <- E. cbn [List.length map]. rewrite !map_length. auto.
    + destruct rows as [|l [|u [|]]]; try discriminate H. destruct isl; [|discriminate H].
      destruct ((List.length l =? n)%nat && (List.length u =? n)%nat) eqn:E2; [|discriminate H].
      apply andb_prop in E2. destruct E2 as [E2 E3]. apply Nat.eqb_eq in E2, E3. inversion H; subst. rewrite !map_length. auto.
Qed.
Lemma ef_init_inv : forall mi c b w0 w1 o, ef_init mi (CIn c) b w0 = (w1, Ok o) ->
  exists m lb ub, mi = MIn m /\ init_shape_ok m c /\ read_bounds (List.length (init_tickers m c)) b = Ok (lb, ub) /\
    w1 = init_world w0 (List.length (init_tickers m c)) /\ o = init_ef m c lb ub w0.
Proof.
  intros mi c b w0 w1 o H. destruct mi as [m|]; [|discriminate H]. exists m.
  assert (Hs : init_shape_ok m c).
  { unfold ef_init in H. unfold init_shape_ok. destruct (mu_values m) as [l|]; [|exact I].
    destruct (List.length (cov_values c) =? List.length l)%nat eqn:E1; [|discriminate H].
    destruct (num_cols (cov_values c) =? List.length l)%nat eqn:E2; [|discriminate H].
    apply Nat.eqb_eq in E1, E2. auto. }
  destruct (read_bounds (List.length (init_tickers m c)) b) as [[lb ub]|e] eqn:Er.
  - rewrite (ef_init_ok m c b w0 lb ub Hs Er) in H. inversion H; subst. exists lb, ub. auto.
  - exfalso. unfold ef_init in H. fold (init_tickers m c) in H.
    destruct (match mu_values m with None => false | Some _ => _ end); [discriminate H|].
    unfold new_var, map_bounds, bind, get, lift_res in H. unfold e_n in H. cbn [e_base b_tickers] in H. rewrite Er in H. discriminate H.
Qed.
Lemma init_open : forall m c lb ub w0 more, square (List.length (init_tickers m c)) (cov_values c) ->
  init_shape_ok m c -> List.length (cov_values c) = List.length (init_tickers m c) ->
  List.length lb = List.length (init_tickers m c) -> List.length ub = List.length (init_tickers m c) ->
  let w1 := init_world w0 (List.length (init_tickers m c)) in
  open_ef (mkWorld (w_sizes w1 ++ more) (w_val w1) (w_params w1) (w_next w1)) (init_ef m c lb ub w0) [].
Proof.
  intros m c lb ub w0 more Hq Hs Hc Hl Hu w1. unfold open_ef, e_n. cbn [init_ef e_opt e_cons e_lb e_ub e_w e_base b_tickers e_cov e_mu e_add w_sizes w_params].
  split; [reflexivity|]. split; [eexists _, _; reflexivity|]. split; [exact Hl|]. split; [exact Hu|].
  split; [cbn; rewrite <- app_assoc, nth_error_app2, Nat.sub_diag by lia; reflexivity|].
  split; [exact Hq|]. split; [intros l El; unfold init_shape_ok in Hs; rewrite El in Hs; destruct Hs; congruence|].
  split; [constructor|]. split; constructor.
Qed.
Lemma zeros_square : forall n, square n (zeros n) /\ List.length (zeros n) = n.
Proof.
  intros n. unfold zeros. split; [|apply repeat_length]. split; [apply repeat_length|].
  apply Forall_forall. intros r Hr. apply repeat_spec in Hr. subst r. apply repeat_length.
Qed.
Lemma range_labels_length : forall n, List.length (range_labels n) = n.
Proof. intros. unfold range_labels. rewrite map_length. apply seq_length. Qed.
Lemma init_tickers_zeros : forall m n, init_shape_ok m (CovArray (zeros n)) ->
  List.length (init_tickers m (CovArray (zeros n))) = n.
Proof.
  intros m n H. unfold init_shape_ok in H. unfold init_tickers. cbn [cov_values] in *. destruct (zeros_square n) as [_ Hz].
  destruct m; cbn [mu_values] in *; try (apply proj1 in H); rewrite ?map_length, ?range_labels_length in *; congruence.
Qed.
Lemma complete_length : forall row l, complete row = Some l -> List.length l = List.length row.
Proof.
  induction row as [|[x|] row IH]; intros l H; cbn in H; [inversion H; reflexivity| |discriminate H].
  destruct (complete row) as [l'|]; [|discriminate H]. inversion H; subst. cbn. f_equal. apply IH. reflexivity.
Qed.
Lemma dropna_rows : forall n rows, Forall (fun r => List.length r = n) rows -> Forall (fun r => List.length r = n) (dropna rows).
Proof.
  intros n rows H. unfold dropna. induction H as [|r rows Hr H IH]; cbn [flat_map]; [constructor|].
  apply Forall_app. split; [|exact IH]. destruct (complete r) as [l|] eqn:E; constructor; [|constructor].
  rewrite (complete_length _ _ E). exact Hr.
Qed.
Lemma dropna_nonempty : forall rows r l, In r rows -> complete r = Some l -> (0 < List.length (dropna rows))%nat.
Proof.
  intros rows r l H E. assert (Hin : In l (dropna rows)).
  { apply in_flat_map. exists r. rewrite E. split; [exact H|left; reflexivity]. }
  destruct (dropna rows); [destruct Hin|cbn; lia].
Qed.

Lemma good_table : forall n rows (o : ef), good_rows n rows -> e_n o = n -> table o (dropna rows).
Proof.
  intros n rows o [H [r [l [H1 H2]]]] <-. split; [apply (dropna_nonempty rows r l H1 H2)|]. apply dropna_rows. exact H.
Qed.

Lemma semi_init_ready : forall mi n rows freq bench b w0 w1 o d, good_rows n rows ->
  semi_init mi (RTable n rows) freq bench b w0 = (w1, Ok (o, d)) ->
  open_ef w1 o [] /\ semi_ready w1 o [] d /\ d = mkSemi (dropna rows) bench freq.
Proof.
  intros mi n rows freq bench b w0 w1 o d Hg H. unfold semi_init in H.
  destruct (ef_init mi (CIn (CovArray (zeros n))) b w0) as [w2 [o2|e]] eqn:E; [|discriminate H].
  destruct (ef_init_inv _ _ _ _ _ _ E) as [m [lb [ub [-> [Hs [Hb [-> ->]]]]]]].
  destruct (validate_returns _ _) as [rr|e] eqn:V; [|discriminate H]. unfold validate_returns in V.
  match type of V with (if ?c then _ else _) = _ => destruct c; [discriminate V|] end. inversion V; subst rr. inversion H; subst; clear H.
  pose proof (init_tickers_zeros m n Hs) as Hn. destruct (zeros_square n) as [Z1 Z2]. destruct (read_bounds_length _ _ _ _ Hb) as [L1 L2].
  split; [|split; [split|reflexivity]].
  - pose proof (init_open m (CovArray (zeros n)) lb ub w0 []) as Ho. cbv zeta in Ho. rewrite app_nil_r in Ho.
    apply Ho; try assumption; cbn [cov_values]; rewrite ?Hn; assumption.
  - apply (good_table n); [exact Hg|]. unfold e_n. cbn. exact Hn.
  - intros v [->|[Hv|Hv]]; [|destruct Hv|destruct Hv]. cbn. rewrite app_length. cbn. lia.
Qed.
Lemma validate_beta_inv : forall b b', validate_beta b = Ok b' -> b' = b /\ 0 <= b < 1.
Proof.
  intros b b' H. unfold validate_beta in H. destruct (Rleb 0 b) eqn:E1; [|discriminate H]. destruct (Rltb b 1) eqn:E2; [|discriminate H].
  inversion H; subst. apply Rleb_true in E1. apply Rltb_true in E2. auto.
Qed.
Lemma cvar_init_ready : forall mi n rows beta b w0 w1 o d, good_rows n rows ->
  cvar_init mi (RTable n rows) beta b w0 = (w1, Ok (o, d)) ->
  open_ef w1 o [] /\ cvar_ready w1 o [] d /\ cv_returns d = dropna rows /\ cv_beta d = beta.
Proof.
  intros mi n rows beta b w0 w1 o d Hg H. unfold cvar_init in H.
  destruct (ef_init mi (CIn (CovArray (zeros n))) b w0) as [w2 [o2|e]] eqn:E; [|discriminate H].
  destruct (ef_init_inv _ _ _ _ _ _ E) as [m [lb [ub [-> [Hs [Hb [-> ->]]]]]]].
  destruct (validate_returns _ _) as [rr|e] eqn:V; [|discriminate H]. unfold validate_returns in V.
  match type of V with (if ?c then _ else _) = _ => destruct c; [discriminate V|] end. inversion V; subst rr.
  destruct (validate_beta beta) as [bt|e] eqn:B; [|discriminate H]. destruct (validate_beta_inv _ _ B) as [-> Hbeta].
  inversion H; subst; clear H. cbn [cv_returns cv_beta].
  pose proof (init_tickers_zeros m n Hs) as Hn. destruct (zeros_square n) as [Z1 Z2]. destruct (read_bounds_length _ _ _ _ Hb) as [L1 L2].
  split; [|split; [|split; reflexivity]].
  - apply (init_open m (CovArray (zeros n)) lb ub w0 [1%nat; List.length (dropna rows)]); try assumption; cbn [cov_values]; rewrite ?Hn; assumption.
  - unfold cvar_ready, uses. cbn [cv_returns cv_beta cv_alpha cv_u w_sizes init_world init_ef e_w e_add flat_map In].
    split; [apply (good_table n); [exact Hg|unfold e_n; cbn; exact Hn]|]. split; [exact Hbeta|].
    split; [rewrite nth_error_app2, Nat.sub_diag by lia; reflexivity|].
    split; [rewrite nth_error_app2 by lia; replace (S (List.length (w_sizes w0 ++ [List.length (init_tickers m (CovArray (zeros n)))])) - List.length (w_sizes w0 ++ [List.length (init_tickers m (CovArray (zeros n)))]))%nat with 1%nat by lia; reflexivity|].
    rewrite app_length. cbn [List.length]. split; [lia|]. split; intros [Hx|[[]|[]]]; lia.
Qed.
Lemma cdar_init_ready : forall mi n rows beta b w0 w1 o d, good_rows n rows ->
  cdar_init mi (RTable n rows) beta b w0 = (w1, Ok (o, d)) ->
  open_ef w1 o [] /\ cdar_ready w1 o [] d /\ cd_returns d = dropna rows /\ cd_beta d = beta.
Proof.
  intros mi n rows beta b w0 w1 o d Hg H. unfold cdar_init in H. destruct mi as [m0|]; [|discriminate H].
  destruct (mu_values m0) as [l|] eqn:El; [|discriminate H]. set (k := List.length l) in *.
  destruct (ef_init _ (CIn (CovArray (zeros k))) b w0) as [w2 [o2|e]] eqn:E; [|discriminate H].
  destruct (ef_init_inv _ _ _ _ _ _ E) as [m [lb [ub [Em [Hs [Hb [-> ->]]]]]]]. injection Em as <-.
  destruct (validate_returns _ _) as [rr|e] eqn:V; [|discriminate H]. unfold validate_returns in V. cbn [init_ef e_mu] in V. rewrite El in V.
  destruct (n =? List.length l)%nat eqn:En; [|discriminate V]. apply Nat.eqb_eq in En. cbn [negb] in V. inversion V; subst rr.
  destruct (validate_beta beta) as [bt|e] eqn:B; [|discriminate H]. destruct (validate_beta_inv _ _ B) as [-> Hbeta].
  inversion H; subst w1 o d; clear H. cbn [cd_returns cd_beta].
  pose proof (init_tickers_zeros m0 k Hs) as Hn. destruct (zeros_square k) as [Z1 Z2]. destruct (read_bounds_length _ _ _ _ Hb) as [L1 L2].
  split; [|split; [|split; reflexivity]].
  - apply (init_open m0 (CovArray (zeros k)) lb ub w0 [1%nat; S (List.length (dropna rows)); List.length (dropna rows)]); try assumption; cbn [cov_values]; rewrite ?Hn; assumption.
  - unfold cdar_ready, uses. cbn [cd_returns cd_beta cd_alpha cd_u cd_z w_sizes init_world init_ef e_w e_add flat_map In].
    split; [apply (good_table n); [exact Hg|change (List.length (init_tickers m0 (CovArray (zeros k))) = n); rewrite Hn; unfold k; congruence]|]. split; [exact Hbeta|].
    set (base := w_sizes w0 ++ _).
    split; [rewrite nth_error_app2, Nat.sub_diag by lia; reflexivity|].
    split; [rewrite nth_error_app2 by lia; replace (S (List.length base) - List.length base)%nat with 1%nat by lia; reflexivity|].
    split; [rewrite nth_error_app2 by lia; replace (S (S (List.length base)) - List.length base)%nat with 2%nat by lia; reflexivity|].
    unfold base. rewrite app_length. cbn [List.length]. split; [lia|]. split; [lia|]. split; [lia|].
    repeat split; intros [Hx|[[]|[]]]; lia.
Qed.

(** C39 *)
Lemma cdar_init_none : forall r beta b w0, cdar_init (MIn MuNone) r beta b w0 = (w0, Err TypeError).
Proof. reflexivity. Qed.
Lemma others_accept_none : forall n rows beta freq bench b w0 lb ub, 0 <= beta < 1 -> read_bounds n b = Ok (lb, ub) ->
  (exists w1 o d, semi_init (MIn MuNone) (RTable n rows) freq bench b w0 = (w1, Ok (o, d)) /\ e_mu o = None) /\
  (exists w1 o d, cvar_init (MIn MuNone) (RTable n rows) beta b w0 = (w1, Ok (o, d)) /\ e_mu o = None).
Proof.
  intros n rows beta freq bench b w0 lb ub Hb Hr. destruct (zeros_square n) as [_ Z].
  assert (E : ef_init (MIn MuNone) (CIn (CovArray (zeros n))) b w0 =
    (init_world w0 n, Ok (init_ef MuNone (CovArray (zeros n)) lb ub w0))).
  { pose proof (init_tickers_zeros MuNone n I) as Hn. rewrite <- Hn at 2. apply ef_init_ok; [exact I|]. rewrite Hn. exact Hr. }
  split.
  - unfold semi_init. rewrite E. cbn [validate_returns init_ef e_mu mu_values]. eexists _, _, _. split; reflexivity.
  - unfold cvar_init. rewrite E. cbn [validate_returns init_ef e_mu mu_values].
    assert (Ev : validate_beta beta = Ok beta).
    { unfold validate_beta. rewrite (proj2 (Rleb_true 0 beta)) by lra. rewrite (proj2 (Rltb_true beta 1)) by lra. reflexivity. }
    rewrite Ev. eexists _, _, _. split; reflexivity.
Qed.

(** ** rounding *)
Lemma rounded_half : forall x y, rounded 16 x y -> Rabs (x - y) <= half_unit 16.
Proof.
  intros x y [k [H1 [H2 _]]]. unfold half_unit. set (p := IZR (10 ^ 16)) in *.
  assert (Hp : 0 < p) by (unfold p; apply IZR_lt; reflexivity).
  rewrite <- H1 in H2. replace (x * p - y * p) with ((x - y) * p) in H2 by ring. rewrite Rabs_mult, (Rabs_right p) in H2 by lra.
  apply (Rmult_le_reg_r p); [exact Hp|]. unfold Rdiv. rewrite Rmult_assoc, Rinv_l by lra. lra.
Qed.
Lemma inner_close : forall e row x r, Forall2 (fun a b => Rabs (a - b) <= e) x r -> List.length row = List.length x ->
  Rabs (inner row x - inner row r) <= total (map Rabs row) * e.
Proof.
  intros e row x r H. revert row. induction H as [|a b x r Hab H IH]; intros [|v row] L; try discriminate L.
  - cbn. rewrite Rminus_0_r, Rabs_R0. lra.
  - injection L as L. specialize (IH row L). cbn [inner map total].
    replace (v * a + inner row x - (v * b + inner row r)) with (v * (a - b) + (inner row x - inner row r)) by ring.
    eapply Rle_trans; [apply Rabs_triang|]. rewrite Rabs_mult. pose proof (Rabs_pos v). nra.
Qed.
Lemma shortfall_close : forall b y z e, Rabs (y - z) <= e -> shortfall b z <= shortfall b y + e.
Proof.
  intros b y z e H. rewrite !shortfall_max. assert (He : 0 <= e) by (eapply Rle_trans; [apply Rabs_pos|exact H]).
  apply Rmax_lub.
  - pose proof (Rmax_l (b - y) 0). pose proof (Rle_abs (y - z)). lra.
  - pose proof (Rmax_r (b - y) 0). lra.
Qed.
Lemma ssq_shift : forall l e, 0 <= e -> ssq (map (fun a => a + e) l) = ssq l + 2 * e * total l + INR (List.length l) * (e * e).
Proof.
  intros l e He. unfold ssq. induction l as [|a l IH]; [cbn; lra|]. cbn [map total List.length]. rewrite S_INR, IH. ring.
Qed.
Lemma total_sq : forall l, total l * total l <= INR (List.length l) * ssq l.
Proof.
  intros l. set (T := INR (List.length l)). assert (H : forall m, 0 <= ssq l - 2 * m * total l + T * (m * m)).
  { intros m. assert (E : ssq (map (fun a => a - m) l) = ssq l - 2 * m * total l + T * (m * m)).
    { unfold T, ssq. induction l as [|a l IH]; [cbn; lra|]. cbn [map total List.length]. rewrite S_INR, IH. ring. }
    rewrite <- E. apply ssq_nonneg. }
  destruct l as [|a l]; [cbn; lra|]. assert (HT : 0 < T) by (apply lt_0_INR; cbn; lia).
  specialize (H (total (a :: l) / T)). set (t := total (a :: l)) in *. set (q := ssq (a :: l)) in *.
  assert (E : q - 2 * (t / T) * t + T * (t / T * (t / T)) = q - t * t / T) by (field; lra). rewrite E in H.
  assert (E2 : t * t / T <= q) by lra. apply (Rmult_le_compat_r T) in E2; [|lra].
  unfold Rdiv in E2. rewrite Rmult_assoc, Rinv_l in E2 by lra. lra.
Qed.
Lemma ssq_mono : forall l l', Forall (fun y => 0 <= y) l -> Forall2 Rle l l' -> ssq l <= ssq l'.
Proof.
  intros l l' Hn H. unfold ssq. revert Hn. induction H as [|a b l l' Hab H IH]; intros Hn; cbn [map total]; [lra|].
  inversion Hn; subst. specialize (IH ltac:(assumption)). nra.
Qed.

Lemma semidev_round : forall rets b x r M freq, (0 < List.length rets)%nat -> 0 <= freq ->
  Forall (fun row => List.length row = List.length x) rets -> Forall (fun row => total (map Rabs row) <= M) rets ->
  Forall2 (rounded 16) x r ->
  sqrt (freq * semivariance rets b r) <= sqrt (freq * semivariance rets b x) + sqrt freq * (M * half_unit 16).
Proof.
  intros rets b x r M freq HT Hf Hlen HM Hr. set (T := INR (List.length rets)).
  assert (HTp : 0 < T) by (apply lt_0_INR; exact HT). set (e := M * half_unit 16).
  assert (Hh : 0 < half_unit 16).
  { unfold half_unit. apply Rmult_lt_0_compat; [lra|]. apply Rinv_0_lt_compat. apply IZR_lt. reflexivity. }
  assert (Hclose : Forall2 (fun a c => Rabs (a - c) <= half_unit 16) x r) by (clear - Hr; induction Hr; constructor; [apply rounded_half; assumption|assumption]).
  assert (HM0 : 0 <= M).
  { destruct rets as [|row rets]; [cbn in HT; lia|]. inversion HM; subst. eapply Rle_trans; [|eassumption].
    apply total_nonneg. apply Forall_map, Forall_forall. intros; apply Rabs_pos. }
  assert (He : 0 <= e) by (unfold e; apply Rmult_le_pos; lra).
  set (A := map (shortfall b) (period_returns rets x)). set (C := map (shortfall b) (period_returns rets r)).
  assert (HC : Forall (fun y => 0 <= y) C).
  { apply Forall_map, Forall_forall. intros y _. rewrite shortfall_max. apply Rmax_r. }
  assert (HCA : Forall2 Rle C (map (fun a => a + e) A)).
  { unfold A, C, period_returns. clear HC A C HT T HTp. induction rets as [|row rets IH]; cbn [map]; constructor.
    - apply shortfall_close. inversion Hlen; inversion HM; subst. eapply Rle_trans; [apply (inner_close (half_unit 16)); eassumption|].
      unfold e. apply Rmult_le_compat_r; [lra|assumption].
    - inversion Hlen; inversion HM; subst. apply IH; assumption. }
  assert (LA : List.length A = List.length rets) by (unfold A; rewrite map_length; apply period_returns_length).
  assert (EA : semivariance rets b x = ssq A / T) by (unfold semivariance, ssq, A; rewrite map_map; reflexivity).
  assert (EC : semivariance rets b r = ssq C / T) by (unfold semivariance, ssq, C; rewrite map_map; reflexivity).
  pose proof (ssq_mono _ _ HC HCA) as H1. rewrite (ssq_shift A e He), LA in H1. fold T in H1.
  pose proof (total_sq A) as H2. rewrite LA in H2. fold T in H2.
  set (q := sqrt (ssq A / T)). assert (Hqn : 0 <= q) by apply sqrt_pos.
  assert (HqA : 0 <= ssq A / T) by (apply Rmult_le_pos; [apply ssq_nonneg|left; apply Rinv_0_lt_compat; exact HTp]).
  assert (Hqq : q * q = ssq A / T) by (apply sqrt_sqrt; exact HqA).
  assert (EqA : ssq A = T * (q * q)) by (rewrite Hqq; field; lra).
  assert (Htot : total A <= T * q).
  { destruct (Rle_lt_dec (total A) 0) as [Hneg|Hpos]; [pose proof (Rmult_le_pos T q); lra|].
    apply Rsqr_incr_0; unfold Rsqr; [|lra|apply Rmult_le_pos; lra]. rewrite EqA in H2. lra. }
  assert (Hle : semivariance rets b r <= (q + e) * (q + e)).
  { rewrite EC. apply (Rmult_le_reg_r T); [exact HTp|]. unfold Rdiv. rewrite Rmult_assoc, Rinv_l by lra. rewrite EqA in H1. nra. }
  rewrite EA. rewrite !sqrt_mult_alt by exact Hf. fold q. pose proof (sqrt_pos freq) as Hsf.
  assert (Hs : sqrt (semivariance rets b r) <= q + e).
  { rewrite <- (sqrt_square (q + e)) by lra. apply sqrt_le_1_alt. exact Hle. }
  fold e. nra.
Qed.
