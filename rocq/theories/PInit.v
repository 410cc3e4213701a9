(** * Which arguments the constructors accept *)
From Coq Require Import ZArith List String Bool Reals Lra Lia.
From Verif Require Import Num Py RBase PyLemmas MBase MConvex MEF MDown SLin SBase SLabels SConvex SDown SInit PBase PConvex PEF PDown5 PLabels.
Import ListNotations.
Local Open Scope R_scope.

Lemma or_default_some : forall d x, or_default d x = Some (value_or d x). Proof. intros d [y|]; reflexivity. Qed.
Lemma nth_error_map_nth : forall (rows : list (list bnum)) i k, (i < k)%nat -> Forall (fun r => List.length r = k) rows ->
  Forall2 (fun r b => nth_error r i = Some b) rows (map (fun r => nth i r None) rows).
Proof.
  intros rows i k Hi H. induction H as [|r rows H1 H2 IH]; constructor; [|exact IH]. assert (G : (i < List.length r)%nat) by (rewrite H1; exact Hi). apply nth_error_nth'. exact G.
Qed.
Lemma nth_error_map_inv : forall (rows : list (list bnum)) i lb, Forall2 (fun r b => nth_error r i = Some b) rows lb ->
  lb = map (fun r => nth i r None) rows.
Proof. intros rows i lb H. induction H as [|r b rows lb H1 H2 IH]; [reflexivity|]. cbn [map]. f_equal; [|exact IH]. symmetry. apply nth_error_nth. exact H1. Qed.

Lemma columns_spec : forall rows lb ub, columns rows = Ok (lb, ub) <->
  rows <> [] /\ exists k, (2 <= k)%nat /\ Forall (fun r => List.length r = k) rows /\
    Forall2 (fun r b => nth_error r 0 = Some b) rows lb /\ Forall2 (fun r b => nth_error r 1 = Some b) rows ub.
Proof.
  intros rows lb ub. unfold columns. destruct rows as [|r0 rows]; [split; [discriminate|intros [H _]; congruence]|].
  destruct (forallb (fun r => (List.length r =? List.length r0)%nat) (r0 :: rows)) eqn:E.
  - assert (F : Forall (fun r => List.length r = List.length r0) (r0 :: rows)).
    { apply Forall_forall. intros r Hr. rewrite forallb_forall in E. apply Nat.eqb_eq, E, Hr. }
    destruct (List.length r0 <? 2)%nat eqn:E2.
    + split; [discriminate|]. intros [_ [k [Hk [F2 _]]]]. apply Nat.ltb_lt in E2. pose proof (Forall_inv F2) as F3. cbv beta in F3. rewrite F3 in E2. lia.
    + apply Nat.ltb_ge in E2. split.
      * intros H. injection H as <- <-. split; [discriminate|]. exists (List.length r0). split; [exact E2|]. split; [exact F|].
        split; [apply (nth_error_map_nth (r0 :: rows) 0 (List.length r0)); [lia|exact F]|apply (nth_error_map_nth (r0 :: rows) 1 (List.length r0)); [lia|exact F]].
      * intros [_ [k [Hk [_ [H1 H2]]]]]. apply nth_error_map_inv in H1, H2. subst. reflexivity.
  - split; [discriminate|]. intros [_ [k [Hk [F2 _]]]]. exfalso.
    assert (forallb (fun r => (List.length r =? List.length r0)%nat) (r0 :: rows) = true); [|congruence].
    apply forallb_forall. intros r Hr. rewrite Forall_forall in F2. apply Nat.eqb_eq. rewrite (F2 r Hr), (F2 r0 (or_introl eq_refl)). reflexivity.
Qed.

Lemma read_bounds_spec : forall n b lb ub, read_bounds n b = Ok (lb, ub) <-> bounds_given n b lb ub.
Proof.
  intros n b lb ub. destruct b as [l u|isl rows|]; unfold read_bounds.
  - split.
    + intros H. destruct (n =? 2)%nat eqn:E; cbn [andb] in H.
      * apply Nat.eqb_eq in E. destruct l as [x|]; [|discriminate H]. injection H as <- <-. rewrite !or_default_some. constructor. right. discriminate.
      * apply Nat.eqb_neq in E. injection H as <- <-. rewrite !or_default_some. constructor. left. exact E.
    + intros H. inversion H as [l' u' Hc| |]; subst. rewrite !or_default_some.
      destruct (n =? 2)%nat eqn:E; [|reflexivity]. apply Nat.eqb_eq in E. destruct l; [reflexivity|]. destruct Hc; congruence.
  - destruct (List.length rows =? n)%nat eqn:E.
    + apply Nat.eqb_eq in E. rewrite columns_spec. split.
      * intros [H1 [k [H2 [H3 [H4 H5]]]]]. apply (given_pairs n isl rows k); assumption.
      * intros H. inversion H; subst; [eauto 8|]. exfalso. cbn [List.length] in *. congruence.
    + apply Nat.eqb_neq in E. split.
      * intros H. destruct rows as [|l [|u [|]]]; try discriminate H. destruct isl; [|discriminate H].
        destruct ((List.length l =? n)%nat && (List.length u =? n)%nat) eqn:E2; [|discriminate H].
        apply andb_prop in E2. destruct E2 as [E2 E3]. apply Nat.eqb_eq in E2, E3. injection H as <- <-.
        rewrite (map_ext _ _ (or_default_some (-1))), (map_ext _ _ (or_default_some 1)). apply given_arrays; [cbn in E; congruence|assumption|assumption].
      * intros H. inversion H as [|i' r' k' lb' ub' A1 A2 A3 A4 A5 A6|l' u' A1 A2 A3]; subst; [congruence|]. rewrite Nat.eqb_refl, A3, Nat.eqb_refl. cbn [andb].
        rewrite (map_ext _ _ (or_default_some (-1))), (map_ext _ _ (or_default_some 1)). reflexivity.
  - split; [discriminate|]. intros H. inversion H.
Qed.
Lemma shape_same : forall m c, init_shape_ok m c <-> (forall l, mu_values m = Some l -> same_size l (cov_values c)).
Proof.
  intros m c. unfold init_shape_ok, same_size. destruct (mu_values m) as [l|].
  - assert (E : num_cols (cov_values c) = List.length (hd [] (cov_values c))) by (destruct (cov_values c); reflexivity). rewrite E.
    split; [intros H l' El; injection El as <-; exact H|intros H; apply H; reflexivity].
  - split; [discriminate|trivial].
Qed.
Lemma universe_tickers : forall m c, universe m c (init_tickers m c).
Proof.
  intros [|s|l] [cols rows|rows]; cbn; constructor; apply range_positions.
Qed.

(** ** EfficientFrontier *)
Lemma ef_accepts : forall mu cov b w0,
  (exists w1 o, ef_init mu cov b w0 = (w1, Ok o)) <->
  exists m c ts lb ub, mu = MIn m /\ cov = CIn c /\ (forall l, mu_values m = Some l -> same_size l (cov_values c)) /\
    universe m c ts /\ bounds_given (List.length ts) b lb ub.
Proof.
  intros mu cov b w0. split.
  - intros [w1 [o H]]. destruct cov as [c| |]; [|discriminate H|discriminate H].
    destruct (ef_init_inv _ _ _ _ _ _ H) as [m [lb [ub [-> [Hs [Hb _]]]]]].
    exists m, c, (init_tickers m c), lb, ub. split; [reflexivity|]. split; [reflexivity|]. split; [apply shape_same, Hs|].
    split; [apply universe_tickers|]. apply read_bounds_spec, Hb.
  - intros [m [c [ts [lb [ub [-> [-> [Hs [Hu Hb]]]]]]]]]. assert (E : ts = init_tickers m c).
    { destruct Hu; cbn; try reflexivity; apply positions_range; assumption. } subst ts.
    do 2 eexists. apply ef_init_ok; [apply shape_same, Hs|apply read_bounds_spec, Hb].
Qed.
Lemma ef_built : forall m c b w0 w1 o, ef_init (MIn m) (CIn c) b w0 = (w1, Ok o) ->
  exists lb ub, universe m c (b_tickers (e_base o)) /\ bounds_given (e_n o) b lb ub /\
    e_lb o = lb /\ e_ub o = ub /\ e_cov o = cov_values c /\ e_mu o = mu_values m /\
    e_weights o = None /\ e_obj o = None /\ e_add o = [] /\ e_opt o = None /\
    e_w o = List.length (w_sizes w0) /\ w_sizes w1 = w_sizes w0 ++ [e_n o] /\ w_params w1 = w_params w0 /\
    forall s ps, List.length (s (e_w o)) = e_n o ->
      (Forall (fun ic => sat s ps (snd ic)) (e_cons o) <-> within lb ub (s (e_w o))).
Proof.
  intros m c b w0 w1 o H. destruct (ef_init_inv _ _ _ _ _ _ H) as [m' [lb [ub [Em [Hs [Hb [-> ->]]]]]]]. injection Em as <-.
  exists lb, ub. unfold e_n. cbn [init_ef init_world e_base b_tickers e_lb e_ub e_cov e_mu e_weights b_weights e_obj e_add e_opt e_w w_sizes w_params e_cons].
  split; [apply universe_tickers|]. split; [apply read_bounds_spec, Hb|]. repeat (split; [reflexivity|]).
  intros s ps Hl. destruct (read_bounds_length _ _ _ _ Hb) as [L1 L2]. rewrite !Forall_cons_iff'. cbn [snd].
  rewrite sat_lower, sat_upper by congruence. unfold within. split; [tauto|]. intros [H1 H2]. repeat split; try assumption. constructor.
Qed.
Lemma ef_errors : forall mu cov b w0,
  (cov = CInNone -> ef_init mu cov b w0 = (w0, Err ValueError)) /\
  (cov = CInOther -> ef_init mu cov b w0 = (w0, Err TypeError)) /\
  (forall c, cov = CIn c ->
     (mu = MInOther -> ef_init mu cov b w0 = (w0, Err TypeError)) /\
     (forall m l, mu = MIn m -> mu_values m = Some l -> ~ same_size l (cov_values c) -> ef_init mu cov b w0 = (w0, Err ValueError))).
Proof.
  intros mu cov b w0. split; [intros ->; reflexivity|]. split; [intros ->; reflexivity|]. intros c ->. split; [intros ->; reflexivity|].
  intros m l -> El Hn. unfold ef_init. rewrite El.
  destruct ((List.length (cov_values c) =? List.length l)%nat && (num_cols (cov_values c) =? List.length l)%nat) eqn:E; [|reflexivity].
  exfalso. apply Hn. apply andb_prop in E. destruct E as [E1 E2]. apply Nat.eqb_eq in E1, E2. split; [exact E1|].
  rewrite <- E2. destruct (cov_values c); reflexivity.
Qed.
(** without expected returns the shape of the covariance table is not looked at; no variance can be minimised *)
Lemma ef_any_shape : forall sv M lo hi w0, exists w1 o, ef_init (MIn MuNone) (CIn (CovArray M)) (BPair (Some lo) (Some hi)) w0 = (w1, Ok o) /\
  e_cov o = M /\ (~ square (List.length M) M -> min_volatility sv w1 o = (w1, o, Err ShapeError)).
Proof.
  intros sv M lo hi w0. do 2 eexists. split; [|split].
  - apply ef_init_ok; [exact I|]. apply read_bounds_spec. constructor. right. discriminate.
  - reflexivity.
  - intros Hn. unfold min_volatility, bind, get, check_cov, bind, get. unfold e_n. cbn [init_ef e_cov e_base b_tickers init_tickers mu_values cov_values].
    unfold range_labels. rewrite map_length, seq_length, Nat.eqb_refl. cbn [andb].
    destruct (forallb (fun r => (List.length r =? List.length M)%nat) M) eqn:E; [|reflexivity].
    exfalso. apply Hn. split; [reflexivity|]. apply Forall_forall. intros r Hr. rewrite forallb_forall in E. apply Nat.eqb_eq, E, Hr.
Qed.

(** ** The downside optimizers *)
Lemma complete_some : forall row l, complete row = Some l <-> row = map Some l.
Proof.
  intros row. induction row as [|[x|] row IH]; intros l; cbn [complete].
  - split; [intros H; injection H as <-; reflexivity|intros H; destruct l; [reflexivity|discriminate H]].
  - destruct (complete row) as [l'|] eqn:E.
    + pose proof (proj1 (IH l') eq_refl) as ->. split; [intros H; injection H as <-; reflexivity|].
      intros H. destruct l as [|y l]; [discriminate H|]. cbn [map] in H. injection H as <- H. f_equal. f_equal.
      assert (Q : Some l' = Some l) by (apply IH; exact H). injection Q as ->. reflexivity.
    + split; [discriminate|]. intros H. destruct l as [|y l]; [discriminate H|]. cbn [map] in H. injection H as _ H. apply IH in H. discriminate H.
  - split; [discriminate|]. intros H. destruct l; discriminate H.
Qed.
Lemma complete_none : forall row, complete row = None -> In None row.
Proof.
  intros row. induction row as [|[x|] row IH]; cbn [complete]; intros H; [discriminate H| |left; reflexivity].
  destruct (complete row); [discriminate H|]. right. apply IH. reflexivity.
Qed.
Lemma dropna_gaps : forall rows, without_gaps rows (dropna rows).
Proof.
  intros rows. induction rows as [|row rows IH]; [constructor|]. unfold dropna in *. cbn [flat_map].
  destruct (complete row) as [l|] eqn:E.
  - apply complete_some in E. subst row. cbn [app]. constructor. exact IH.
  - cbn [app]. apply wg_drop; [apply complete_none, E|exact IH].
Qed.
Lemma zeros_same : forall n l, same_size l (zeros n) <-> List.length l = n.
Proof.
  intros n l. unfold same_size, zeros. rewrite repeat_length. split; [intros [H _]; congruence|]. intros ->. split; [reflexivity|].
  destruct n; [reflexivity|]. cbn [repeat hd List.length]. rewrite repeat_length. reflexivity.
Qed.
Lemma zeros_accepts : forall mu n b w0, (exists w1 o, ef_init mu (CIn (CovArray (zeros n))) b w0 = (w1, Ok o)) <->
  exists m, mu = MIn m /\ table_ok m n b.
Proof.
  intros mu n b w0. rewrite ef_accepts. split.
  - intros [m [c [ts [lb [ub [-> [Ec [Hs [Hu Hb]]]]]]]]]. injection Ec as <-. exists m. split; [reflexivity|].
    assert (Hl : forall l, mu_values m = Some l -> List.length l = n) by (intros l El; apply zeros_same, Hs, El).
    split; [exact Hl|]. exists lb, ub. replace n with (List.length ts); [exact Hb|].
    destruct m as [|s|l]; inversion Hu; subst.
    + match goal with H : positions _ _ |- _ => destruct H as [H _]; rewrite H end. apply repeat_length.
    + rewrite map_length. specialize (Hl _ eq_refl). rewrite map_length in Hl. exact Hl.
    + match goal with H : positions _ _ |- _ => destruct H as [H _]; rewrite H end. apply Hl. reflexivity.
  - intros [m [-> [Hl [lb [ub Hb]]]]]. exists m, (CovArray (zeros n)), (init_tickers m (CovArray (zeros n))), lb, ub.
    split; [reflexivity|]. split; [reflexivity|]. split; [intros l El; apply zeros_same, Hl, El|]. split; [apply universe_tickers|].
    rewrite init_tickers_zeros; [exact Hb|]. apply shape_same. intros l El. apply zeros_same, Hl, El.
Qed.

Lemma semi_accepts : forall mu r freq bench b w0,
  (exists w1 o d, semi_init mu r freq bench b w0 = (w1, Ok (o, d))) <->
  exists m n rows, mu = MIn m /\ r = RTable n rows /\ table_ok m n b.
Proof.
  intros mu r freq bench b w0. destruct r as [n rows|].
  2:{ split; [intros [? [? [? H]]]; discriminate H|intros [? [? [? [_ [H _]]]]]; discriminate H]. }
  pose proof (zeros_accepts mu n b w0) as Z. split.
  - intros [w1 [o [d H]]]. unfold semi_init in H.
    destruct (ef_init mu (CIn (CovArray (zeros n))) b w0) as [w2 [o2|e]] eqn:E; [|discriminate H].
    destruct (proj1 Z (ex_intro _ w2 (ex_intro _ o2 eq_refl))) as [m [Em Ht]]. exists m, n, rows. auto.
  - intros [m [n' [rows' [Em [Er Ht]]]]]. injection Er as <- <-. destruct (proj2 Z (ex_intro _ m (conj Em Ht))) as [w1 [o E]]. subst mu.
    destruct (ef_built _ _ _ _ _ _ E) as [lb [ub [_ [_ [_ [_ [_ [Emu _]]]]]]]].
    unfold semi_init. rewrite E. unfold validate_returns. rewrite Emu. destruct Ht as [Hl _].
    destruct (mu_values m) as [l|]; [rewrite (Hl l eq_refl), Nat.eqb_refl; cbn [negb]|]; eauto.
Qed.
Lemma cvar_accepts : forall mu r beta b w0,
  (exists w1 o d, cvar_init mu r beta b w0 = (w1, Ok (o, d))) <->
  exists m n rows, mu = MIn m /\ r = RTable n rows /\ table_ok m n b /\ 0 <= beta < 1.
Proof.
  intros mu r beta b w0. destruct r as [n rows|].
  2:{ split; [intros [? [? [? H]]]; discriminate H|intros [? [? [? [_ [H _]]]]]; discriminate H]. }
  pose proof (zeros_accepts mu n b w0) as Z. split.
  - intros [w1 [o [d H]]]. unfold cvar_init in H.
    destruct (ef_init mu (CIn (CovArray (zeros n))) b w0) as [w2 [o2|e]] eqn:E; [|discriminate H].
    destruct (proj1 Z (ex_intro _ w2 (ex_intro _ o2 eq_refl))) as [m [Em Ht]]. exists m, n, rows.
    destruct (validate_returns _ _); [|discriminate H]. destruct (validate_beta beta) eqn:B; [|discriminate H].
    destruct (validate_beta_inv _ _ B). auto.
  - intros [m [n' [rows' [Em [Er [Ht Hb]]]]]]. injection Er as <- <-. destruct (proj2 Z (ex_intro _ m (conj Em Ht))) as [w1 [o E]]. subst mu.
    destruct (ef_built _ _ _ _ _ _ E) as [lb [ub [_ [_ [_ [_ [_ [Emu _]]]]]]]].
    unfold cvar_init. rewrite E. unfold validate_returns. rewrite Emu. destruct Ht as [Hl _].
    assert (B : validate_beta beta = Ok beta).
    { unfold validate_beta. rewrite (proj2 (Rleb_true 0 beta)), (proj2 (Rltb_true beta 1)) by lra. reflexivity. }
    destruct (mu_values m) as [l|]; [rewrite (Hl l eq_refl), Nat.eqb_refl; cbn [negb]|]; rewrite B; eauto.
Qed.
Lemma cdar_accepts : forall mu r beta b w0,
  (exists w1 o d, cdar_init mu r beta b w0 = (w1, Ok (o, d))) <->
  exists m n rows, mu = MIn m /\ mu_values m <> None /\ r = RTable n rows /\ table_ok m n b /\ 0 <= beta < 1.
Proof.
  intros mu r beta b w0. split.
  - intros [w1 [o [d H]]]. unfold cdar_init in H. destruct mu as [m|]; [|discriminate H]. destruct (mu_values m) as [l|] eqn:El; [|discriminate H].
    pose proof (zeros_accepts (MIn m) (List.length l) b w0) as Z.
    destruct (ef_init (MIn m) (CIn (CovArray (zeros (List.length l)))) b w0) as [w2 [o2|e]] eqn:E; [|discriminate H].
    destruct (proj1 Z (ex_intro _ w2 (ex_intro _ o2 eq_refl))) as [m' [Em Ht]]. injection Em as <-.
    destruct (ef_built _ _ _ _ _ _ E) as [lb [ub [_ [_ [_ [_ [_ [Emu _]]]]]]]]. rewrite Emu, El in H.
    unfold validate_returns in H. destruct r as [n rows|]; [|discriminate H].
    destruct (n =? List.length l)%nat eqn:En; cbn [negb] in H; [|discriminate H]. apply Nat.eqb_eq in En. subst n.
    destruct (validate_beta beta) eqn:B; [|discriminate H]. destruct (validate_beta_inv _ _ B).
    exists m, (List.length l), rows. split; [reflexivity|]. split; [congruence|]. auto.
  - intros [m [n [rows [-> [Hn [-> [Ht Hb]]]]]]]. destruct (mu_values m) as [l|] eqn:El; [|congruence].
    pose proof (proj1 Ht l El) as Hl. subst n. destruct (proj2 (zeros_accepts (MIn m) (List.length l) b w0) (ex_intro _ m (conj eq_refl Ht))) as [w1 [o E]].
    destruct (ef_built _ _ _ _ _ _ E) as [lb [ub [_ [_ [_ [_ [_ [Emu _]]]]]]]].
    unfold cdar_init. rewrite El, E. unfold validate_returns. rewrite Emu, El, Nat.eqb_refl. cbn [negb].
    assert (B : validate_beta beta = Ok beta).
    { unfold validate_beta. rewrite (proj2 (Rleb_true 0 beta)), (proj2 (Rltb_true beta 1)) by lra. reflexivity. }
    rewrite B. eauto.
Qed.

(** what is stored *)
Lemma semi_built : forall m n rows freq bench b w0 w1 o d, semi_init (MIn m) (RTable n rows) freq bench b w0 = (w1, Ok (o, d)) ->
  e_n o = n /\ e_mu o = mu_values m /\ bounds_given n b (e_lb o) (e_ub o) /\ universe m (CovArray (zeros n)) (b_tickers (e_base o)) /\
  without_gaps rows (sd_returns d) /\ sd_bench d = bench /\ sd_freq d = freq.
Proof.
  intros m n rows freq bench b w0 w1 o d H. unfold semi_init in H.
  destruct (ef_init (MIn m) (CIn (CovArray (zeros n))) b w0) as [w2 [o2|e]] eqn:E; [|discriminate H].
  destruct (validate_returns (e_mu o2) (RTable n rows)) as [rr|e] eqn:V; [|discriminate H]. injection H as -> -> <-.
  destruct (ef_built _ _ _ _ _ _ E) as [lb [ub [Hu [Hb [-> [-> [Ec [Em _]]]]]]]].
  assert (En : e_n o = n).
  { destruct (ef_init_inv _ _ _ _ _ _ E) as [m' [lb' [ub' [Em' [Hs [_ [_ ->]]]]]]]. injection Em' as <-. unfold e_n. cbn. apply init_tickers_zeros, Hs. }
  rewrite En in Hb. unfold validate_returns in V. match type of V with (if ?c then _ else _) = _ => destruct c; [discriminate V|] end. injection V as <-.
  cbn [sd_returns sd_bench sd_freq]. repeat (split; [assumption|]). split; [apply dropna_gaps|]. auto.
Qed.
Lemma cvar_built : forall m n rows beta b w0 w1 o d, cvar_init (MIn m) (RTable n rows) beta b w0 = (w1, Ok (o, d)) ->
  e_n o = n /\ e_mu o = mu_values m /\ bounds_given n b (e_lb o) (e_ub o) /\ universe m (CovArray (zeros n)) (b_tickers (e_base o)) /\
  without_gaps rows (cv_returns d) /\ cv_beta d = beta.
Proof.
  intros m n rows beta b w0 w1 o d H. unfold cvar_init in H.
  destruct (ef_init (MIn m) (CIn (CovArray (zeros n))) b w0) as [w2 [o2|e]] eqn:E; [|discriminate H].
  destruct (validate_returns (e_mu o2) (RTable n rows)) as [rr|e] eqn:V; [|discriminate H].
  destruct (validate_beta beta) as [bt|e] eqn:B; [|discriminate H]. destruct (validate_beta_inv _ _ B) as [-> _]. injection H as _ -> <-.
  destruct (ef_built _ _ _ _ _ _ E) as [lb [ub [Hu [Hb [-> [-> [Ec [Em _]]]]]]]].
  assert (En : e_n o = n).
  { destruct (ef_init_inv _ _ _ _ _ _ E) as [m' [lb' [ub' [Em' [Hs [_ [_ ->]]]]]]]. injection Em' as <-. unfold e_n. cbn. apply init_tickers_zeros, Hs. }
  rewrite En in Hb. unfold validate_returns in V. match type of V with (if ?c then _ else _) = _ => destruct c; [discriminate V|] end. injection V as <-.
  cbn [cv_returns cv_beta]. repeat (split; [assumption|]). split; [apply dropna_gaps|reflexivity].
Qed.
Lemma cdar_built : forall m n rows beta b w0 w1 o d, cdar_init (MIn m) (RTable n rows) beta b w0 = (w1, Ok (o, d)) ->
  e_n o = n /\ e_mu o = mu_values m /\ bounds_given n b (e_lb o) (e_ub o) /\ universe m (CovArray (zeros n)) (b_tickers (e_base o)) /\
  without_gaps rows (cd_returns d) /\ cd_beta d = beta.
Proof.
  intros m n rows beta b w0 w1 o d H.
  assert (Hacc : exists w1 o d, cdar_init (MIn m) (RTable n rows) beta b w0 = (w1, Ok (o, d))) by eauto.
  apply cdar_accepts in Hacc. destruct Hacc as [m' [n' [rows' [Em' [Hn [Er [[Hl _] _]]]]]]]. injection Em' as <-. injection Er as <- <-.
  unfold cdar_init in H. destruct (mu_values m) as [l|] eqn:El; [|congruence]. rewrite (Hl l eq_refl) in H.
  destruct (ef_init (MIn m) (CIn (CovArray (zeros n))) b w0) as [w2 [o2|e]] eqn:E; [|discriminate H].
  destruct (validate_returns (e_mu o2) (RTable n rows)) as [rr|e] eqn:V; [|discriminate H].
  destruct (validate_beta beta) as [bt|e] eqn:B; [|discriminate H]. destruct (validate_beta_inv _ _ B) as [-> _]. injection H as _ -> <-.
  destruct (ef_built _ _ _ _ _ _ E) as [lb [ub [Hu [Hb [-> [-> [Ec [Em _]]]]]]]].
  assert (En : e_n o = n).
  { destruct (ef_init_inv _ _ _ _ _ _ E) as [m' [lb' [ub' [Em' [Hs [_ [_ ->]]]]]]]. injection Em' as <-. unfold e_n. cbn. apply init_tickers_zeros, Hs. }
  rewrite En in Hb. unfold validate_returns in V. match type of V with (if ?c then _ else _) = _ => destruct c; [discriminate V|] end. injection V as <-.
  cbn [cd_returns cd_beta]. rewrite <- El. split; [assumption|]. split; [assumption|]. repeat (split; [assumption|]). split; [apply dropna_gaps|reflexivity].
Qed.
