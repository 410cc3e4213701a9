(** * Shrinkage makes the estimate positive definite, and what follows for the optimizers (C135) *)
From Coq Require Import ZArith List String Bool Reals Lra Lia.
From Verif Require Import Num Py RBase PyLemmas MBase MFrame MRisk MConvex MEF SLin SBase SHRP SReturns SRisk SConvex SObj SCurve SUnique Sums Mat PBase PConvex PEF PEF2 PEF3 PEF4 PEFW PRisk PDown PDown2 PDown4 PDown5 PDownW PFrame PReturns PCov1 PCov2 PCov3 PCov4 PGaps3 PUnique PUniqueW.
Import ListNotations.
Local Open Scope R_scope.
Local Notation len := List.length.

Lemma definite_mix : forall n rows V F k d, psd n rows -> psd n V -> 0 < k -> 0 < d <= 1 ->
  (forall i j, (i < n)%nat -> (j < n)%nat -> entry rows i j = k * (d * F i j + (1 - d) * entry V i j)) ->
  (forall v, (exists i, (i < n)%nat /\ v i <> 0) -> 0 < bil n F v v) -> definite n rows.
Proof.
  intros n rows V F k d Hr HV Hk Hd He HF. split; [exact Hr|]. intros y Ly (a & Ha & Hnz). rewrite (qform_bil n) by (auto; apply Hr).
  rewrite (bil_ext_M n _ (fun i j => k * (d * F i j + (1 - d) * entry V i j))) by exact He. rewrite bil_scal_Ml, bil_plus_M, !bil_scal_Ml.
  assert (H1 : 0 < bil n F (vec y) (vec y)).
  { apply HF. destruct (In_nth y a 0 Ha) as (i & Hi & E). exists i. split; [lia|]. unfold vec. rewrite E. exact Hnz. }
  pose proof (psd_bil n V (vec y) HV). apply Rmult_lt_0_compat; [exact Hk|]. assert (0 < d * bil n F (vec y) (vec y)) by (apply Rmult_lt_0_compat; lra).
  assert (0 <= (1 - d) * bil n (entry V) (vec y) (vec y)) by (apply Rmult_le_pos; lra). lra.
Qed.
Lemma sumn_pos_one : forall n (f : nat -> R) i, (i < n)%nat -> (forall j, (j < n)%nat -> 0 <= f j) -> 0 < f i -> 0 < sumn n f.
Proof. intros n f i Hi H Hf. apply Rlt_le_trans with (f i); [exact Hf|]. apply (sumn_term_le n f i); auto. Qed.
(** ** shrunk_covariance *)
Theorem shrunk_definite : forall eigh T dates names x fr log d, (2 <= T)%nat -> len dates = T -> (forall t, In t names -> len (x t) = T) -> 0 < fr -> 0 < d <= 1 ->
  (exists t, In t names /\ 0 < sample_covariance (x t) (x t)) ->
  exists sh rows, shrinkage_init (history T dates names x) true fr log = Ok sh /\ shrunk_covariance eigh sh d = Ok (mkFrame names names rows) /\ definite (len names) rows.
Proof.
  intros eigh T dates names x fr log d HT Hd Hx Hfr Hd1 (t & Ht & Hp).
  assert (Hn : names <> []) by (intros ->; destruct Ht).
  destruct (shrunk_init eigh T dates names x fr log d HT Hn Hd Hx ltac:(lra) ltac:(lra)) as (sh & rows & E1 & E2 & Sq & He & _ & Pr & _).
  exists sh, rows. split; [exact E1|]. split; [exact E2|]. set (n := len names) in *. set (V := sample_matrix names x) in *.
  destruct (sample_matrix_good T names x HT Hx) as [P1 _]. fold V n in P1.
  assert (Hn1 : (0 < n)%nat) by (unfold n; destruct names; [congruence|cbn; lia]). assert (HN : 0 < INR n) by (apply lt_0_INR; exact Hn1).
  assert (Htr : 0 < trace n V).
  { destruct (In_nth names t (LInt 0) Ht) as (i & Hi & Ei). unfold trace. rewrite total_seq. apply (sumn_pos_one n _ i Hi).
    - intros j Hj. rewrite <- (bil_basis n (entry V) j j Hj Hj). apply psd_bil. exact P1.
    - unfold V. rewrite sample_matrix_labelled, labelled_entry by exact Hi. unfold name. rewrite Ei. exact Hp. }
  apply (definite_mix n rows V (fun i j => (trace n V / INR n) * delta i j) fr d Pr P1 Hfr Hd1).
  - intros i j Hi Hj. rewrite He by assumption. unfold delta. destruct (Nat.eqb i j); ring.
  - intros v Hv. rewrite bil_delta. apply Rmult_lt_0_compat; [apply Rdiv_lt_0_compat; assumption|apply sumsq_pos; exact Hv].
Qed.
(** ** the constant correlation target *)
Lemma constant_target_definite : forall n (sd : nat -> R) r, (2 <= n)%nat -> 0 < 1 + (INR n - 1) * r -> r < 1 -> (forall i, (i < n)%nat -> 0 < sd i) ->
  forall v, (exists i, (i < n)%nat /\ v i <> 0) -> 0 < bil n (fun i j => if Nat.eqb i j then sd i * sd i else r * (sd i * sd j)) v v.
Proof.
  intros n sd r Hn H1 H2 Hs v (i0 & Hi0 & Hv0). rewrite (rank_one_diag n sd (fun i => sd i * sd i)). pose proof (INR_ge2 n Hn).
  set (A := sumn n (fun i => sd i * v i)). set (Q := sumn n (fun i => (sd i * v i) * (sd i * v i))).
  assert (EQ : sumn n (fun i => (sd i * sd i - r * (sd i * sd i)) * (v i * v i)) = (1 - r) * Q).
  { unfold Q. rewrite <- sumn_scal. apply sumn_ext. intros; ring. }
  rewrite EQ. assert (HQ : 0 < Q).
  { apply (sumsq_pos n (fun i => sd i * v i)). exists i0. split; [exact Hi0|]. apply Rmult_integral_contrapositive. split; [specialize (Hs i0 Hi0); lra|exact Hv0]. }
  assert (HC : A * A <= INR n * Q).
  { pose proof (sumn_cauchy n (fun _ => 1) (fun i => sd i * v i)) as C. cbv beta in C. rewrite (sumn_ext n (fun i => 1 * (sd i * v i)) (fun i => sd i * v i)) in C by (intros; ring).
    rewrite (sumn_const n (1 * 1)) in C. fold A Q in C. lra. }
  assert (0 <= A * A) by apply Rle_0_sqr. destruct (Rle_dec 0 r).
  - assert (0 < (1 - r) * Q) by (apply Rmult_lt_0_compat; lra). assert (0 <= r * (A * A)) by (apply Rmult_le_pos; lra). lra.
  - assert (r * (INR n * Q) <= r * (A * A)) by nra. assert (0 < (1 + (INR n - 1) * r) * Q) by (apply Rmult_lt_0_compat; lra). lra.
Qed.
Theorem constant_correlation_definite : forall eigh sk T dates names x fr log, (2 <= T)%nat -> (2 <= len names)%nat -> len dates = T -> (forall t, In t names -> len (x t) = T) -> 0 < fr ->
  (forall t, In t names -> 0 < sample_covariance (x t) (x t)) ->
  exists sh rows d, shrinkage_init (history T dates names x) true fr log = Ok sh /\ ledoit_wolf eigh sk sh "constant_correlation" = Ok (mkFrame names names rows, d) /\
    (0 < d -> -1 < (INR (len names) - 1) * mean_correlation (len names) (sample_matrix names x) -> mean_correlation (len names) (sample_matrix names x) < 1 -> definite (len names) rows).
Proof.
  intros eigh sk T dates names x fr log HT Hn Hd Hx Hfr Hp.
  destruct (constant_correlation_init eigh sk T dates names x fr log HT Hn Hd Hx ltac:(lra) Hp) as (sh & rows & d & E1 & E2 & Hd1 & Pr & _ & HD & He).
  exists sh, rows, d. split; [exact E1|]. split; [exact E2|]. intros Hpos R1 R2. set (n := len names) in *. set (V := sample_matrix names x) in *.
  destruct (sample_matrix_good T names x HT Hx) as [P1 _]. fold V n in P1.
  assert (HDp : forall i, (i < n)%nat -> 0 < entry V i i).
  { intros i Hi. unfold V. rewrite sample_matrix_labelled, labelled_entry by assumption. apply Hp, name_in, Hi. }
  apply (definite_mix n rows V (fun i j => if Nat.eqb i j then sqrt (entry V i i) * sqrt (entry V i i) else mean_correlation n V * (sqrt (entry V i i) * sqrt (entry V j j))) fr d Pr P1 Hfr ltac:(lra)).
  - intros i j Hi Hj. destruct (Nat.eqb_spec i j) as [->|Hne]; [rewrite HD by exact Hi; rewrite sqrt_sqrt by (left; auto); ring|apply He; assumption].
  - apply (constant_target_definite n (fun i => sqrt (entry V i i))); [exact Hn|lra|exact R2|]. intros i Hi. apply sqrt_lt_R0. auto.
Qed.
(** ** the single factor target *)
Theorem single_factor_definite : forall eigh sk T dates names x fr log, (2 <= T)%nat -> names <> [] -> len dates = T -> (forall t, In t names -> len (x t) = T) -> 0 < fr ->
  let m := market T names x in sample_covariance m m <> 0 ->
  exists sh rows d, shrinkage_init (history T dates names x) true fr log = Ok sh /\ ledoit_wolf eigh sk sh "single_factor" = Ok (mkFrame names names rows, d) /\
    (0 < d -> (forall t, In t names -> sample_covariance (x t) m * sample_covariance (x t) m < sample_covariance (x t) (x t) * sample_covariance m m) -> definite (len names) rows).
Proof.
  intros eigh sk T dates names x fr log HT Hn Hd Hx Hfr m Hm.
  destruct (single_factor_init eigh sk T dates names x fr log HT Hn Hd Hx ltac:(lra) Hm) as (sh & rows & d & E1 & E2 & Hd1 & Pr & _ & HD & He).
  exists sh, rows, d. split; [exact E1|]. split; [exact E2|]. intros Hpos Hc. set (n := len names) in *. set (V := sample_matrix names x) in *. fold m in He. pose proof (INR_ge2 T HT) as HI.
  destruct (sample_matrix_good T names x HT Hx) as [P1 _]. fold V n in P1.
  assert (Hmp : 0 < sample_covariance m m).
  { assert (0 <= sample_covariance m m); [|lra]. unfold m, sample_covariance. rewrite total_seq. apply Rmult_le_pos; [apply sumn_nonneg; intros; apply Rle_0_sqr|].
    unfold market. rewrite map_length, seq_length. left. apply Rinv_0_lt_compat. lra. }
  assert (Hi0 : 0 < / sample_covariance m m) by (apply Rinv_0_lt_compat; exact Hmp).
  apply (definite_mix n rows V (fun i j => if Nat.eqb i j then entry V i i else / sample_covariance m m * (sample_covariance (x (name names i)) m * sample_covariance (x (name names j)) m)) (fr * ((INR T - 1) / INR T)) d Pr P1).
  - apply Rmult_lt_0_compat; [exact Hfr|apply Rdiv_lt_0_compat; lra].
  - lra.
  - intros i j Hi Hj. destruct (Nat.eqb_spec i j) as [->|Hne]; [rewrite HD by exact Hi; ring|]. rewrite He by assumption. fold (name names i) (name names j). unfold Rdiv. ring.
  - intros v (i & Hi & Hv). rewrite (rank_one_diag n (fun i => sample_covariance (x (name names i)) m) (fun i => entry V i i)).
    assert (Hterm : forall j, (j < n)%nat -> 0 < entry V j j - / sample_covariance m m * (sample_covariance (x (name names j)) m * sample_covariance (x (name names j)) m)).
    { intros j Hj. specialize (Hc (name names j) (name_in names j Hj)). unfold V. rewrite sample_matrix_labelled, labelled_entry by exact Hj.
      set (b := sample_covariance (x (name names j)) m) in *. set (vj := sample_covariance (x (name names j)) (x (name names j))) in *. set (vm := sample_covariance m m) in *.
      assert (H1 : / vm * (b * b) < / vm * (vj * vm)) by (apply Rmult_lt_compat_l; lra). replace (/ vm * (vj * vm)) with vj in H1 by (field; lra). lra. }
    apply Rplus_le_lt_0_compat; [apply Rmult_le_pos; [lra|apply Rle_0_sqr]|]. apply (sumn_pos_one n _ i Hi).
    + intros j Hj. apply Rmult_le_pos; [left; auto|apply Rle_0_sqr].
    + apply Rmult_lt_0_compat; [auto|]. pose proof (Rsqr_pos_lt _ Hv) as S. exact S.
Qed.
(** ** an optimizer built from a positive definite table has one answer *)
Theorem definite_one_answer : forall names rows mi b w0 w1 o sv sv', definite (len names) rows -> ef_init mi (CIn (CovFrame names rows)) b w0 = (w1, Ok o) -> exact_solver sv -> exact_solver sv' ->
  same_answer (min_volatility sv w1 o) (min_volatility sv' w1 o) /\
  (forall rf, same_answer (max_sharpe sv rf w1 o) (max_sharpe sv' rf w1 o)) /\
  (forall m ra mn, e_mu o = Some m -> same_answer (max_quadratic_utility sv ra mn w1 o) (max_quadratic_utility sv' ra mn w1 o)) /\
  (forall m t mn, e_mu o = Some m -> same_answer (efficient_return sv t mn w1 o) (efficient_return sv' t mn w1 o)).
Proof.
  intros names rows mi b w0 w1 o sv sv' HD E Hs Hs'. destruct (ef_init_inv _ _ _ _ _ _ E) as [m [lb [ub [-> [Hs0 [Hb [-> ->]]]]]]].
  assert (Sq : square (len names) rows) by (apply (proj1 HD)).
  assert (Hlen : len (init_tickers m (CovFrame names rows)) = len names).
  { unfold init_shape_ok in Hs0. destruct m as [|s|l]; cbn in Hs0 |- *; try reflexivity. destruct Hs0 as [Hs1 _]. destruct Sq as [Sq _]. rewrite map_length in *. lia. }
  destruct (read_bounds_length _ _ _ _ Hb) as [L1 L2].
  pose proof (init_open m (CovFrame names rows) lb ub w0 []) as Ho. cbv zeta in Ho. rewrite app_nil_r in Ho. cbn [cov_values] in Ho. rewrite Hlen in *.
  specialize (Ho Sq Hs0 (proj1 Sq) L1 L2). set (w1 := init_world w0 (len names)) in *. set (o := init_ef m (CovFrame names rows) lb ub w0) in *.
  assert (Ho' : open_ef w1 o []) by exact Ho.
  assert (Hp : convex_problem w1 o []) by (split; [exact Ho'|split; constructor]).
  assert (HD' : definite (e_n o) (e_cov o)) by (unfold e_n, o; cbn [init_ef e_base b_tickers e_cov cov_values]; rewrite Hlen; exact HD).
  assert (Hf : forall name, fresh_name w1 o name) by (intros name p Hpp; cbn in Hpp; destruct Hpp).
  split; [exact (unique_min_volatility w1 o [] sv sv' Hp Hs Hs' (or_introl HD'))|]. split; [|split].
  - intros rf. apply (unique_sharpe w1 o []); try assumption; try constructor; reflexivity.
  - intros m' ra mn Hm. exact (unique_utility w1 o [] sv sv' mn Hp Hs Hs' m' Hm ra (Hf _) (or_introl HD')).
  - intros m' t mn Hm. exact (unique_return w1 o [] sv sv' mn Hp Hs Hs' m' Hm t (Hf _) (or_introl HD')).
Qed.
Corollary shrunk_one_answer : forall eigh T dates names x fr log d, (2 <= T)%nat -> len dates = T -> (forall t, In t names -> len (x t) = T) -> 0 < fr -> 0 < d <= 1 ->
  (exists t, In t names /\ 0 < sample_covariance (x t) (x t)) ->
  exists sh rows, shrinkage_init (history T dates names x) true fr log = Ok sh /\ shrunk_covariance eigh sh d = Ok (mkFrame names names rows) /\
  forall mi b w0 w1 o sv sv', ef_init mi (CIn (CovFrame names rows)) b w0 = (w1, Ok o) -> exact_solver sv -> exact_solver sv' ->
    same_answer (min_volatility sv w1 o) (min_volatility sv' w1 o) /\ (forall rf, same_answer (max_sharpe sv rf w1 o) (max_sharpe sv' rf w1 o)).
Proof.
  intros eigh T dates names x fr log d HT Hd Hx Hfr Hd1 Ht. destruct (shrunk_definite eigh T dates names x fr log d HT Hd Hx Hfr Hd1 Ht) as (sh & rows & E1 & E2 & D).
  exists sh, rows. split; [exact E1|]. split; [exact E2|]. intros mi b w0 w1 o sv sv' E Hs Hs'.
  destruct (definite_one_answer names rows mi b w0 w1 o sv sv' D E Hs Hs') as (A & B & _). auto.
Qed.
