(** * Concrete cases for the theorems in PropertiesNames.v *)
From Coq Require Import ZArith List String Bool Reals Lra Lia Permutation.
From Verif Require Import Num Py RBase PyLemmas MBase MFrame MHRP MReturns MRisk SLin SHRP SHRP3 SHRP2 SReturns SRisk SShrink Sums PHRP3 PHRP5 ExamplesHRP PropertiesNames SConv.
Import ListNotations.
Local Open Scope R_scope.

(** C98, C99: prices of three assets on five dates; A and C move together, B on its own *)
Definition n3 := [tA; tB; tC].
Definition p5 (t : label) : list R := if label_eqb t tB then [1; 2; 4; 4; 4] else [1; 2; 2; 4; 4].
Definition x4 (t : label) : list R := simple_returns (p5 t).
Definition dates4 := [LInt 1; LInt 2; LInt 3; LInt 4].
Definition dates5 := [LInt 0; LInt 1; LInt 2; LInt 3; LInt 4].
Lemma x4A : x4 tA = [1; 0; 1; 0].
Proof. unfold x4, p5. cbn [label_eqb tA tB String.eqb Ascii.eqb Bool.eqb simple_returns]. repeat f_equal; field. Qed.
Lemma x4B : x4 tB = [1; 1; 0; 0].
Proof. unfold x4, p5. cbn [label_eqb tA tB String.eqb Ascii.eqb Bool.eqb simple_returns]. repeat f_equal; field. Qed.
Lemma x4C : x4 tC = [1; 0; 1; 0].
Proof. unfold x4, p5. cbn [label_eqb tC tB String.eqb Ascii.eqb Bool.eqb simple_returns]. repeat f_equal; field. Qed.
Lemma three_names : forall (P : label -> Prop), P tA -> P tB -> P tC -> forall t, In t n3 -> P t.
Proof. intros P Ha Hb Hc t [<-|[<-|[<-|[]]]]; assumption. Qed.
Example ex_c98_prices : (2 <= 4)%nat /\ n3 <> [] /\ List.length dates5 = 5%nat /\ (forall t, In t n3 -> List.length (p5 t) = 5%nat) /\ (forall t, In t n3 -> Forall (fun v => 0 < v) (p5 t)) /\ ~ In (LStr "mkt") n3.
Proof.
  split; [lia|]. split; [discriminate|]. split; [reflexivity|]. split; [apply three_names; reflexivity|].
  split; [apply three_names; repeat (apply Forall_cons; [cbn; lra|]); apply Forall_nil|].
  intros [H|[H|[H|[]]]]; discriminate H.
Qed.
Ltac comp := cbn [seq map nth total List.length INR Nat.eqb n3].
Lemma covAA : sample_covariance [1;0;1;0] [1;0;1;0] = 1 / 3. Proof. unfold sample_covariance, average. comp. field. Qed.
Lemma covAB : sample_covariance [1;0;1;0] [1;1;0;0] = 0. Proof. unfold sample_covariance, average. comp. field. Qed.
Lemma covBA : sample_covariance [1;1;0;0] [1;0;1;0] = 0. Proof. unfold sample_covariance, average. comp. field. Qed.
Lemma covBB : sample_covariance [1;1;0;0] [1;1;0;0] = 1 / 3. Proof. unfold sample_covariance, average. comp. field. Qed.
Ltac cov4 := rewrite ?x4A, ?x4B, ?x4C, ?covAA, ?covAB, ?covBA, ?covBB.
Example ex_c98_varies : forall t, In t n3 -> 0 < sample_covariance (x4 t) (x4 t).
Proof. apply three_names; cov4; lra. Qed.
(** average correlation 1/3: A and C have correlation 1, the other pairs 0 *)
Example ex_c99_mean_correlation : mean_correlation 3 (sample_matrix n3 x4) = 1 / 3.
Proof.
  unfold mean_correlation, sample_matrix, entry. comp. cov4.
  rewrite (sqrt_sqrt (1 / 3)) by lra. field.
Qed.
(** gamma = 4/27 *)
Example ex_c99_gamma : let xs i := x4 (nth i n3 (LInt 0)) in let s i j := sample_covariance (xs i) (xs j) in
  lw_gamma 3 s (fun i j => 1 / 3 * sqrt (s i i * s j j)) = 4 / 27.
Proof.
  cbv zeta. unfold lw_gamma, over_different, over_pairs. comp. cov4. rewrite (sqrt_square (1 / 3)) by lra. field.
Qed.
(** the market and the covariances with divisor T *)
Lemma market4 : market 4 n3 x4 = [1; 1 / 3; 2 / 3; 0].
Proof. unfold market, average. comp. cov4. comp. repeat f_equal; field. Qed.
Example ex_c99_market : plain_covariance 4 [1; 1 / 3; 2 / 3; 0] [1; 1 / 3; 2 / 3; 0] = 5 / 36 /\ sample_covariance [1; 1 / 3; 2 / 3; 0] [1; 1 / 3; 2 / 3; 0] = 5 / 27 /\ Forall (fun v => -1 < v) [1; 1 / 3; 2 / 3; 0].
Proof.
  split; [unfold plain_covariance, mean_over, deviation, average; comp; field|]. split; [unfold sample_covariance, average; comp; field|].
  repeat (apply Forall_cons; [lra|]). apply Forall_nil.
Qed.
Lemma pAM : plain_covariance 4 [1;0;1;0] [1; 1 / 3; 2 / 3; 0] = 1 / 6. Proof. unfold plain_covariance, mean_over, deviation, average. comp. field. Qed.
Lemma pBM : plain_covariance 4 [1;1;0;0] [1; 1 / 3; 2 / 3; 0] = 1 / 12. Proof. unfold plain_covariance, mean_over, deviation, average. comp. field. Qed.
Lemma pAA : plain_covariance 4 [1;0;1;0] [1;0;1;0] = 1 / 4. Proof. unfold plain_covariance, mean_over, deviation, average. comp. field. Qed.
Lemma pAB : plain_covariance 4 [1;0;1;0] [1;1;0;0] = 0. Proof. unfold plain_covariance, mean_over, deviation, average. comp. field. Qed.
Lemma pBA : plain_covariance 4 [1;1;0;0] [1;0;1;0] = 0. Proof. unfold plain_covariance, mean_over, deviation, average. comp. field. Qed.
Example ex_c99_gamma_market : let xs i := x4 (nth i n3 (LInt 0)) in let m := market 4 n3 x4 in
  let b i := plain_covariance 4 (xs i) m in let v := plain_covariance 4 m m in
  lw_gamma 3 (fun i j => plain_covariance 4 (xs i) (xs j)) (fun i j => b i * b j / v) <> 0.
Proof.
  cbv zeta. rewrite market4. unfold lw_gamma, over_different, over_pairs. comp. rewrite ?x4A, ?x4B, ?x4C, ?pAM, ?pBM, ?pAA, ?pAB, ?pBA, (proj1 ex_c99_market). lra.
Qed.
(** the constant-correlation intensity of these data: not clipped to 0 or 1 unless the formula says so *)
Example ex_c99_use : forall eigh sk, exists sh F d, shrinkage_init (history 4 dates4 n3 x4) true 252 false = Ok sh /\ ledoit_wolf eigh sk sh "constant_correlation" = Ok (F, d) /\ 0 <= d <= 1.
Proof.
  intros eigh sk. destruct (c99_constant_correlation eigh sk 4 dates4 n3 x4 252 false) as (sh & F & H1 & H2);
    [lia|cbn; lia|reflexivity|apply three_names; cov4; reflexivity|lra|exact ex_c98_varies| |].
  - cbv zeta. change (List.length n3) with 3%nat. rewrite ex_c99_mean_correlation. intros E. pose proof ex_c99_gamma as G. cbv zeta in G. rewrite G in E. lra.
  - exists sh, F. eexists. split; [exact H1|]. split; [exact H2|]. split; [apply Rmax_l|]. apply Rmax_lub; [lra|apply Rmin_l].
Qed.
(** C98: the exponential average stays above -1; a method name nobody documents *)
Example ex_c98_ema : forall t, In t n3 -> -1 < ema_value 500 (x4 t).
Proof. apply three_names; cov4; unfold ema_value, decay_weight; comp; cbn [pow Nat.sub]; lra. Qed.
Example ex_c98_unknown : ~ In "mean_return"%string ["mean_historical_return"; "ema_historical_return"; "capm_return"]%string /\ ~ In "constant"%string ["constant_variance"; "single_factor"; "constant_correlation"]%string.
Proof. split; intros [H|[H|[H|[]]]]; discriminate H. Qed.
Example ex_c98_oracle : psd 3 [[1; 0; 0]; [0; 1; 0]; [0; 0; 1]] /\ symmetric 3 [[1; 0; 0]; [0; 1; 0]; [0; 0; 1]].
Proof.
  split; [split; [split; [reflexivity|repeat (apply Forall_cons; [reflexivity|]); apply Forall_nil]|]|].
  - intros [|a [|b [|c [|]]]] Hw; try discriminate Hw. unfold qform. cbn. assert (0 <= a * a) by apply Rle_0_sqr. assert (0 <= b * b) by apply Rle_0_sqr. assert (0 <= c * c) by apply Rle_0_sqr. lra.
  - intros i j Hi Hj. destruct i as [|[|[|i]]]; [| | |exfalso; lia]; (destruct j as [|[|[|j]]]; [| | |exfalso; lia]); reflexivity.
Qed.

(** C81: an asset called mkt *)
Definition nm := [tA; LStr "mkt"].
Definition xm (t : label) : list R := if label_eqb t tA then [1; 0] else [1 / 2; 0].
Example ex_c81_overwritten : NoDup nm /\ In (LStr "mkt") nm /\ (forall t, In t nm -> List.length (xm t) = 2%nat) /\
  market 2 nm xm = [3 / 4; 0] /\ sample_covariance [3 / 4; 0] [3 / 4; 0] = 9 / 32 /\ filter (fun t => negb (label_eqb t (LStr "mkt"))) nm = [tA].
Proof.
  split; [repeat constructor; cbn; intuition discriminate|]. split; [right; left; reflexivity|]. split; [intros t [<-|[<-|[]]]; reflexivity|].
  split; [unfold market, average, xm, nm, tA; cbn [map seq nth label_eqb String.eqb Ascii.eqb Bool.eqb total List.length INR]; f_equal; [field|f_equal; field]|].
  split; [unfold sample_covariance, average; comp; field|reflexivity].
Qed.

(** C100: the leaves of the linkage matrix of ExamplesHRP.v, and the cluster (0, 2) within them *)
Example ex_c100 : gathered 3 link3 4 [1; 0; 2]%nat /\ gathered 3 link3 3 [0; 2]%nat.
Proof.
  assert (H : gathered 3 link3 3 [0; 2]%nat).
  { apply (gathered_two 3 link3 0 0 2 2 [0]%nat [2]%nat); [reflexivity|apply gathered_one; lia|apply gathered_one; lia]. }
  split; [|exact H]. apply (gathered_two 3 link3 1 1 3 3 [1]%nat [0; 2]%nat); [reflexivity|apply gathered_one; lia|exact H].
Qed.
Example ex_c100_distances : pair_distances (fun t u => if label_eqb t u then 0 else if label_eqb t tA then 1 else 2) n3 = [1; 1; 2].
Proof. reflexivity. Qed.
Example ex_c100_distance : correlation_distance (1 / 2) = sqrt (1 / 4) /\ correlation_distance 1 = 0.
Proof.
  unfold correlation_distance. split; [f_equal; rewrite Rmin_right, Rmax_right by lra; lra|].
  replace ((1 - 1) / 2) with 0 by field. rewrite Rmin_right, Rmax_right by lra. apply sqrt_0.
Qed.
(** C101: a run on the two assets of ExamplesHRP.v: weights (1/2, 1/2), annual variance 252 * 3/400 *)
Example ex_c101 : qform (f_rows (labelled [tA; tB] (fun t u => sample_covariance (x2 t) (x2 u) * 252))) [1 / 2; 1 / 2] = 252 * (3 / 400).
Proof. unfold qform, labelled. cbn. unfold sample_covariance, average, x2. cbn [label_eqb tA tB String.eqb Ascii.eqb Bool.eqb List.length seq map nth total INR]. field. Qed.
Example ex_c101_use : forall lk, linkage_valid lk "single" 2 -> exists h0 h d, hrp_init (HRetFrame (history 3 [LInt 1; LInt 2; LInt 3] [tA; tB] x2)) HCovNone = Ok h0 /\
  hrp_optimize lk "single" h0 = (h, Ok d) /\ (b_weights (h_base h) = Some [1 / 2; 1 / 2] -> exists r s, hrp_performance h 0 252 = Ok (Some r, s, Some ((r - 0) / s)) /\ s * s = 252 * (3 / 400)).
Proof.
  intros lk Hl. destruct (c100_returns lk "single" 3 [LInt 1; LInt 2; LInt 3] [tA; tB] x2 HCovNone) as (h0 & h & d & ix & w & E0 & E & _);
    [left; reflexivity|cbn; lia|repeat constructor; cbn; intuition discriminate|lia|intros t [<-|[<-|[]]]; reflexivity|exact ex_c42_returns|exact Hl|].
  exists h0, h, d. split; [exact E0|]. split; [exact E|]. intros Hw.
  destruct (c101_returns 3 [LInt 1; LInt 2; LInt 3] [tA; tB] x2 HCovNone h0 [1 / 2; 1 / 2] 0 252) with (h := h) as (r & s & A & _ & _ & B).
  - lia.
  - intros t [<-|[<-|[]]]; reflexivity.
  - exact E0.
  - reflexivity.
  - rewrite ex_c101. lra.
  - apply (c101_inputs_kept _ _ _ _ _ E).
  - exact Hw.
  - exists r, s. split; [exact A|]. rewrite B. exact ex_c101.
Qed.

(** C100: a method scipy knows and one it does not know *)
Example ex_c100_methods : known_method "ward" /\ ~ known_method "wards".
Proof. unfold known_method. split; [tauto|intuition discriminate]. Qed.
