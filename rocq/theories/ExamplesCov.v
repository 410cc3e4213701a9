(** * Concrete cases for the theorems in PropertiesCov.v *)
From Coq Require Import ZArith List String Bool Reals Lra Lia.
From Verif Require Import Num Py RBase PyLemmas MFrame MHRP MReturns MRisk SLin SHRP SReturns SRisk Sums Mat PCov1 PropertiesCov.
Import ListNotations.
Local Open Scope R_scope.

Definition kA := LStr "A". Definition kB := LStr "B".
Definition dates3 := [LInt 1; LInt 2; LInt 3].
Definition xs (t : label) : list R := if label_eqb t kA then [1/10; 2/10; 3/10] else [1/10; 0; 5/10].
Lemma both_names : forall (P : label -> Prop), P kA -> P kB -> forall t, In t [kA; kB] -> P t.
Proof. intros P Ha Hb t [<-|[<-|[]]]; assumption. Qed.
Ltac calc := unfold sample_covariance, average, market, xs, kA, kB; cbn [label_eqb String.eqb Ascii.eqb Bool.eqb map seq List.length nth total INR average]; unfold average; cbn [map seq List.length nth total INR].

(** C70, C71, C74, C84: the table meets the hypotheses *)
Example ex_table : List.length dates3 = 3%nat /\ (forall t, In t [kA; kB] -> List.length (xs t) = 3%nat) /\ (forall t, In t [kA; kB] -> 0 < sample_covariance (xs t) (xs t)).
Proof. split; [reflexivity|]. split; [apply both_names; reflexivity|]. apply both_names; calc; lra. Qed.
Example ex_c70 : sample_covariance (xs kA) (xs kB) = 2 / 100 /\ sample_covariance (xs kA) (xs kA) = 1 / 100.
Proof. split; calc; field. Qed.
Example ex_c70_use : forall eigh, exists C, sample_cov eigh (history 3 dates3 [kA; kB] xs) true 252 false "spectral" = Ok C /\ entry (f_rows C) 0 1 = 504 / 100.
Proof.
  intros eigh. eexists. split; [apply c70_sample_cov; [lia|lra|apply ex_table]|]. unfold labelled, entry. cbn [f_rows map nth]. rewrite (proj1 ex_c70). lra.
Qed.
(** C71 *)
Example ex_c71 : semi 0 [-1; 1] [-2; -2] = 1.
Proof. unfold semi. cbn [List.length seq map nth total INR]. rewrite !Rmin_left, (Rmin_right (1 - 0)) by lra. field. Qed.
Example ex_c71_exp : ema_covariance 3 [0; 1] [1; 3] = 1 / 2.
Proof. unfold ema_covariance, decay_weight, average. cbn [List.length seq map nth total INR Nat.sub pow]. field. Qed.

(** C72: a symmetric matrix with the eigenvalues 1 and -1 *)
Definition badM : list (list R) := [[-7/25; 24/25]; [24/25; 7/25]].
Definition badV : list (list R) := [[4/5; -3/5]; [3/5; 4/5]].
Ltac two i := destruct i as [|[|i]]; [| |exfalso; lia].
Example ex_c72 : square 2 badM /\ symmetric 2 badM /\ is_psd badM = false /\ eigen_of 2 [[7/25; 24/25]; [24/25; -7/25]] [1; -1] badV.
Proof.
  split; [|split; [|split]].
  - split; [reflexivity|]. repeat (apply Forall_cons; [reflexivity|]). apply Forall_nil.
  - intros i j Hi Hj. two i; two j; reflexivity.
  - unfold is_psd, badM. cbn [List.length cholesky]. unfold entry, delta. cbn [nth Nat.eqb]. apply andb_false_iff. left. apply Rltb_false.
    assert (eps16 < 1 / 100); [|lra]. unfold eps16. apply Rmult_lt_reg_r with (10 ^ 16); [apply pow_lt; lra|]. rewrite Rinv_l by (apply pow_nonzero; lra). cbn [pow]. lra.
  - split; [reflexivity|]. split; [split; [reflexivity|repeat (apply Forall_cons; [reflexivity|]); apply Forall_nil]|].
    repeat split; intros i j Hi Hj; two i; two j; cbn; unfold entry, badV; cbn [nth]; field.
Qed.
Example ex_c72_eigen : eigen_of 2 badM [1; -1] [[3/5; 4/5]; [4/5; -3/5]].
Proof.
  split; [reflexivity|]. split; [split; [reflexivity|repeat (apply Forall_cons; [reflexivity|]); apply Forall_nil]|].
  repeat split; intros i j Hi Hj; two i; two j; cbn; unfold entry, badM; cbn [nth]; field.
Qed.
(** the matrix the spectral fix returns for it *)
Example ex_c72_use : exists F, fix_psd (fun _ => ([1; -1], [[3/5; 4/5]; [4/5; -3/5]])) badM "spectral" = Ok F /\ entry F 0 1 = 12/25 /\ entry F 0 0 = 9/25.
Proof.
  unfold fix_psd. rewrite (proj1 (proj2 (proj2 ex_c72))). cbn [String.eqb Ascii.eqb Bool.eqb]. eexists. split; [reflexivity|].
  split; rewrite array_entry by (cbn; lia); cbn [List.length badM sumn nth]; unfold entry; cbn [nth]; rewrite (proj2 (Rltb_true 0 1)), (proj2 (Rltb_false 0 (-1))) by lra; lra.
Qed.

(** C73 *)
Definition cc (t u : label) : R := if label_eqb t kA then (if label_eqb u kA then 4 else 3) else (if label_eqb u kA then 3 else 9).
Example ex_c73 : (forall t, In t [kA; kB] -> 0 < cc t t) /\ psd 2 (f_rows (labelled [kA; kB] cc)) /\ symmetric 2 (f_rows (labelled [kA; kB] cc)).
Proof.
  split; [apply both_names; cbn; lra|]. split; [split; [split; [reflexivity|repeat (apply Forall_cons; [reflexivity|]); apply Forall_nil]|]|].
  - intros [|a [|b [|]]] Hw; try discriminate Hw. unfold qform. cbn. assert (0 <= (2 * a + 3 / 2 * b) * (2 * a + 3 / 2 * b)) by apply Rle_0_sqr. assert (0 <= b * b) by apply Rle_0_sqr. lra.
  - intros i j Hi Hj. two i; two j; reflexivity.
Qed.
(** C75: the market moves *)
Example ex_c75 : sample_covariance (market 3 [kA; kB] xs) (market 3 [kA; kB] xs) <> 0.
Proof. calc. lra. Qed.
(** C83: one of two returns missing halves the semivariance *)
Example ex_c83 : semi_partial 2 0 [Some (-1); None] [Some (-1); None] = 1 / 2 /\ present [Some (-1); None] <> [].
Proof.
  split; [|discriminate]. rewrite (c83_missing_understates 2 0 [Some (-1); None] eq_refl) by discriminate. unfold present, semi. cbn [flat_map app List.length seq map nth total INR]. rewrite Rmin_left by lra. field.
Qed.
(** C85: prices of two assets with variation; the identity as an oracle *)
Definition pp (t : label) : list R := if label_eqb t kA then [1; 2; 3] else [1; 1; 2].
Example ex_c85 : (forall t, In t [kA; kB] -> Forall (fun v => 0 < v) (pp t)) /\
  (forall t, In t [kA; kB] -> 0 < sample_covariance (simple_returns (pp t)) (simple_returns (pp t))) /\
  sample_covariance (market 2 [kA; kB] (fun t => simple_returns (pp t))) (market 2 [kA; kB] (fun t => simple_returns (pp t))) <> 0 /\
  psd_oracle 2 (fun _ => ([[1; 0]; [0; 1]], 1 / 2)).
Proof.
  split; [apply both_names; repeat (apply Forall_cons; [cbn; lra|]); apply Forall_nil|].
  split; [apply both_names; unfold pp, kA, kB; cbn [label_eqb String.eqb Ascii.eqb Bool.eqb simple_returns]; calc; lra|].
  split; [unfold market, pp, kA, kB; cbn [label_eqb String.eqb Ascii.eqb Bool.eqb simple_returns map seq nth]; calc; lra|].
  intros X. cbn [fst]. split.
  - split; [split; [reflexivity|repeat (apply Forall_cons; [reflexivity|]); apply Forall_nil]|]. intros [|a [|b [|]]] Hw; try discriminate Hw. unfold qform. cbn.
    assert (0 <= a * a) by apply Rle_0_sqr. assert (0 <= b * b) by apply Rle_0_sqr. lra.
  - intros i j Hi Hj. two i; two j; reflexivity.
Qed.
