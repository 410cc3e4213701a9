(** * Non-trivial cases for the properties about positive definite estimates (C135) *)
From Coq Require Import ZArith List String Bool Reals Lra Lia.
From Verif Require Import Num Py RBase PyLemmas MBase MFrame MRisk MConvex MEF SLin SBase SHRP SReturns SRisk SConvex SObj SCurve SUnique SExist Sums Mat PBase PConvex PEF PEF2 PEF3 PEF4 PEF5 PEFW PRisk PDown PDown2 PDown4 PDown5 PDownW PFrame PReturns PCov1 PCov2 PCov3 PCov4 PGaps3 PUnique PUniqueW PDefinite PDefinite2 PDefiniteW PropertiesExist PropertiesDefinite.
Import ListNotations.
Local Open Scope R_scope.

(** two uncorrelated assets over three days: the single factor intensity is 1/3, the constant correlation intensity is 1 *)
Definition pair_days : list label := [LInt 0; LInt 1; LInt 2].
Definition pair_returns (t : label) : list R := if label_eqb t (LStr "A") then [1/10; -1/10; 0] else [1/10; 1/10; -1/5].
Lemma pair_A : pair_returns (LStr "A") = [1/10; -1/10; 0]. Proof. reflexivity. Qed.
Lemma pair_B : pair_returns (LStr "B") = [1/10; 1/10; -1/5]. Proof. reflexivity. Qed.
Lemma sf_value : forall fr, exists M, single_factor (seen 3 pair_days twins pair_returns fr) = Ok (M, 1/3).
Proof.
  intros fr. unfold single_factor. change (sh_X (seen 3 pair_days twins pair_returns fr)) with (history 3 pair_days twins pair_returns).
  rewrite nan_history. unfold twins. cbn [seq map f_cols history]. rewrite !pair_A, !pair_B. cbn [nth List.length Nat.leb sumn entry INR Nat.ltb Nat.eqb].
  match goal with |- context [Reqb ?a 0] => assert (E : Reqb a 0 = false) end.
  { apply Reqb_false. match goal with |- ?a <> 0 => replace a with (2/300) by field end. lra. }
  rewrite E.
  match goal with |- context [xdiv ?a ?b] => assert (E2 : xdiv a b = Fin 1) end.
  { unfold xdiv. match goal with |- context [Reqb ?a 0] => replace a with (1/20000) by field end. rewrite (proj2 (Reqb_false _ _)) by lra.
    f_equal. match goal with |- ?a / _ = _ => replace a with (1/20000) by field end. field. }
  rewrite E2. cbn [xscale clamp01]. eexists. f_equal. f_equal. 
  replace (1 / (1 + 1 + 1)) with (1/3) by field. unfold Rmax, Rmin. repeat destruct (Rle_dec _ _); lra.
Qed.

Lemma pair_matrix : sample_matrix twins pair_returns = [[1/100; 0]; [0; 3/100]].
Proof.
  rewrite sample_matrix_labelled. unfold labelled, twins. cbn [f_rows map]. rewrite pair_A, pair_B. unfold sample_covariance, average. cbn.
  repeat (f_equal; try lra).
Qed.
Lemma cc_value : forall fr, exists M, constant_correlation (seen 3 pair_days twins pair_returns fr) = Ok (M, 1).
Proof.
  intros fr. unfold constant_correlation. change (sh_X (seen 3 pair_days twins pair_returns fr)) with (history 3 pair_days twins pair_returns).
  unfold seen. cbn [sh_S]. rewrite whole_table. cbn [rbind]. fold (sample_matrix twins pair_returns). rewrite pair_matrix.
  rewrite nan_history. unfold twins. cbn [seq map f_cols history]. rewrite !pair_A, !pair_B. cbn [nth List.length Nat.leb sumn entry INR Nat.ltb Nat.eqb forallb orb].
  cbn [seq forallb nth]. rewrite !(proj2 (Rltb_true _ _)) by lra. cbn [andb negb].
  assert (S1 : sqrt (1/100) <> 0) by (pose proof (sqrt_lt_R0 (1/100) ltac:(lra)); lra). assert (S2 : sqrt (3/100) <> 0) by (pose proof (sqrt_lt_R0 (3/100) ltac:(lra)); lra).
  assert (S3 : sqrt (1/100) * sqrt (1/100) = 1/100) by (apply sqrt_sqrt; lra). assert (S4 : sqrt (3/100) * sqrt (3/100) = 3/100) by (apply sqrt_sqrt; lra).
  rewrite S3, S4.
  match goal with |- context [(?a - (1 + 1)) / ?b] => replace ((a - (1 + 1)) / b) with 0 by (field; auto) end.
  match goal with |- context [xdiv ?a ?b] => assert (E2 : xdiv a b = PInf) end.
  { unfold xdiv. match goal with |- context [Reqb ?a 0] => replace a with 0 by field end. rewrite (proj2 (Reqb_true _ _)) by reflexivity.
    match goal with |- context [Rltb 0 ?a] => replace a with (2/15000) by (field; auto) end. rewrite (proj2 (Rltb_true _ _)) by lra. reflexivity. }
  rewrite E2. cbn [xscale clamp01]. eexists. reflexivity.
Qed.

Lemma pair_lengths : forall t, In t twins -> List.length (pair_returns t) = 3%nat.
Proof. intros t [<-|[<-|[]]]; reflexivity. Qed.
Lemma pair_market : market 3 twins pair_returns = [1/10; 0; -1/10].
Proof.
  unfold market, twins. cbn [seq map]. rewrite !pair_A, !pair_B. unfold average. cbn [nth total List.length INR].
  match goal with |- [?a; ?b; ?c] = _ => replace a with (1/10) by field; replace b with 0 by field; replace c with (-1/10) by field end. reflexivity.
Qed.
Example ex_c135_single_factor : forall eigh sk, exists sh rows, shrinkage_init (history 3 pair_days twins pair_returns) true 252 false = Ok sh /\
  ledoit_wolf eigh sk sh "single_factor" = Ok (mkFrame twins twins rows, 1/3) /\ definite 2 rows.
Proof.
  intros eigh sk. destruct (c135_single_factor eigh sk 3 pair_days twins pair_returns 252 false) as (sh & rows & d & E1 & E2 & H); try lia; try lra; try reflexivity; try discriminate; [exact pair_lengths| |].
  { rewrite pair_market. unfold sample_covariance, average. cbn. lra. }
  assert (d = 1/3).
  { rewrite init_history in E1 by (try discriminate; try reflexivity; try lia; exact pair_lengths). injection E1 as <-. destruct (sf_value 252) as [M EM]. unfold ledoit_wolf in E2. cbn [String.eqb Ascii.eqb Bool.eqb] in E2.
    rewrite EM in E2. cbn [rbind fst snd] in E2. destruct (format_annualize _ _ _) as [f|e]; [|discriminate E2]. cbn [rbind] in E2. injection E2 as _ E. exact (eq_sym E). }
  subst d. exists sh, rows. split; [exact E1|]. split; [exact E2|]. apply H; [lra|]. intros t Ht. rewrite pair_market.
  destruct Ht as [<-|[<-|[]]]; rewrite ?pair_A, ?pair_B; unfold sample_covariance, average; cbn; lra.
Qed.
Lemma pair_correlation : mean_correlation 2 (sample_matrix twins pair_returns) = 0.
Proof. rewrite pair_matrix. unfold mean_correlation. cbn. unfold Rdiv. ring. Qed.
Example ex_c135_constant : forall eigh sk, exists sh rows, shrinkage_init (history 3 pair_days twins pair_returns) true 252 false = Ok sh /\
  ledoit_wolf eigh sk sh "constant_correlation" = Ok (mkFrame twins twins rows, 1) /\ definite 2 rows.
Proof.
  intros eigh sk. destruct (c135_constant_correlation eigh sk 3 pair_days twins pair_returns 252 false) as (sh & rows & d & E1 & E2 & H); try lia; try lra; try reflexivity; try (cbn; lia); [exact pair_lengths| |].
  { intros t [<-|[<-|[]]]; rewrite ?pair_A, ?pair_B; unfold sample_covariance, average; cbn; lra. }
  assert (d = 1).
  { rewrite init_history in E1 by (try discriminate; try reflexivity; try lia; exact pair_lengths). injection E1 as <-. destruct (cc_value 252) as [M EM]. unfold ledoit_wolf in E2. cbn [String.eqb Ascii.eqb Bool.eqb] in E2.
    rewrite EM in E2. cbn [rbind fst snd] in E2. destruct (format_annualize _ _ _) as [f|e]; [|discriminate E2]. cbn [rbind] in E2. injection E2 as _ E. exact (eq_sym E). }
  subst d. exists sh, rows. split; [exact E1|]. split; [exact E2|]. change (List.length twins) with 2%nat in H. rewrite pair_correlation in H. apply H; lra.
Qed.
(** the two equal assets of c135_sample_refuted, shrunk a little *)
Example ex_c135_shrunk : forall eigh, exists sh rows o w' o' d, shrinkage_init (history 2 twin_days twins twin_returns) true 252 false = Ok sh /\
  shrunk_covariance eigh sh (1/5) = Ok (mkFrame twins twins rows) /\ definite 2 rows /\
  ef_init (MIn MuNone) (CIn (CovFrame twins rows)) (BPair (Some 0) (Some 1)) empty_world = (two_world, Ok o) /\ min_volatility best_solver two_world o = (w', o', Ok d).
Proof.
  intros eigh. destruct (c135_shrunk eigh 2 twin_days twins twin_returns 252 false (1/5)) as (sh & rows & E1 & E2 & D); try lia; try lra; try reflexivity.
  { exists (LStr "A"). split; [left; reflexivity|]. unfold twin_returns. rewrite twin_variance. lra. }
  change (List.length twins) with 2%nat in D. exists sh, rows. set (o := mkEF (mkBase twins None) None 0 None []
    [(0%nat, lower_con [Some 0; Some 0] 0); (1%nat, upper_con [Some 1; Some 1] 0)] [Some 0; Some 0] [Some 1; Some 1] None rows None None None).
  assert (Eo : ef_init (MIn MuNone) (CIn (CovFrame twins rows)) (BPair (Some 0) (Some 1)) empty_world = (two_world, Ok o)) by reflexivity.
  assert (Sq : square 2 rows) by apply (proj1 D). assert (Bd : SExist.bounded (e_lb o) /\ SExist.bounded (e_ub o)) by (split; repeat constructor; discriminate).
  assert (Sq' : square (List.length (cov_values (CovFrame twins rows))) (cov_values (CovFrame twins rows))) by (cbn [cov_values]; rewrite (proj1 Sq); exact Sq).
  destruct (proj2 (c106_min_volatility MuNone (CovFrame twins rows) (BPair (Some 0) (Some 1)) empty_world two_world o [] two_world o Eo Sq' (proj1 Sq) (Forall_nil _) eq_refl (proj1 Bd) (proj2 Bd) (Forall_nil _) best_solver best_solver_exact best_solver_complete)) as (w3 & o3 & d & E).
  - exists (fun _ => [1/2; 1/2]). split; [|split; [|split; [cbn; lra|constructor]]].
    + intros v Hv. change (w_sizes two_world) with [2%nat] in *. destruct v as [|v]; [reflexivity|cbn in Hv; lia].
    + split; apply Forall2_two; cbn; lra.
  - exists o, w3, o3, d. auto.
Qed.
(** three assets, two days: some position has no estimated risk and costs nothing *)
Example ex_c135_few : forall eigh, exists C y, sample_cov eigh (history 2 twin_days [LStr "A"; LStr "B"; LStr "C"] twin_returns) true 252 false "spectral" = Ok (mkFrame [LStr "A"; LStr "B"; LStr "C"] [LStr "A"; LStr "B"; LStr "C"] C) /\
  List.length y = 3%nat /\ (exists a, In a y /\ a <> 0) /\ total y = 0 /\ qform C y = 0.
Proof.
  intros eigh. destruct (c135_sample_singular eigh 2 twin_days [LStr "A"; LStr "B"; LStr "C"] twin_returns 252 false "spectral") as (C & E & _ & H); try lia; try lra; try reflexivity.
  destruct H as (y & L & N & S & Q); [cbn; lia|]. exists C, y. auto.
Qed.
