(** * risk_matrix, and matrices estimated from tables with missing values *)
From Coq Require Import ZArith List String Bool Reals Lra Lia Arith.
From Verif Require Import Num Py RBase PyLemmas MFrame MHRP MReturns MRisk SLin SHRP SReturns SRisk Sums Mat PBase PHRP2 PHRP3 PFrame PReturns PReturns3 PCov1 PCov2 PCov3.
Import ListNotations.
Local Open Scope R_scope.

Lemma both_swap : forall x y, both y x = map (fun ab => (snd ab, fst ab)) (both x y).
Proof.
  induction x as [|a x IH]; intros y; [destruct y as [|[b|] y]; reflexivity|]. destruct y as [|b y]; [destruct a; reflexivity|]. destruct a, b; cbn [both map fst snd]; rewrite IH; reflexivity.
Qed.
Lemma pair_cov_sym : forall x y, pair_cov x y = pair_cov y x.
Proof.
  intros x y. unfold pair_cov. rewrite (both_swap x y), map_length. destruct (_ <=? 1)%nat; [reflexivity|]. do 2 f_equal.
  unfold codev. rewrite !map_map. cbn [fst snd]. f_equal. apply map_ext. intros [a b]. cbn [fst snd]. apply Rmult_comm.
Qed.
Lemma all_some_length : forall {X} (l : list (option X)) r, all_some l = Some r -> len r = len l /\ forall i, nth_error l i = option_map Some (nth_error r i).
Proof.
  induction l as [|a l IH]; intros r H; [injection H as <-; split; [reflexivity|intros [|i]; reflexivity]|].
  destruct a as [a|]; [|discriminate H]. cbn [all_some] in H. destruct (all_some l) as [r'|] eqn:E; [|discriminate H]. injection H as <-. destruct (IH r' eq_refl) as [I1 I2].
  split; [cbn; rewrite I1; reflexivity|]. intros [|i]; [reflexivity|apply I2].
Qed.
Lemma whole_pairwise : forall g f C, (forall x y, g x y = g y x) -> whole (f_rows (pairwise g f)) = Ok C -> square (len (f_cols f)) C /\ symmetric (len (f_cols f)) C.
Proof.
  intros g f C Hg H. unfold whole, pairwise in H. cbn [f_rows] in H. set (cs := columns f) in *. assert (HL : len cs = len (f_cols f)) by (unfold cs, columns; rewrite map_length, seq_length; reflexivity).
  destruct (all_some _) as [r|] eqn:E; [|discriminate H]. injection H as <-. apply all_some_length in E. destruct E as [E1 E2]. rewrite !map_length in E1.
  assert (HR : forall i row, nth_error r i = Some row -> exists x, nth_error cs i = Some x /\ all_some (map (fun y => g x y) cs) = Some row).
  { intros i row Hr. specialize (E2 i). rewrite Hr in E2. cbn [option_map] in E2. rewrite map_map, nth_error_map in E2. destruct (nth_error cs i) as [x|]; [|discriminate E2]. cbn [option_map] in E2. injection E2 as E2. exists x. auto. }
  assert (HE : forall i j, (i < len cs)%nat -> (j < len cs)%nat -> exists x y, nth_error cs i = Some x /\ nth_error cs j = Some y /\ g x y = Some (entry r i j)).
  { intros i j Hi Hj. destruct (nth_error r i) as [row|] eqn:Er; [|apply nth_error_None in Er; lia]. destruct (HR i row Er) as (x & Hx & Hrow). apply all_some_length in Hrow. destruct Hrow as [L1 L2]. rewrite map_length in L1.
    specialize (L2 j). rewrite nth_error_map in L2. destruct (nth_error cs j) as [y|] eqn:Ey; [|apply nth_error_None in Ey; lia]. destruct (nth_error row j) as [v|] eqn:Ev; [|apply nth_error_None in Ev; lia].
    cbn [option_map] in L2. injection L2 as L2. exists x, y. split; [exact Hx|]. split; [reflexivity|]. rewrite L2. f_equal. unfold entry. rewrite (nth_error_nth _ _ [] Er), (nth_error_nth _ _ 0 Ev). reflexivity. }
  rewrite <- HL. split.
  - split; [exact E1|]. apply Forall_forall. intros row Hr. apply In_nth_error in Hr. destruct Hr as [i Hi]. destruct (HR i row Hi) as (x & _ & Hrow). apply all_some_length in Hrow. rewrite (proj1 Hrow), map_length. reflexivity.
  - intros i j Hi Hj. destruct (HE i j Hi Hj) as (a & b & A1 & A2 & A3). destruct (HE j i Hj Hi) as (b' & a' & B1 & B2 & B3). assert (b' = b) by congruence. assert (a' = a) by congruence. subst. rewrite Hg in A3. congruence.
Qed.
Lemma entry_scale : forall k M i j, entry (scale_rows k M) i j = entry M i j * k.
Proof.
  intros k M i j. unfold entry, scale_rows. change (@nil R) with (map (fun x => x * k) []) at 1. rewrite map_nth. rewrite <- (Rmult_0_l k) at 1. apply (map_nth (fun x => x * k)).
Qed.
Lemma scale_square : forall k n M, square n M -> square n (scale_rows k M).
Proof. intros k n M [H1 H2]. split; [unfold scale_rows; rewrite map_length; exact H1|]. unfold scale_rows. apply Forall_map. eapply Forall_impl; [|exact H2]. intros row H. cbv beta. rewrite map_length. exact H. Qed.
(** whatever the data, a result of sample_cov is symmetric and positive semidefinite up to 1e-16 *)
Theorem sample_cov_any : forall eigh returns fr log fm C, whole (f_rows (frame_cov returns)) = Ok C -> fm = "spectral"%string \/ fm = "diag"%string ->
  let n := len (f_cols returns) in let M := scale_rows fr C in
  eigen_of n M (fst (eigh M)) (snd (eigh M)) ->
  exists rows, sample_cov eigh returns true fr log fm = Ok (mkFrame (f_cols returns) (f_cols returns) rows) /\ symmetric n rows /\ nearly_psd eps16 n rows.
Proof.
  intros eigh returns fr log fm C HC Hfm n M He. destruct (whole_pairwise pair_cov returns C pair_cov_sym HC) as [S1 S2]. fold n in S1, S2.
  assert (Q1 : square n M) by (apply scale_square; exact S1). assert (Q2 : symmetric n M) by (intros i j Hi Hj; unfold M; rewrite !entry_scale, (S2 i j Hi Hj); reflexivity).
  unfold sample_cov, get_returns. cbn [rbind]. rewrite HC. cbn [rbind]. unfold fixed_frame. fold M.
  destruct Hfm as [-> | ->].
  - destruct (fix_spectral eigh n M Q1 Q2 He) as (F & E & F1 & F2 & _). rewrite E. cbn [rbind]. exists F. auto.
  - destruct (fix_diag eigh n M Q1 Q2 He) as (F & E & F1 & F2 & _). rewrite E. cbn [rbind]. exists F. auto.
Qed.

(** ** risk_matrix on complete prices *)
Lemma oracle_good : forall eigh T dates names x fr M, 0 <= fr -> psd (len names) M -> symmetric (len names) M ->
  exists rows, format_annualize eigh (seen T dates names x fr) M = Ok (mkFrame names names rows) /\ psd (len names) rows /\ symmetric (len names) rows.
Proof.
  intros eigh T dates names x fr M Hfr P1 P2. rewrite <- (array_self (len names) M) by apply P1.
  destruct (annualize_good eigh T dates names x fr (len names) (entry M) eq_refl Hfr) as (E & Q); [intros; apply psd_bil; exact P1|exact P2|]. eexists. split; [exact E|exact Q].
Qed.
Theorem risk_matrix_good : forall eigh sk_lw sk_oas T dates names p, (2 <= T)%nat -> names <> [] -> len dates = S T ->
  (forall t, In t names -> len (p t) = S T) -> (forall t, In t names -> Forall (fun v => 0 < v) (p t)) ->
  psd_oracle (len names) sk_lw -> psd_oracle (len names) sk_oas ->
  (forall t, In t names -> 0 < sample_covariance (simple_returns (p t)) (simple_returns (p t))) ->
  let m := market T names (fun t => simple_returns (p t)) in sample_covariance m m <> 0 -> (2 <= len names)%nat ->
  forall method, In method known_methods ->
  exists rows, risk_matrix eigh sk_lw sk_oas (history (S T) dates names p) method = Ok (mkFrame names names rows) /\ psd (len names) rows /\ symmetric (len names) rows.
Proof.
  intros eigh sk1 sk2 T dates names p HT Hn Hd Hl Hp Hs1 Hs2 Hv m Hm H2 method Hin.
  set (x := fun t => simple_returns (p t)) in *.
  assert (Hx : forall t, In t names -> len (x t) = T) by (intros t Ht; unfold x; rewrite simple_returns_length, (Hl t Ht); lia).
  assert (Hr : returns_from_prices (history (S T) dates names p) false = Ok (history T (tl dates) names x)) by (apply returns_history; auto; intros; apply pos_nonzero; auto).
  assert (Htl : len (tl dates) = T) by (destruct dates; [discriminate Hd|injection Hd; auto]).
  assert (HI : shrinkage_init (history (S T) dates names p) false 252 false = Ok (seen T (tl dates) names x 252)).
  { pose proof (init_history T (tl dates) names x 252 false Hn Htl HT Hx) as E. unfold shrinkage_init, get_returns in *. rewrite Hr. exact E. }
  assert (Hfr : 0 <= 252) by lra.
  assert (LW : forall t, (exists rows d, ledoit_wolf eigh sk1 (seen T (tl dates) names x 252) t = Ok (mkFrame names names rows, d) /\ psd (len names) rows /\ symmetric (len names) rows) ->
    exists rows, (do sh <- shrinkage_init (history (S T) dates names p) false 252 false ; do r <- ledoit_wolf eigh sk1 sh t ; Ok (fst r)) = Ok (mkFrame names names rows) /\ psd (len names) rows /\ symmetric (len names) rows).
  { intros t (rows & d & E & Q). exists rows. rewrite HI. cbn [rbind]. rewrite E. split; [reflexivity|exact Q]. }
  assert (CV : exists rows d, ledoit_wolf eigh sk1 (seen T (tl dates) names x 252) "constant_variance" = Ok (mkFrame names names rows, d) /\ psd (len names) rows /\ symmetric (len names) rows).
  { unfold ledoit_wolf. cbn [String.eqb Ascii.eqb Bool.eqb rbind]. destruct (Hs1 (nan_to_num (sh_X (seen T (tl dates) names x 252)))) as [A1 A2].
    destruct (oracle_good eigh T (tl dates) names x 252 _ Hfr A1 A2) as (rows & E & Q). exists rows, (snd (sk1 (nan_to_num (sh_X (seen T (tl dates) names x 252))))). rewrite E. split; [reflexivity|exact Q]. }
  assert (SC : exists rows, sample_cov eigh (history (S T) dates names p) false 252 false "spectral" = Ok (mkFrame names names rows) /\ psd (len names) rows /\ symmetric (len names) rows).
  { rewrite (sample_cov_prices eigh T dates names p 252 "spectral" HT Hfr Hn Hd Hl Hp false). eexists. split; [reflexivity|]. exact (sample_good T names x 252 HT Hfr Hx). }
  assert (SV : exists rows, semicovariance eigh (history (S T) dates names p) false (79 / 10 ^ 6) 252 false "spectral" = Ok (mkFrame names names rows) /\ psd (len names) rows /\ symmetric (len names) rows).
  { destruct (semicovariance_complete eigh T (tl dates) names x (79 / 10 ^ 6) 252 false "spectral" ltac:(lia) Hfr Hx) as (E & Q). eexists. split; [|exact Q]. unfold semicovariance, get_returns in *. rewrite Hr. exact E. }
  assert (EC : exists rows, exp_cov eigh (history (S T) dates names p) false 180 252 false "spectral" = Ok (mkFrame names names rows) /\ psd (len names) rows /\ symmetric (len names) rows).
  { destruct (exp_cov_complete eigh T (tl dates) names x 180 252 false "spectral" ltac:(lia) ltac:(lra) Hfr Hx) as (E & Q). eexists. split; [|exact Q]. unfold exp_cov, get_returns in *. rewrite Hr. exact E. }
  assert (SF : exists rows d, ledoit_wolf eigh sk1 (seen T (tl dates) names x 252) "single_factor" = Ok (mkFrame names names rows, d) /\ psd (len names) rows /\ symmetric (len names) rows).
  { destruct (single_factor_good eigh sk1 T (tl dates) names x 252 HT Hn Hx Hfr Hm) as (rows & d & E & _ & Q1 & Q2 & _). exists rows, d. auto. }
  assert (CC : exists rows d, ledoit_wolf eigh sk1 (seen T (tl dates) names x 252) "constant_correlation" = Ok (mkFrame names names rows, d) /\ psd (len names) rows /\ symmetric (len names) rows).
  { destruct (constant_correlation_good eigh sk1 T (tl dates) names x 252 HT H2 Hx Hfr Hv) as (rows & d & E & _ & Q1 & Q2 & _). exists rows, d. auto. }
  assert (OA : exists rows, (do sh <- shrinkage_init (history (S T) dates names p) false 252 false ; do r <- oracle_approximating eigh sk2 sh ; Ok (fst r)) = Ok (mkFrame names names rows) /\ psd (len names) rows /\ symmetric (len names) rows).
  { rewrite HI. cbn [rbind]. unfold oracle_approximating. destruct (Hs2 (nan_to_num (sh_X (seen T (tl dates) names x 252)))) as [A1 A2].
    destruct (oracle_good eigh T (tl dates) names x 252 _ Hfr A1 A2) as (rows & E & Q). exists rows. rewrite E. split; [reflexivity|exact Q]. }
  unfold risk_matrix. unfold known_methods in Hin. cbn [In] in Hin.
  repeat (destruct Hin as [<-|Hin]); try contradiction Hin; cbn [String.eqb Ascii.eqb Bool.eqb orb]; auto.
Qed.
Theorem risk_matrix_unknown : forall eigh sk_lw sk_oas prices method, ~ In method known_methods -> risk_matrix eigh sk_lw sk_oas prices method = Err NotImplementedError.
Proof.
  intros eigh sk1 sk2 prices method H. unfold known_methods in H. cbn [In] in H. unfold risk_matrix.
  repeat match goal with |- context [String.eqb method ?s] => destruct (String.eqb_spec method s); [exfalso; apply H; subst; tauto|] end. reflexivity.
Qed.

(** ** the statements with the constructor *)
Theorem shrunk_init : forall eigh T dates names x fr log d, (2 <= T)%nat -> names <> [] -> len dates = T -> (forall t, In t names -> len (x t) = T) -> 0 <= fr -> 0 <= d <= 1 ->
  let n := len names in let V := sample_matrix names x in
  exists sh rows, shrinkage_init (history T dates names x) true fr log = Ok sh /\ shrunk_covariance eigh sh d = Ok (mkFrame names names rows) /\ square n rows /\
    (forall i j, (i < n)%nat -> (j < n)%nat -> entry rows i j = fr * (d * (if Nat.eqb i j then trace n V / INR n else 0) + (1 - d) * entry V i j)) /\
    trace n rows = fr * trace n V /\ psd n rows /\ symmetric n rows.
Proof.
  intros eigh T dates names x fr log d HT Hn Hd Hx Hfr Hd1 n V. destruct (shrunk_good eigh T dates names x fr d HT Hn Hx Hfr Hd1) as (rows & H).
  exists (seen T dates names x fr), rows. split; [apply init_history; assumption|exact H].
Qed.
Theorem shrunk_ends : forall eigh T dates names x fr log fm, (2 <= T)%nat -> names <> [] -> len dates = T -> (forall t, In t names -> len (x t) = T) -> 0 <= fr ->
  exists sh, shrinkage_init (history T dates names x) true fr log = Ok sh /\
    shrunk_covariance eigh sh 0 = sample_cov eigh (history T dates names x) true fr log fm /\
    exists c rows, shrunk_covariance eigh sh 1 = Ok (mkFrame names names rows) /\ square (len names) rows /\
      forall i j, (i < len names)%nat -> (j < len names)%nat -> entry rows i j = if Nat.eqb i j then c else 0.
Proof.
  intros eigh T dates names x fr log fm HT Hn Hd Hx Hfr. exists (seen T dates names x fr). split; [apply init_history; assumption|].
  split; [apply shrunk_zero; assumption|apply shrunk_one; assumption].
Qed.
Theorem single_factor_init : forall eigh sk T dates names x fr log, (2 <= T)%nat -> names <> [] -> len dates = T -> (forall t, In t names -> len (x t) = T) -> 0 <= fr ->
  let n := len names in let V := sample_matrix names x in let m := market T names x in let k := fr * ((INR T - 1) / INR T) in
  sample_covariance m m <> 0 ->
  exists sh rows d, shrinkage_init (history T dates names x) true fr log = Ok sh /\ ledoit_wolf eigh sk sh "single_factor" = Ok (mkFrame names names rows, d) /\ 0 <= d <= 1 /\
    psd n rows /\ symmetric n rows /\
    (forall i, (i < n)%nat -> entry rows i i = k * entry V i i) /\
    (forall i j, (i < n)%nat -> (j < n)%nat -> i <> j -> entry rows i j =
       k * (d * (sample_covariance (x (nth i names (LInt 0))) m * sample_covariance (x (nth j names (LInt 0))) m / sample_covariance m m) + (1 - d) * entry V i j)).
Proof.
  intros eigh sk T dates names x fr log HT Hn Hd Hx Hfr n V m k Hm. destruct (single_factor_good eigh sk T dates names x fr HT Hn Hx Hfr Hm) as (rows & d & H).
  exists (seen T dates names x fr), rows, d. split; [apply init_history; assumption|exact H].
Qed.
(** hence every variance is smaller than the one sample_cov reports *)
Theorem single_factor_smaller : forall eigh sk T dates names x fr log fm, (2 <= T)%nat -> names <> [] -> len dates = T -> (forall t, In t names -> len (x t) = T) -> 0 < fr ->
  let m := market T names x in sample_covariance m m <> 0 ->
  exists sh F d C, shrinkage_init (history T dates names x) true fr log = Ok sh /\ ledoit_wolf eigh sk sh "single_factor" = Ok (F, d) /\
    sample_cov eigh (history T dates names x) true fr log fm = Ok C /\
    forall i, (i < len names)%nat -> 0 < entry (f_rows C) i i -> entry (f_rows F) i i < entry (f_rows C) i i.
Proof.
  intros eigh sk T dates names x fr log fm HT Hn Hd Hx Hfr m Hm. destruct (single_factor_init eigh sk T dates names x fr log HT Hn Hd Hx (Rlt_le _ _ Hfr) Hm) as (sh & rows & d & E1 & E2 & _ & _ & _ & HD & _).
  exists sh, (mkFrame names names rows), d, (labelled names (fun t u => sample_covariance (x t) (x u) * fr)). split; [exact E1|]. split; [exact E2|]. split; [apply sample_cov_complete; auto; lra|].
  intros i Hi Hp. cbn [f_rows]. rewrite HD by exact Hi. rewrite labelled_entry in * by assumption. rewrite sample_matrix_labelled, labelled_entry by assumption.
  pose proof (INR_ge2 T HT). set (v := sample_covariance (x (name names i)) (x (name names i))) in *. replace (fr * ((INR T - 1) / INR T) * v) with (v * fr * (1 - / INR T)) by (field; lra).
  assert (0 < / INR T) by (apply Rinv_0_lt_compat; lra). nra.
Qed.
Theorem constant_correlation_init : forall eigh sk T dates names x fr log, (2 <= T)%nat -> (2 <= len names)%nat -> len dates = T -> (forall t, In t names -> len (x t) = T) -> 0 <= fr ->
  let n := len names in let V := sample_matrix names x in
  (forall t, In t names -> 0 < sample_covariance (x t) (x t)) ->
  exists sh rows d, shrinkage_init (history T dates names x) true fr log = Ok sh /\ ledoit_wolf eigh sk sh "constant_correlation" = Ok (mkFrame names names rows, d) /\ 0 <= d <= 1 /\
    psd n rows /\ symmetric n rows /\
    (forall i, (i < n)%nat -> entry rows i i = fr * entry V i i) /\
    (forall i j, (i < n)%nat -> (j < n)%nat -> i <> j -> entry rows i j =
       fr * (d * (mean_correlation n V * (sqrt (entry V i i) * sqrt (entry V j j))) + (1 - d) * entry V i j)).
Proof.
  intros eigh sk T dates names x fr log HT Hn Hd Hx Hfr n V Hp. destruct (constant_correlation_good eigh sk T dates names x fr HT Hn Hx Hfr Hp) as (rows & d & H).
  exists (seen T dates names x fr), rows, d. split; [apply init_history; try assumption|exact H]. intros ->. cbn in Hn. lia.
Qed.
Theorem constant_correlation_two_init : forall eigh sk T dates names x fr log fm, (2 <= T)%nat -> len names = 2%nat -> len dates = T -> (forall t, In t names -> len (x t) = T) -> 0 <= fr ->
  (forall t, In t names -> 0 < sample_covariance (x t) (x t)) ->
  exists sh F d, shrinkage_init (history T dates names x) true fr log = Ok sh /\
    sample_cov eigh (history T dates names x) true fr log fm = Ok F /\ ledoit_wolf eigh sk sh "constant_correlation" = Ok (F, d).
Proof.
  intros eigh sk T dates names x fr log fm HT H2 Hd Hx Hfr Hp. destruct (constant_correlation_two eigh sk T dates names x fr log fm HT H2 Hx Hfr Hp) as (d & E).
  rewrite sample_cov_complete in * by assumption. cbn [rbind] in E.
  eexists. eexists. exists d. split; [apply init_history; try assumption; intros ->; discriminate H2|]. split; [reflexivity|]. symmetry. exact E.
Qed.
