(** * From a table of prices over an optimizer to whole shares (C108) *)
From Coq Require Import ZArith List Reals String Lra Lia.
From Verif Require Import Num Py RBase PyLemmas MBase MConvex MEF MFrame MReturns MRisk MAlloc SLin SHRP SBase SRisk SReturns SAlloc SConvex SPrep SExist SPipe.
From Verif Require Import Sums PBase PConvex PEF PEF2 PEF3 PEF4 PDown5 PPrep PExist PExist2 PExist3 PExist4 PExist5 PLabels PReturns PReturns2 PCov2 PPerm2 PPerm4 PPipe.
Import ListNotations.
Local Open Scope R_scope.

Lemma sl_min_volatility : forall sv, pres same_labels (min_volatility sv).
Proof. intros sv. unfold min_volatility. pres_go sl_refl sl_trans ltac:(first [apply sl_solve | apply sl_transform | sl_mod]). Qed.
Lemma sl_max_sharpe : forall sv rf, pres same_labels (max_sharpe sv rf).
Proof. intros sv rf. unfold max_sharpe. pres_go sl_refl sl_trans ltac:(first [apply sl_solve | apply sl_transform | sl_mod]). Qed.

Lemma unit_bounds : forall n x, List.length x = n -> (within (repeat (Some 0) n) (repeat (Some 1) n) x /\ total x = 1 <-> invested n x).
Proof.
  intros n x Hl. unfold invested, within.
  assert (A : Forall2 above (repeat (Some 0) n) x <-> Forall (fun a => 0 <= a) x).
  { subst n. clear. induction x as [|a x IH]; cbn; [split; constructor|]. split; intros H; inversion H; subst; constructor; try assumption; apply IH; assumption. }
  rewrite A. split; [intros [[H1 H2] H3]; auto|]. intros [_ [H1 H2]]. split; [split; [exact H1|]|exact H2].
  assert (B : forall x, Forall (fun a => 0 <= a) x -> 0 <= total x) by (induction x0 as [|a y IH]; intros H; cbn; [lra|]; inversion H as [|? ? Ha Hy]; subst; specialize (IH Hy); lra).
  assert (C : forall x s, Forall (fun a => 0 <= a) x -> total x <= s -> Forall2 below (repeat (Some s) (List.length x)) x).
  { induction x0 as [|a y IH]; intros s H Ht; cbn; [constructor|]. inversion H as [|? ? Ha Hy]; subst. cbn in Ht. pose proof (B y Hy). constructor; [cbn; lra|]. apply IH; [assumption|lra]. }
  subst n. apply C; [exact H1|lra].
Qed.
(** everything in one asset *)
Lemma one_asset : forall n i, (i < n)%nat -> exists x, invested n x /\ forall l, List.length l = n -> inner l x = nth i l 0.
Proof.
  assert (Z : forall n, total (repeat 0 n) = 0 /\ forall l, inner l (repeat 0 n) = 0).
  { induction n as [|n [IH1 IH2]]; cbn; [split; [reflexivity|intros [|a l]; reflexivity]|]. split; [lra|]. intros [|a l]; cbn; [reflexivity|]. rewrite IH2. lra. }
  assert (N : forall n, Forall (fun a => 0 <= a) (repeat 0 n)) by (induction n; cbn; constructor; [lra|assumption]).
  induction n as [|n IH]; intros i Hi; [lia|]. destruct i as [|i].
  - exists (1 :: repeat 0 n). split; [split; [cbn; rewrite repeat_length; reflexivity|]; split; [constructor; [lra|apply N]|cbn; rewrite (proj1 (Z n)); lra]|].
    intros [|a l] Hl; [discriminate Hl|]. cbn. rewrite (proj2 (Z n)). lra.
  - destruct (IH i) as [x [[L [P S]] H]]; [lia|]. exists (0 :: x). split; [split; [cbn; congruence|]; split; [constructor; [lra|exact P]|cbn; lra]|].
    intros [|a l] Hl; [discriminate Hl|]. cbn. rewrite H by (injection Hl; auto). lra.
Qed.

Section Pipe.
  Context (T : nat) (dates names : list label) (p : label -> list R).
  Context (HT : (2 <= T)%nat) (Hne : names <> []) (Hn : NoDup names) (Hd : List.length dates = S T)
    (Hl : forall t, In t names -> List.length (p t) = S T) (Hp : forall t, In t names -> Forall (fun v => 0 < v) (p t)).
  Let hist := history (S T) dates names p.
  Let n := List.length names.
  Let mu : dict R := map (fun t => (t, growth_rate 252 (p t))) names.
  Let C := labelled names (fun t u => sample_covariance (simple_returns (p t)) (simple_returns (p u)) * 252).
  Let m := MuSeries mu.
  Let c := CovFrame (f_cols C) (f_rows C).
  Let b := BPair (Some 0) (Some 1).

  Lemma pipe_returns : mean_historical_return hist false true 252 false = Ok (false, some_dict mu).
  Proof.
    unfold hist. rewrite mean_cagr; try assumption; [|lia]. unfold mu, some_dict. rewrite map_map. reflexivity.
  Qed.
  Lemma pipe_cov : forall eigh fm, sample_cov eigh hist false 252 false fm = Ok C.
  Proof. intros eigh fm. unfold hist. rewrite (sample_cov_prices eigh T dates names p 252 fm HT ltac:(lra) Hne Hd Hl Hp false). reflexivity. Qed.
  Lemma pipe_len : forall t, In t names -> List.length (simple_returns (p t)) = T.
  Proof. intros t Ht. rewrite simple_returns_length, (Hl t Ht). lia. Qed.
  Lemma pipe_good : psd n (f_rows C) /\ symmetric n (f_rows C).
  Proof. exact (sample_good T names (fun t => simple_returns (p t)) 252 HT ltac:(lra) pipe_len). Qed.
  Lemma pipe_var : forall x, List.length x = n -> qform (f_rows C) x = 252 * past_variance T names p x.
  Proof. intros x Hx. exact (sample_variance T names (fun t => simple_returns (p t)) 252 x HT pipe_len Hx). Qed.

  Lemma pipe_init : forall w0, exists w1 o, ef_init (MIn m) (CIn c) b w0 = (w1, Ok o) /\ b_tickers (e_base o) = names /\ e_n o = n /\
    e_lb o = repeat (Some 0) n /\ e_ub o = repeat (Some 1) n /\ square (List.length (cov_values c)) (cov_values c) /\ List.length (cov_values c) = e_n o.
  Proof.
    intros w0. destruct pipe_good as [[Q _] _]. pose proof Q as [Q1 Q2].
    assert (Et : init_tickers m c = names) by (cbn; unfold mu; rewrite map_map; apply map_id).
    assert (Hs : init_shape_ok m c).
    { unfold init_shape_ok. cbn [m c mu_values cov_values]. unfold mu. rewrite !map_length. split; [exact Q1|]. unfold num_cols.
      destruct (f_rows C) as [|row rows] eqn:E; [unfold n in Q1; destruct names; [congruence|discriminate Q1]|]. exact (Forall_inv Q2). }
    pose proof (ef_init_ok m c b w0 _ _ Hs (read_pair _ _ _)) as E. do 2 eexists. split; [exact E|]. unfold e_n.
    cbn [init_ef e_base b_tickers e_lb e_ub cov_values c]. rewrite Et. repeat (split; [reflexivity|]). rewrite Q1. split; [exact Q|reflexivity].
  Qed.
  Lemma bounded_repeat : forall k a, bounded (repeat (Some a) k). Proof. intros k a. induction k; constructor; [discriminate|assumption]. Qed.

  Lemma pipe_sized : forall w0 w1 o, ef_init (MIn m) (CIn c) b w0 = (w1, Ok o) -> square (List.length (cov_values c)) (cov_values c) -> List.length (cov_values c) = e_n o ->
    nth_error (w_sizes w1) (e_w o) = Some (e_n o).
  Proof. intros w0 w1 o Hi Hq Hnn. destruct (constructed _ _ _ _ _ _ Hi Hq Hnn) as [Ho _]. apply Ho. Qed.
  Lemma invested_allowed : forall w0 w1 o x, ef_init (MIn m) (CIn c) b w0 = (w1, Ok o) -> square (List.length (cov_values c)) (cov_values c) -> List.length (cov_values c) = e_n o ->
    e_n o = n -> e_lb o = repeat (Some 0) n -> e_ub o = repeat (Some 1) n -> invested n x ->
    allowed (b_tickers (e_base o)) (e_w o) (w_sizes w1) (par_values w0) (e_lb o) (e_ub o) 1 [] (only w1 (e_w o) x).
  Proof.
    intros w0 w1 o x Hi Hq Hnn En El Eu Hx. unfold allowed. rewrite only_same, El, Eu. split; [apply only_sized with (n := n); [rewrite <- En; eapply pipe_sized; eassumption|apply Hx]|].
    pose proof (proj2 (unit_bounds n x (proj1 Hx)) Hx) as [W S]. auto.
  Qed.
  Lemma allowed_invested : forall w0 w1 o s, ef_init (MIn m) (CIn c) b w0 = (w1, Ok o) -> square (List.length (cov_values c)) (cov_values c) -> List.length (cov_values c) = e_n o ->
    e_n o = n -> e_lb o = repeat (Some 0) n -> e_ub o = repeat (Some 1) n ->
    well_sized (w_sizes w1) s -> within (e_lb o) (e_ub o) (s (e_w o)) -> total (s (e_w o)) = 1 -> invested n (s (e_w o)).
  Proof.
    intros w0 w1 o s Hi Hq Hnn En El Eu Hw Hwi Ht. pose proof (pipe_sized _ _ _ Hi Hq Hnn) as Hz.
    apply unit_bounds; [|rewrite <- El, <- Eu; auto]. rewrite Hw by (apply nth_error_Some; congruence). rewrite <- En. apply nth_error_nth. exact Hz.
  Qed.

  Theorem pipe_min_volatility : forall sv milp eigh fm w0 money, exact_solver sv -> complete_solver sv -> exact_milp milp -> complete_milp milp -> 0 < money ->
    exists mu cv w1 o w2 o2 d x al lo,
      mean_historical_return hist false true 252 false = Ok (false, some_dict mu) /\ sample_cov eigh hist false 252 false fm = Ok cv /\
      ef_init (MIn (MuSeries mu)) (CIn (CovFrame (f_cols cv) (f_rows cv))) (BPair (Some 0) (Some 1)) w0 = (w1, Ok o) /\
      min_volatility sv w1 o = (w2, o2, Ok d) /\ allocated milp (e_base o2) names (f_rows hist) money al lo /\
      invested n x /\ (forall y, invested n y -> past_variance T names p x <= past_variance T names p y) /\ tracks names p x money al lo.
  Proof.
    intros sv milp eigh fm w0 money Hsv Hcv Hm1 Hm2 Hmoney. destruct (pipe_init w0) as (w1 & o & Hi & Eb & En & El & Eu & Hq & Hnn).
    assert (Hex : exists s, allowed (b_tickers (e_base o)) (e_w o) (w_sizes w1) (par_values w0) (e_lb o) (e_ub o) 1 [] s).
    { destruct (one_asset n 0) as [x [Hx _]]; [unfold n; destruct names; [congruence|cbn; lia]|]. eexists. eapply invested_allowed; eassumption. }
    assert (Bl : bounded (e_lb o)) by (rewrite El; apply bounded_repeat). assert (Bu : bounded (e_ub o)) by (rewrite Eu; apply bounded_repeat).
    pose proof (proj2 (exist_min_volatility m c b w0 w1 o [] w1 o Hi Hq Hnn ltac:(constructor) eq_refl Bl Bu ltac:(constructor) sv Hsv Hcv) Hex) as (w2 & o2 & d & Hv).
    pose proof (e2e_min_volatility m c b w0 w1 o [] w1 o Hi Hq Hnn ltac:(constructor) eq_refl sv w2 o2 d Hsv Hv) as (s & r & R1 & R2 & _ & (A1 & A2 & A3 & _) & _ & R3).
    assert (Ix : invested n (s (e_w o))) by (eapply allowed_invested; eassumption).
    pose proof (sl_min_volatility sv _ _ _ _ _ Hv) as Sl. unfold same_labels in Sl.
    destruct (after_weights milp (e_base o2) T dates names p (s (e_w o)) r money Hm1 Hm2 Hne Hn Hl Hp Hmoney) as (al & lo & G1 & G2); try assumption; [rewrite Sl; exact Eb|].
    exists mu, C, w1, o, w2, o2, d, (s (e_w o)), al, lo.
    split; [exact pipe_returns|]. split; [apply pipe_cov|]. split; [exact Hi|]. split; [exact Hv|]. split; [exact G1|]. split; [exact Ix|]. split; [|exact G2].
    intros y Hy. pose proof (R3 _ (invested_allowed w0 w1 o y Hi Hq Hnn En El Eu Hy) I) as L. rewrite only_same in L. cbn [map total cov_values c] in L.
    rewrite !pipe_var in L by (apply Ix || apply Hy). lra.
  Qed.

  Theorem pipe_max_sharpe : forall sv milp eigh fm w0 money rf r, exact_solver sv -> complete_solver sv -> exact_milp milp -> complete_milp milp -> 0 < money ->
    target_of rf = Some r -> (exists t, In t names /\ r < growth_rate 252 (p t)) -> (forall x, invested n x -> 0 < past_variance T names p x) ->
    exists mu cv w1 o w2 o2 d x al lo,
      mean_historical_return hist false true 252 false = Ok (false, some_dict mu) /\ sample_cov eigh hist false 252 false fm = Ok cv /\
      ef_init (MIn (MuSeries mu)) (CIn (CovFrame (f_cols cv) (f_rows cv))) (BPair (Some 0) (Some 1)) w0 = (w1, Ok o) /\
      max_sharpe sv rf w1 o = (w2, o2, Ok d) /\ allocated milp (e_base o2) names (f_rows hist) money al lo /\
      invested n x /\ r < past_growth names p x /\
      (forall y, invested n y -> (past_growth names p y - r) / sqrt (past_variance T names p y) <= (past_growth names p x - r) / sqrt (past_variance T names p x)) /\
      tracks names p x money al lo.
  Proof.
    intros sv milp eigh fm w0 money rf r Hsv Hcv Hm1 Hm2 Hmoney Hrf [t0 [Ht0 Hg]] Hpos. destruct (pipe_init w0) as (w1 & o & Hi & Eb & En & El & Eu & Hq & Hnn).
    assert (Bl : bounded (e_lb o)) by (rewrite El; apply bounded_repeat). assert (Bu : bounded (e_ub o)) by (rewrite Eu; apply bounded_repeat).
    assert (Emu : mu_values m = Some (map (fun t => growth_rate 252 (p t)) names)) by (cbn; unfold mu; rewrite map_map; reflexivity).
    set (mv := map (fun t => growth_rate 252 (p t)) names) in *.
    destruct pipe_good as [Hpsd _].
    assert (Fits : forall x, fits (e_n o) (e_lb o) (e_ub o) 1 x <-> invested n x).
    { intros x. unfold fits. rewrite En, El, Eu. split; [intros [H1 H2]; apply unit_bounds; assumption|intros H; split; [apply H|apply unit_bounds; [apply H|exact H]]]. }
    destruct (In_nth names t0 (LInt 0) Ht0) as [i [Hilt Hith]].
    destruct (one_asset n i Hilt) as [x0 [Hx0 Hin0]].
    pose proof (exist_sharpe m c b w0 w1 o mv Hi Hq Hnn Bl Bu Emu ltac:(rewrite En; exact Hpsd) sv rf r Hsv Hcv Hrf) as Ex.
    destruct (proj2 (Ex ltac:(intros x Hx; apply Fits in Hx; cbn [cov_values c]; rewrite pipe_var by apply Hx; specialize (Hpos x Hx); lra))) as (w2 & o2 & d & Hv).
    { split; [apply Exists_exists; exists (growth_rate 252 (p t0)); split; [unfold mv; apply (in_map (fun t => growth_rate 252 (p t))); exact Ht0|exact Hg]|].
      exists x0. split; [apply Fits; exact Hx0|]. unfold excess. rewrite Hin0 by (unfold mv; rewrite map_length; reflexivity).
      unfold mv. rewrite (nth_indep _ 0 (growth_rate 252 (p (LInt 0)))) by (rewrite map_length; exact Hilt). rewrite (map_nth (fun t => growth_rate 252 (p t))), Hith. lra. }
    destruct (constructed _ _ _ _ _ _ Hi Hq Hnn) as (Ho & Ha & Hco & Hmo & _).
    destruct (max_sharpe_best sv w1 o [] rf w2 o2 d Hsv Ho Ha) as (m' & r' & M1 & M2 & s & rr & R1 & R2 & _ & (A1 & A2 & A3 & _) & Hex & R3); try (constructor; fail); [rewrite En, Hco; exact Hpsd|exact Hv|].
    rewrite Hmo, Emu in M1. injection M1 as <-. rewrite Hrf in M2. injection M2 as <-.
    assert (Ix : invested n (s (e_w o))) by (eapply allowed_invested; eassumption).
    pose proof (sl_max_sharpe sv rf _ _ _ _ _ Hv) as Sl. unfold same_labels in Sl.
    destruct (after_weights milp (e_base o2) T dates names p (s (e_w o)) rr money Hm1 Hm2 Hne Hn Hl Hp Hmoney) as (al & lo & G1 & G2); try assumption; [rewrite Sl; exact Eb|].
    exists mu, C, w1, o, w2, o2, d, (s (e_w o)), al, lo.
    split; [exact pipe_returns|]. split; [apply pipe_cov|]. split; [exact Hi|]. split; [exact Hv|]. split; [exact G1|]. split; [exact Ix|].
    split; [unfold excess in Hex; unfold past_growth; fold mv; lra|]. split; [|exact G2].
    intros y Hy. pose proof (invested_allowed w0 w1 o y Hi Hq Hnn En El Eu Hy) as (B1 & B2 & B3 & _).
    pose proof (R3 (only w1 (e_w o) y)) as L. rewrite only_same in L. specialize (L ltac:(split; [exact B1|]; split; [rewrite only_same in B2 |- *; exact B2|]; split; [rewrite only_same in B3 |- *; exact B3|constructor])).
    rewrite Hco in L. cbn [cov_values c] in L. rewrite !pipe_var in L by (apply Ix || apply Hy).
    pose proof (Hpos _ Ix) as V1. pose proof (Hpos _ Hy) as V2. rewrite !sqrt_mult in L by lra.
    pose proof (sqrt_lt_R0 252 ltac:(lra)) as Q. pose proof (sqrt_lt_R0 _ V1) as Q1. pose proof (sqrt_lt_R0 _ V2) as Q2.
    unfold excess in L. unfold past_growth. fold mv.
    apply Rmult_le_reg_r with (sqrt (past_variance T names p y) * sqrt (past_variance T names p (s (e_w o)))); [nra|].
    apply Rmult_le_reg_r with (sqrt 252); [exact Q|].
    apply Rle_trans with ((inner mv y - r) * (sqrt 252 * sqrt (past_variance T names p (s (e_w o))))); [right; field; lra|].
    eapply Rle_trans; [exact L|]. right. field. lra.
  Qed.
End Pipe.
