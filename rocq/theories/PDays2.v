(** * The downside optimizers on the same data stated in two ways (C130) *)
From Coq Require Import ZArith String List Bool Reals Lia Lra Permutation.
From Verif Require Import Num Py RBase PyLemmas SBL MBase MConvex MEF MDown SLin SBase SConvex SPerm SUnits SDown SDays Sums Mat PBase PConvex PEF PEF2 PEF3 PEF4 PEF6 PDown PDown2 PDown3 PDown4 PDown5 PObj PPerm PPerm2 PPerm3 PPerm4 PUnits PRisk PExist5 PDays.
Import ListNotations.
Local Open Scope R_scope.

Lemma run_iff : forall (F : M ef (dict R)) w o mn sum (ok : list R -> Prop) cost, open_ef w o [] -> e_add o = [] ->
  (forall w' o' dd, F w o = (w', o', Ok dd) -> exists lb ub, bounds_in_force mn o lb ub /\ exists ws, best_portfolio w o [] lb ub sum ok cost ws dd) ->
  ((exists lb ub s, bounds_in_force mn o lb ub /\ least w o [] lb ub sum ok cost s) -> exists w' o' dd, F w o = (w', o', Ok dd)) ->
  (succeeds F w o <-> exists lb ub x, bounds_in_force mn o lb ub /\ chosen (e_n o) lb ub sum ok cost x).
Proof.
  intros F w o mn sum ok cost Ho Ha H1 H2. pose proof Ho as (_ & _ & _ & _ & Hsz & _). split.
  - intros (w' & o' & d & E). destruct (H1 _ _ _ E) as (lb & ub & B & ws & P). destruct (best_chosen _ _ _ _ _ _ _ _ _ Hsz Ha P) as [x [r [C _]]]. exists lb, ub, x. auto.
  - intros (lb & ub & x & B & C). apply H2. exists lb, ub, (only w (e_w o) x). split; [exact B|]. apply chosen_least; assumption.
Qed.
Lemma no_params : forall w o name, all_params o = [] -> fresh_name w o name.
Proof. intros w o name H p Hp. rewrite H in Hp. contradiction. Qed.
Lemma inner_restated : forall n p c m x, ordering n p -> length m = n -> length x = n -> inner (map (Rmult c) (pick 0 p m)) (pick 0 p x) = c * inner m x.
Proof. intros n p c m x H Lm Lx. rewrite inner_times. f_equal. apply (inner_pick n); assumption. Qed.
Lemma mu_restated_fst : forall p c s, map fst (mu_restated p c s) = pick (LInt 0) p (map fst s).
Proof. intros p c s. unfold mu_restated. rewrite mu_times_fst. apply mu_reordered_fst. Qed.
Lemma mu_restated_snd : forall p c s, map snd (mu_restated p c s) = map (Rmult c) (pick 0 p (map snd s)).
Proof. intros p c s. unfold mu_restated. rewrite mu_times_snd. f_equal. apply mu_reordered_snd. Qed.
Lemma mu_restated_length : forall p c s, ordering (length s) p -> length (mu_restated p c s) = length s.
Proof. intros p c s H. rewrite <- (map_length fst), mu_restated_fst, pick_length. apply ordering_length. exact H. Qed.

(** the expected returns, tickers and bounds of the two new optimizers *)
Lemma pair_new : forall p c s b b' u1 u2 v1 v2 w1 w2 o1 o2, ordering (length s) p -> bounds_reordered (length s) p b b' ->
  ef_init (MIn (MuSeries s)) (CIn (CovArray (zeros (length s)))) b u1 = (v1, Ok o1) ->
  ef_init (MIn (MuSeries (mu_restated p c s))) (CIn (CovArray (zeros (length s)))) b' u2 = (v2, Ok o2) ->
  open_ef w1 o1 [] -> open_ef w2 o2 [] ->
  length (e_lb o1) = length s /\ length (e_ub o1) = length s /\ new_for w1 o1 (map fst s) (map snd s) (e_lb o1) (e_ub o1) /\
  new_for w2 o2 (pick (LInt 0) p (map fst s)) (map (Rmult c) (pick 0 p (map snd s))) (pick None p (e_lb o1)) (pick None p (e_ub o1)).
Proof.
  intros p c s b b' u1 u2 v1 v2 w1 w2 o1 o2 H Hb E1 E2 O1 O2. pose proof (mu_restated_length p c s H) as L. destruct (zeros_square (length s)) as [Z _].
  destruct (init_new_for _ _ _ _ _ _ Z E1) as (A1 & B1 & C1 & D1 & R1 & L1 & U1). rewrite <- L in E2, Z at 1.
  replace (zeros (length s)) with (zeros (length (mu_restated p c s))) in E2 by (rewrite L; reflexivity).
  destruct (zeros_square (length (mu_restated p c s))) as [Z2 _].
  destruct (init_new_for _ _ _ _ _ _ Z2 E2) as (A2 & B2 & C2 & D2 & R2 & L2 & U2).
  rewrite L in R2. rewrite (read_bounds_pick _ _ _ _ _ _ H Hb R1) in R2. injection R2 as X1 X2.
  split; [exact L1|]. split; [exact U1|]. unfold new_for. rewrite mu_restated_fst in C2. rewrite mu_restated_snd in D2.
  split; [repeat (split; [assumption || reflexivity|]); reflexivity|]. repeat (split; [assumption|]). split; congruence.
Qed.

Section Semi.
  Variables (p : list nat) (a c : R) (s : list (label * R)) (rows rows' : list (list (option R))) (freq bench : R) (b b' : bounds_arg) (v1 v2 w1 w2 : world) (o1 o2 : ef) (d1 d2 : semi).
  Hypothesis T : semi_twins p a c s rows rows' freq bench b b' v1 v2 w1 w2 o1 o2 d1 d2.
  Let n := length s.
  Let m := map snd s.
  Lemma semi_facts : 0 < a /\ 0 < c /\ ordering n p /\ Forall (fun r => length r = n) rows /\ restated p a rows rows' /\
    open_ef w1 o1 [] /\ open_ef w2 o2 [] /\ semi_ready w1 o1 [] d1 /\ semi_ready w2 o2 [] d2 /\ d1 = mkSemi (dropna rows) bench freq /\ d2 = mkSemi (dropna rows') (a * bench) freq /\
    length (e_lb o1) = n /\ length (e_ub o1) = n /\ new_for w1 o1 (map fst s) m (e_lb o1) (e_ub o1) /\
    new_for w2 o2 (pick (LInt 0) p (map fst s)) (map (Rmult c) (pick 0 p m)) (pick None p (e_lb o1)) (pick None p (e_ub o1)).
  Proof.
    destruct T as (Ha & Hc & H & Hb & Hg & Hr & E1 & E2). pose proof (good_restated p a _ rows rows' H Hg Hr) as Hg'.
    destruct (semi_init_ready _ _ _ _ _ _ _ _ _ _ Hg E1) as (O1 & R1 & D1). destruct (semi_init_ready _ _ _ _ _ _ _ _ _ _ Hg' E2) as (O2 & R2 & D2).
    do 3 (split; [assumption|]). split; [apply Hg|]. do 7 (split; [assumption|]).
    unfold semi_init in E1, E2. destruct (ef_init (MIn (MuSeries s)) _ b v1) as [x1 [q1|]] eqn:I1; [|discriminate E1]. destruct (validate_returns _ _); [|discriminate E1].
    destruct (ef_init (MIn (MuSeries (mu_restated p c s))) _ b' v2) as [x2 [q2|]] eqn:I2; [|discriminate E2]. destruct (validate_returns _ _); [|discriminate E2].
    injection E1 as <- <- _. injection E2 as <- <- _. exact (pair_new p c s b b' _ _ _ _ _ _ _ _ H Hb I1 I2 O1 O2).
  Qed.
  Ltac facts := destruct semi_facts as (Ha & Hc & H & Hrows & Hrs & O1 & O2 & R1 & R2 & D1 & D2 & L1 & U1 & F1 & F2);
    pose proof (pair_n1 s (e_lb o1) (e_ub o1) w1 o1 F1) as N1; pose proof (pair_n2 p c s (e_lb o1) (e_ub o1) w2 o2 H F2) as N2;
    assert (A1 : e_add o1 = []) by apply F1; assert (A2 : e_add o2 = []) by apply F2;
    assert (M1 : e_mu o1 = Some m) by apply F1; assert (M2 : e_mu o2 = Some (map (Rmult c) (pick 0 p m))) by apply F2;
    assert (P1 : forall name, fresh_name w1 o1 name) by (intros name; apply no_params; apply F1);
    assert (P2 : forall name, fresh_name w2 o2 name) by (intros name; apply no_params; apply F2).
  Let sv_ (mn : bool) := semivariance (dropna rows) (bench * (if mn then 0 else 1)).
  Lemma semi_risk_scaled : forall (mn : bool) x, length x = n -> semivariance (dropna rows') (a * bench * (if mn then 0 else 1)) (pick 0 p x) = (a * a) * sv_ mn x.
  Proof. intros mn x Lx. facts. rewrite Rmult_assoc. apply (semivariance_restated p a n rows rows' (bench * (if mn then 0 else 1)) x Ha H Hrows Hrs Lx). Qed.
  Lemma semi_mu_scaled : forall x, length x = n -> inner (map (Rmult c) (pick 0 p m)) (pick 0 p x) = c * inner m x.
  Proof. intros x Lx. facts. apply (inner_restated n); [exact H|apply map_length|exact Lx]. Qed.

  Section Answers.
  Variables (sv1 sv2 : solver_t) (mn : bool) (x1 x2 : world) (y1 y2 : ef) (r1 r2 : dict R).
  Hypothesis X1 : exact_solver sv1.
  Hypothesis X2 : exact_solver sv2.
  Hypothesis Nd : NoDup (map fst s).
  Let sum := if mn then 0 else 1.
  Theorem days_min_semivariance : min_semivariance sv1 d1 mn w1 o1 = (x1, y1, Ok r1) -> min_semivariance sv2 d2 mn w2 o2 = (x2, y2, Ok r2) ->
    exists lb ub, bounds_in_force mn o1 lb ub /\ answers (map fst s) lb ub sum (fun _ => True) (sv_ mn) r1 /\ answers (map fst s) lb ub sum (fun _ => True) (sv_ mn) r2.
  Proof.
    intros E1 E2. facts. destruct (min_semivariance_best _ _ _ _ O1 R1 sv1 mn X1 _ _ _ E1) as (lb1 & ub1 & B1 & Q1 & _). destruct (min_semivariance_best _ _ _ _ O2 R2 sv2 mn X2 _ _ _ E2) as (lb2 & ub2 & B2 & Q2 & _).
    rewrite D1 in Q1. rewrite D2 in Q2. cbn [sd_returns sd_bench] in Q1, Q2.
    refine (pair_answers p c s _ _ w1 w2 o1 o2 H L1 U1 F1 F2 mn _ _ _ _ _ _ _ (a * a) _ _ r1 r2 _ _ Nd _ _ _ B1 Q1 B2 Q2); [nra|tauto|apply semi_risk_scaled].
  Qed.
  Theorem days_semi_risk : forall t, 0 <= freq -> semi_efficient_risk sv1 d1 t mn w1 o1 = (x1, y1, Ok r1) -> semi_efficient_risk sv2 d2 (a * t) mn w2 o2 = (x2, y2, Ok r2) ->
    exists lb ub, bounds_in_force mn o1 lb ub /\ answers (map fst s) lb ub sum (fun x => freq * sv_ mn x <= t * t) (fun x => - inner m x) r1 /\
      answers (map fst s) lb ub sum (fun x => freq * sv_ mn x <= t * t) (fun x => - inner m x) r2.
  Proof.
    intros t Hf E1 E2. facts. assert (G1 : sd_freq d1 = freq) by (rewrite D1; reflexivity). assert (G2 : sd_freq d2 = freq) by (rewrite D2; reflexivity).
    destruct (semi_risk_best _ _ _ _ O1 R1 sv1 mn X1 _ _ _ _ _ M1 (P1 _) ltac:(rewrite G1; exact Hf) E1) as (lb1 & ub1 & B1 & Q1 & _).
    destruct (semi_risk_best _ _ _ _ O2 R2 sv2 mn X2 _ _ _ _ _ M2 (P2 _) ltac:(rewrite G2; exact Hf) E2) as (lb2 & ub2 & B2 & Q2 & _).
    rewrite D1 in Q1. rewrite D2 in Q2. cbn [sd_returns sd_bench sd_freq] in Q1, Q2.
    refine (pair_answers p c s _ _ w1 w2 o1 o2 H L1 U1 F1 F2 mn _ _ _ _ _ _ _ c _ _ r1 r2 _ _ Nd Hc _ _ B1 Q1 B2 Q2).
    - intros x Lx. rewrite semi_risk_scaled by exact Lx. fold (sv_ mn x). assert (0 < a * a) by nra. split; intros Hle; nra.
    - intros x Lx. rewrite semi_mu_scaled by exact Lx. ring.
  Qed.
  Theorem days_semi_return : forall t, semi_efficient_return sv1 d1 (NFloat t) mn w1 o1 = (x1, y1, Ok r1) -> semi_efficient_return sv2 d2 (NFloat (c * t)) mn w2 o2 = (x2, y2, Ok r2) ->
    exists lb ub, bounds_in_force mn o1 lb ub /\ answers (map fst s) lb ub sum (fun x => t <= inner m x) (sv_ mn) r1 /\ answers (map fst s) lb ub sum (fun x => t <= inner m x) (sv_ mn) r2.
  Proof.
    intros t E1 E2. facts.
    destruct (semi_return_best _ _ _ _ O1 R1 sv1 mn X1 _ _ _ _ _ M1 (P1 _) E1) as (_ & lb1 & ub1 & B1 & Q1 & _). destruct (semi_return_best _ _ _ _ O2 R2 sv2 mn X2 _ _ _ _ _ M2 (P2 _) E2) as (_ & lb2 & ub2 & B2 & Q2 & _).
    rewrite D1 in Q1. rewrite D2 in Q2. cbn [sd_returns sd_bench] in Q1, Q2.
    refine (pair_answers p c s _ _ w1 w2 o1 o2 H L1 U1 F1 F2 mn _ _ _ _ _ _ _ (a * a) _ _ r1 r2 _ _ Nd _ _ _ B1 Q1 B2 Q2); [nra| |apply semi_risk_scaled].
    intros x Lx. rewrite semi_mu_scaled by exact Lx. split; intros Hle; nra.
  Qed.
  Theorem days_semi_utility : forall k, semi_max_quadratic_utility sv1 d1 k mn w1 o1 = (x1, y1, Ok r1) -> semi_max_quadratic_utility sv2 d2 (k * c / (a * a)) mn w2 o2 = (x2, y2, Ok r2) ->
    exists lb ub, bounds_in_force mn o1 lb ub /\ answers (map fst s) lb ub sum (fun _ => True) (fun x => - inner m x / freq + 1 / 2 * k * sv_ mn x) r1 /\
      answers (map fst s) lb ub sum (fun _ => True) (fun x => - inner m x / freq + 1 / 2 * k * sv_ mn x) r2.
  Proof.
    intros k E1 E2. facts.
    destruct (semi_utility_best _ _ _ _ O1 R1 sv1 mn X1 _ _ _ _ _ M1 (P1 _) E1) as (_ & lb1 & ub1 & B1 & Q1 & _). destruct (semi_utility_best _ _ _ _ O2 R2 sv2 mn X2 _ _ _ _ _ M2 (P2 _) E2) as (_ & lb2 & ub2 & B2 & Q2 & _).
    rewrite D1 in Q1. rewrite D2 in Q2. cbn [sd_returns sd_bench sd_freq] in Q1, Q2.
    refine (pair_answers p c s _ _ w1 w2 o1 o2 H L1 U1 F1 F2 mn _ _ _ _ _ _ _ c _ _ r1 r2 _ _ Nd Hc _ _ B1 Q1 B2 Q2); [tauto|].
    intros x Lx. rewrite semi_risk_scaled, semi_mu_scaled by exact Lx. fold (sv_ mn x). unfold Rdiv. set (f := / freq). field. lra.
  Qed.
  End Answers.

  Section Both.
  Variables (sv1 sv2 : solver_t) (mn : bool).
  Hypothesis X1 : exact_solver sv1.
  Hypothesis X2 : exact_solver sv2.
  Hypothesis K1 : complete_solver sv1.
  Hypothesis K2 : complete_solver sv2.
  Theorem both_min_semivariance : succeeds (min_semivariance sv1 d1 mn) w1 o1 <-> succeeds (min_semivariance sv2 d2 mn) w2 o2.
  Proof.
    facts.
    rewrite (run_iff (min_semivariance sv1 d1 mn) w1 o1 mn _ _ _ O1 A1 ltac:(intros ? ? ? E; destruct (min_semivariance_best _ _ _ _ O1 R1 sv1 mn X1 _ _ _ E) as (lb' & ub' & B' & Q' & _); exists lb', ub'; split; [exact B'|eexists; exact Q']) (min_semivariance_answers _ _ _ _ O1 R1 sv1 mn K1)).
    rewrite (run_iff (min_semivariance sv2 d2 mn) w2 o2 mn _ _ _ O2 A2 ltac:(intros ? ? ? E; destruct (min_semivariance_best _ _ _ _ O2 R2 sv2 mn X2 _ _ _ E) as (lb' & ub' & B' & Q' & _); exists lb', ub'; split; [exact B'|eexists; exact Q']) (min_semivariance_answers _ _ _ _ O2 R2 sv2 mn K2)).
    rewrite N1, N2, D1, D2. cbn [sd_returns sd_bench sd_freq].
    apply (pair_exists p c s _ _ w1 w2 o1 o2 H L1 U1 F1 F2 mn _ _ _ (a * a)); [nra|tauto|apply semi_risk_scaled].
  Qed.
  Theorem both_semi_risk : forall t, 0 <= freq -> succeeds (semi_efficient_risk sv1 d1 t mn) w1 o1 <-> succeeds (semi_efficient_risk sv2 d2 (a * t) mn) w2 o2.
  Proof.
    intros t Hf. facts. assert (G1 : 0 <= sd_freq d1) by (rewrite D1; exact Hf). assert (G2 : 0 <= sd_freq d2) by (rewrite D2; exact Hf).
    rewrite (run_iff (semi_efficient_risk sv1 d1 t mn) w1 o1 mn _ _ _ O1 A1 ltac:(intros ? ? ? E; destruct (semi_risk_best _ _ _ _ O1 R1 sv1 mn X1 _ _ _ _ _ M1 (P1 _) G1 E) as (lb' & ub' & B' & Q' & _); exists lb', ub'; split; [exact B'|eexists; exact Q']) (semi_risk_answers _ _ _ _ O1 R1 sv1 mn K1 _ _ M1 (P1 _) G1)).
    rewrite (run_iff (semi_efficient_risk sv2 d2 (a * t) mn) w2 o2 mn _ _ _ O2 A2 ltac:(intros ? ? ? E; destruct (semi_risk_best _ _ _ _ O2 R2 sv2 mn X2 _ _ _ _ _ M2 (P2 _) G2 E) as (lb' & ub' & B' & Q' & _); exists lb', ub'; split; [exact B'|eexists; exact Q']) (semi_risk_answers _ _ _ _ O2 R2 sv2 mn K2 _ _ M2 (P2 _) G2)).
    rewrite N1, N2, D1, D2. cbn [sd_returns sd_bench sd_freq].
    apply (pair_exists p c s _ _ w1 w2 o1 o2 H L1 U1 F1 F2 mn _ _ _ (c)); [exact Hc| |intros x Lx; rewrite semi_mu_scaled by exact Lx; ring].
    intros x Lx. rewrite semi_risk_scaled by exact Lx. fold (sv_ mn x). assert (0 < a * a) by nra. split; intros Hle; nra.
  Qed.
  Lemma semi_utility_positive : forall (sv : solver_t) (d : semi) k w o, succeeds (semi_max_quadratic_utility sv d k mn) w o -> 0 < k.
  Proof. intros sv d k w o (w' & o' & dd & E). unfold semi_max_quadratic_utility in E. destruct (Rleb k 0) eqn:Ek; [discriminate E|]. apply Rleb_false in Ek. lra. Qed.
  Theorem both_semi_utility : forall k, succeeds (semi_max_quadratic_utility sv1 d1 k mn) w1 o1 <-> succeeds (semi_max_quadratic_utility sv2 d2 (k * c / (a * a)) mn) w2 o2.
  Proof.
    intros k. facts.
    assert (Gk : 0 < k <-> 0 < k * c / (a * a)).
    { assert (Hca : 0 < c / (a * a)) by (apply Rdiv_lt_0_compat; nra). replace (k * c / (a * a)) with (k * (c / (a * a))) by (unfold Rdiv; ring). split; intros Hk; nra. }
    destruct (Rlt_dec 0 k) as [G1|G1]; [|split; intros E; apply semi_utility_positive in E; tauto]. pose proof (proj1 Gk G1) as G2.
    rewrite (run_iff (semi_max_quadratic_utility sv1 d1 k mn) w1 o1 mn _ _ _ O1 A1 ltac:(intros ? ? ? E; destruct (semi_utility_best _ _ _ _ O1 R1 sv1 mn X1 _ _ _ _ _ M1 (P1 _) E) as (_ & lb' & ub' & B' & Q' & _); exists lb', ub'; split; [exact B'|eexists; exact Q']) (semi_utility_answers _ _ _ _ O1 R1 sv1 mn K1 _ _ M1 (P1 _) G1)).
    rewrite (run_iff (semi_max_quadratic_utility sv2 d2 (k * c / (a * a)) mn) w2 o2 mn _ _ _ O2 A2 ltac:(intros ? ? ? E; destruct (semi_utility_best _ _ _ _ O2 R2 sv2 mn X2 _ _ _ _ _ M2 (P2 _) E) as (_ & lb' & ub' & B' & Q' & _); exists lb', ub'; split; [exact B'|eexists; exact Q']) (semi_utility_answers _ _ _ _ O2 R2 sv2 mn K2 _ _ M2 (P2 _) G2)).
    rewrite N1, N2, D1, D2. cbn [sd_returns sd_bench sd_freq].
    apply (pair_exists p c s _ _ w1 w2 o1 o2 H L1 U1 F1 F2 mn _ _ _ (c)); [exact Hc|tauto|].
    intros x Lx. rewrite semi_risk_scaled, semi_mu_scaled by exact Lx. fold (sv_ mn x). unfold Rdiv. set (f := / freq). field. lra.
  Qed.
  Lemma semi_return_target : forall (sv : solver_t) (d : semi) t w o m0, e_mu o = Some m0 -> succeeds (semi_efficient_return sv d (NFloat t) mn) w o -> 0 <= t /\ Exists (fun z => t <= Rabs z) m0.
  Proof.
    intros sv d t w o m0 Em (w' & o' & dd & E). unfold semi_efficient_return in E. destruct (Rltb t 0) eqn:Et; [discriminate E|]. apply Rltb_false in Et.
    unfold bind at 1, get in E. rewrite Em in E. destruct (list_max (map Rabs m0)) as [mx|] eqn:Ex; [|discriminate E].
    destruct (Rltb mx t) eqn:El; [discriminate E|]. apply Rltb_false in El. split; [lra|]. pose proof (list_max_in _ _ Ex) as I. apply in_map_iff in I. destruct I as (z & Ez & I).
    apply Exists_exists. exists z. split; [exact I|]. rewrite Ez. lra.
  Qed.
  Lemma semi_return_max : forall t (m0 : list R), Exists (fun z => t <= Rabs z) m0 -> exists mx, list_max (map Rabs m0) = Some mx /\ t <= mx.
  Proof.
    intros t m0 Hx. destruct (list_max (map Rabs m0)) as [mx|] eqn:E; [|destruct m0; [inversion Hx|discriminate E]]. exists mx. split; [reflexivity|].
    apply Exists_exists in Hx. destruct Hx as (z & Hin & Hz). eapply Rle_trans; [exact Hz|]. eapply list_max_ge; [exact E|]. apply in_map. exact Hin.
  Qed.
  Theorem both_semi_return : forall t, succeeds (semi_efficient_return sv1 d1 (NFloat t) mn) w1 o1 <-> succeeds (semi_efficient_return sv2 d2 (NFloat (c * t)) mn) w2 o2.
  Proof.
    intros t. facts.
    assert (Gt : 0 <= t <-> 0 <= c * t) by (split; intros Hle; nra).
    assert (Gx : Exists (fun z => t <= Rabs z) m <-> Exists (fun z => c * t <= Rabs z) (map (Rmult c) (pick 0 p m))).
    { assert (Pm : Permutation (map (Rmult c) m) (map (Rmult c) (pick 0 p m))) by (apply Permutation_map, Permutation_sym, pick_perm; unfold m; rewrite map_length; exact H).
      rewrite !Exists_exists. split.
      - intros (z & I & Hz). exists (c * z). split; [apply (Permutation_in _ Pm); apply in_map; exact I|]. rewrite Rabs_mult, (Rabs_right c) by lra. nra.
      - intros (z & I & Hz). apply (Permutation_in _ (Permutation_sym Pm)) in I. apply in_map_iff in I. destruct I as (y & <- & I). exists y. split; [exact I|].
        rewrite Rabs_mult, (Rabs_right c) in Hz by lra. nra. }
    destruct (Rle_dec 0 t) as [G1|G1]; [|split; intros E; [apply (semi_return_target _ _ _ _ _ _ M1) in E|apply (semi_return_target _ _ _ _ _ _ M2) in E]; tauto]. pose proof (proj1 Gt G1) as G2.
    assert (Dx : Exists (fun z => t <= Rabs z) m \/ ~ Exists (fun z => t <= Rabs z) m) by (destruct (Exists_dec (fun z => t <= Rabs z) m (fun z => Rle_dec t (Rabs z))); auto).
    destruct Dx as [Dx|Dx]; [|split; intros E; [apply (semi_return_target _ _ _ _ _ _ M1) in E|apply (semi_return_target _ _ _ _ _ _ M2) in E]; tauto].
    destruct (semi_return_max _ _ Dx) as [mx1 J1]. destruct (semi_return_max _ _ (proj1 Gx Dx)) as [mx2 J2].
    rewrite (run_iff (semi_efficient_return sv1 d1 (NFloat t) mn) w1 o1 mn _ _ _ O1 A1 ltac:(intros ? ? ? E; destruct (semi_return_best _ _ _ _ O1 R1 sv1 mn X1 _ _ _ _ _ M1 (P1 _) E) as (_ & lb' & ub' & B' & Q' & _); exists lb', ub'; split; [exact B'|eexists; exact Q']) (semi_return_answers _ _ _ _ O1 R1 sv1 mn K1 _ _ _ M1 (P1 _) G1 (proj1 J1) (proj2 J1))).
    rewrite (run_iff (semi_efficient_return sv2 d2 (NFloat (c * t)) mn) w2 o2 mn _ _ _ O2 A2 ltac:(intros ? ? ? E; destruct (semi_return_best _ _ _ _ O2 R2 sv2 mn X2 _ _ _ _ _ M2 (P2 _) E) as (_ & lb' & ub' & B' & Q' & _); exists lb', ub'; split; [exact B'|eexists; exact Q']) (semi_return_answers _ _ _ _ O2 R2 sv2 mn K2 _ _ _ M2 (P2 _) G2 (proj1 J2) (proj2 J2))).
    rewrite N1, N2, D1, D2. cbn [sd_returns sd_bench sd_freq].
    apply (pair_exists p c s _ _ w1 w2 o1 o2 H L1 U1 F1 F2 mn _ _ _ (a * a)); [nra| |apply semi_risk_scaled].
    intros x Lx. rewrite semi_mu_scaled by exact Lx. split; intros Hle; nra.
  Qed.
  End Both.
End Semi.

Section CVaR.
  Variables (p : list nat) (a c : R) (s : list (label * R)) (rows rows' : list (list (option R))) (beta : R) (b b' : bounds_arg) (v1 v2 w1 w2 : world) (o1 o2 : ef) (d1 d2 : cvar_data).
  Hypothesis T : cvar_twins p a c s rows rows' beta b b' v1 v2 w1 w2 o1 o2 d1 d2.
  Let n := length s.
  Let m := map snd s.
  Lemma cvar_facts : 0 < a /\ 0 < c /\ ordering n p /\ Forall (fun r => length r = n) rows /\ restated p a rows rows' /\
    open_ef w1 o1 [] /\ open_ef w2 o2 [] /\ cvar_ready w1 o1 [] d1 /\ cvar_ready w2 o2 [] d2 /\
    (cv_returns d1 = dropna rows /\ cv_beta d1 = beta) /\ (cv_returns d2 = dropna rows' /\ cv_beta d2 = beta) /\
    length (e_lb o1) = n /\ length (e_ub o1) = n /\ new_for w1 o1 (map fst s) m (e_lb o1) (e_ub o1) /\
    new_for w2 o2 (pick (LInt 0) p (map fst s)) (map (Rmult c) (pick 0 p m)) (pick None p (e_lb o1)) (pick None p (e_ub o1)).
  Proof.
    destruct T as (Ha & Hc & H & Hb & Hg & Hr & E1 & E2). pose proof (good_restated p a _ rows rows' H Hg Hr) as Hg'.
    destruct (cvar_init_ready _ _ _ _ _ _ _ _ _ Hg E1) as (O1 & R1 & D1). destruct (cvar_init_ready _ _ _ _ _ _ _ _ _ Hg' E2) as (O2 & R2 & D2).
    do 3 (split; [assumption|]). split; [apply Hg|]. do 7 (split; [assumption|]).
    unfold cvar_init in E1, E2. 
    destruct (ef_init (MIn (MuSeries s)) _ b v1) as [x1 [q1|]] eqn:I1; [|discriminate E1]. destruct (validate_returns _ _); [|discriminate E1].
    destruct (ef_init (MIn (MuSeries (mu_restated p c s))) _ b' v2) as [x2 [q2|]] eqn:I2; [|discriminate E2]. destruct (validate_returns _ _); [|discriminate E2].
    destruct (validate_beta beta); [|discriminate E1]. cbv zeta in E1, E2.
    injection E1 as <- <- _. injection E2 as <- <- _. exact (pair_new p c s b b' _ _ _ _ _ _ _ _ H Hb I1 I2 O1 O2).
  Qed.
  Ltac facts := destruct cvar_facts as (Ha & Hc & H & Hrows & Hrs & O1 & O2 & R1 & R2 & [D1 D1'] & [D2 D2'] & L1 & U1 & F1 & F2);
    pose proof (pair_n1 s (e_lb o1) (e_ub o1) w1 o1 F1) as N1; pose proof (pair_n2 p c s (e_lb o1) (e_ub o1) w2 o2 H F2) as N2;
    assert (A1 : e_add o1 = []) by apply F1; assert (A2 : e_add o2 = []) by apply F2;
    assert (M1 : e_mu o1 = Some m) by apply F1; assert (M2 : e_mu o2 = Some (map (Rmult c) (pick 0 p m))) by apply F2;
    assert (P1 : forall name, fresh_name w1 o1 name) by (intros name; apply no_params; apply F1);
    assert (P2 : forall name, fresh_name w2 o2 name) by (intros name; apply no_params; apply F2).
  Lemma cvar_risk_scaled : forall x, length x = n -> cvar beta (dropna rows') (pick 0 p x) = a * cvar beta (dropna rows) x.
  Proof. intros x Lx. facts. apply (cvar_restated p a n); assumption. Qed.
  Lemma cvar_mu_scaled : forall x, length x = n -> inner (map (Rmult c) (pick 0 p m)) (pick 0 p x) = c * inner m x.
  Proof. intros x Lx. facts. apply (inner_restated n); [exact H|apply map_length|exact Lx]. Qed.

  Section Answers.
  Variables (sv1 sv2 : solver_t) (mn : bool) (x1 x2 : world) (y1 y2 : ef) (r1 r2 : dict R).
  Hypothesis X1 : exact_solver sv1.
  Hypothesis X2 : exact_solver sv2.
  Hypothesis Nd : NoDup (map fst s).
  Let sum := if mn then 0 else 1.
  Theorem days_min_cvar : min_cvar sv1 d1 mn w1 o1 = (x1, y1, Ok r1) -> min_cvar sv2 d2 mn w2 o2 = (x2, y2, Ok r2) ->
    exists lb ub, bounds_in_force mn o1 lb ub /\ answers (map fst s) lb ub sum (fun _ => True) (cvar beta (dropna rows)) r1 /\ answers (map fst s) lb ub sum (fun _ => True) (cvar beta (dropna rows)) r2.
  Proof.
    intros E1 E2. facts. destruct (min_cvar_best _ _ _ _ O1 R1 sv1 mn _ _ _ X1 E1) as (lb1 & ub1 & s1 & B1 & Q1 & _). destruct (min_cvar_best _ _ _ _ O2 R2 sv2 mn _ _ _ X2 E2) as (lb2 & ub2 & s2 & B2 & Q2 & _).
    rewrite D1, D1' in Q1. rewrite D2, D2' in Q2.
    refine (pair_answers p c s _ _ w1 w2 o1 o2 H L1 U1 F1 F2 mn _ _ _ _ _ _ _ a _ _ r1 r2 _ _ Nd Ha _ _ B1 (ex_intro _ _ Q1) B2 (ex_intro _ _ Q2)); [tauto|apply cvar_risk_scaled].
  Qed.
  Theorem days_cvar_risk : forall t, cvar_efficient_risk sv1 d1 t mn w1 o1 = (x1, y1, Ok r1) -> cvar_efficient_risk sv2 d2 (a * t) mn w2 o2 = (x2, y2, Ok r2) ->
    exists lb ub, bounds_in_force mn o1 lb ub /\ answers (map fst s) lb ub sum (fun x => cvar beta (dropna rows) x <= t) (fun x => - inner m x) r1 /\
      answers (map fst s) lb ub sum (fun x => cvar beta (dropna rows) x <= t) (fun x => - inner m x) r2.
  Proof.
    intros t E1 E2. facts. destruct (cvar_risk_best _ _ _ _ O1 R1 sv1 mn _ _ _ _ _ X1 M1 (P1 _) E1) as (_ & lb1 & ub1 & s1 & B1 & Q1 & _). destruct (cvar_risk_best _ _ _ _ O2 R2 sv2 mn _ _ _ _ _ X2 M2 (P2 _) E2) as (_ & lb2 & ub2 & s2 & B2 & Q2 & _).
    rewrite D1, D1' in Q1. rewrite D2, D2' in Q2.
    refine (pair_answers p c s _ _ w1 w2 o1 o2 H L1 U1 F1 F2 mn _ _ _ _ _ _ _ c _ _ r1 r2 _ _ Nd Hc _ _ B1 (ex_intro _ _ Q1) B2 (ex_intro _ _ Q2)).
    - intros x Lx. rewrite cvar_risk_scaled by exact Lx. split; intros Hle; nra.
    - intros x Lx. rewrite cvar_mu_scaled by exact Lx. ring.
  Qed.
  Theorem days_cvar_return : forall t, cvar_efficient_return sv1 d1 t mn w1 o1 = (x1, y1, Ok r1) -> cvar_efficient_return sv2 d2 (c * t) mn w2 o2 = (x2, y2, Ok r2) ->
    exists lb ub, bounds_in_force mn o1 lb ub /\ answers (map fst s) lb ub sum (fun x => t <= inner m x) (cvar beta (dropna rows)) r1 /\ answers (map fst s) lb ub sum (fun x => t <= inner m x) (cvar beta (dropna rows)) r2.
  Proof.
    intros t E1 E2. facts. destruct (cvar_return_best _ _ _ _ O1 R1 sv1 mn _ _ _ _ _ X1 M1 (P1 _) E1) as (lb1 & ub1 & s1 & B1 & Q1 & _). destruct (cvar_return_best _ _ _ _ O2 R2 sv2 mn _ _ _ _ _ X2 M2 (P2 _) E2) as (lb2 & ub2 & s2 & B2 & Q2 & _).
    rewrite D1, D1' in Q1. rewrite D2, D2' in Q2.
    refine (pair_answers p c s _ _ w1 w2 o1 o2 H L1 U1 F1 F2 mn _ _ _ _ _ _ _ a _ _ r1 r2 _ _ Nd Ha _ _ B1 (ex_intro _ _ Q1) B2 (ex_intro _ _ Q2)); [|apply cvar_risk_scaled].
    intros x Lx. rewrite cvar_mu_scaled by exact Lx. split; intros Hle; nra.
  Qed.
  End Answers.

  Section Both.
  Variables (sv1 sv2 : solver_t) (mn : bool).
  Hypothesis X1 : exact_solver sv1.
  Hypothesis X2 : exact_solver sv2.
  Hypothesis K1 : complete_solver sv1.
  Hypothesis K2 : complete_solver sv2.
  Theorem both_min_cvar : succeeds (min_cvar sv1 d1 mn) w1 o1 <-> succeeds (min_cvar sv2 d2 mn) w2 o2.
  Proof.
    facts.
    rewrite (run_iff (min_cvar sv1 d1 mn) w1 o1 mn _ _ _ O1 A1 ltac:(intros ? ? ? E; destruct (min_cvar_best _ _ _ _ O1 R1 sv1 mn _ _ _ X1 E) as (lb' & ub' & s' & B' & Q' & _); exists lb', ub'; split; [exact B'|eexists; exact (ex_intro _ _ Q')]) (min_cvar_answers _ _ _ _ O1 R1 sv1 mn K1)).
    rewrite (run_iff (min_cvar sv2 d2 mn) w2 o2 mn _ _ _ O2 A2 ltac:(intros ? ? ? E; destruct (min_cvar_best _ _ _ _ O2 R2 sv2 mn _ _ _ X2 E) as (lb' & ub' & s' & B' & Q' & _); exists lb', ub'; split; [exact B'|eexists; exact (ex_intro _ _ Q')]) (min_cvar_answers _ _ _ _ O2 R2 sv2 mn K2)).
    rewrite N1, N2, D1, D1', D2, D2'.
    apply (pair_exists p c s _ _ w1 w2 o1 o2 H L1 U1 F1 F2 mn _ _ _ (a)); [exact Ha|tauto|apply cvar_risk_scaled].
  Qed.
  Lemma cvar_risk_target : forall (sv : solver_t) (d : cvar_data) t w o m0, exact_solver sv -> open_ef w o [] -> cvar_ready w o [] d -> e_mu o = Some m0 -> (forall name, fresh_name w o name) ->
    succeeds (cvar_efficient_risk sv d t mn) w o -> 0 <= t.
  Proof. intros sv d t w o m0 X O R0 M0 P0 (w' & o' & dd & E). apply (cvar_risk_best _ _ _ _ O R0 sv mn _ _ _ _ _ X M0 (P0 _) E). Qed.
  Theorem both_cvar_risk : forall t, succeeds (cvar_efficient_risk sv1 d1 t mn) w1 o1 <-> succeeds (cvar_efficient_risk sv2 d2 (a * t) mn) w2 o2.
  Proof.
    intros t. facts.
    assert (Gt : 0 <= t <-> 0 <= a * t) by (split; intros Hle; nra).
    destruct (Rle_dec 0 t) as [G1|G1]; [|split; intros E; [apply (cvar_risk_target _ _ _ _ _ _ X1 O1 R1 M1 P1) in E|apply (cvar_risk_target _ _ _ _ _ _ X2 O2 R2 M2 P2) in E]; tauto]. pose proof (proj1 Gt G1) as G2.
    rewrite (run_iff (cvar_efficient_risk sv1 d1 t mn) w1 o1 mn _ _ _ O1 A1 ltac:(intros ? ? ? E; destruct (cvar_risk_best _ _ _ _ O1 R1 sv1 mn _ _ _ _ _ X1 M1 (P1 _) E) as (_ & lb' & ub' & s' & B' & Q' & _); exists lb', ub'; split; [exact B'|eexists; exact (ex_intro _ _ Q')]) (cvar_risk_answers _ _ _ _ O1 R1 sv1 mn _ _ K1 M1 (P1 _) G1)).
    rewrite (run_iff (cvar_efficient_risk sv2 d2 (a * t) mn) w2 o2 mn _ _ _ O2 A2 ltac:(intros ? ? ? E; destruct (cvar_risk_best _ _ _ _ O2 R2 sv2 mn _ _ _ _ _ X2 M2 (P2 _) E) as (_ & lb' & ub' & s' & B' & Q' & _); exists lb', ub'; split; [exact B'|eexists; exact (ex_intro _ _ Q')]) (cvar_risk_answers _ _ _ _ O2 R2 sv2 mn _ _ K2 M2 (P2 _) G2)).
    rewrite N1, N2, D1, D1', D2, D2'.
    apply (pair_exists p c s _ _ w1 w2 o1 o2 H L1 U1 F1 F2 mn _ _ _ (c)); [exact Hc| |intros x Lx; rewrite cvar_mu_scaled by exact Lx; ring].
    intros x Lx. rewrite cvar_risk_scaled by exact Lx. split; intros Hle; nra.
  Qed.
  Theorem both_cvar_return : forall t, succeeds (cvar_efficient_return sv1 d1 t mn) w1 o1 <-> succeeds (cvar_efficient_return sv2 d2 (c * t) mn) w2 o2.
  Proof.
    intros t. facts.
    rewrite (run_iff (cvar_efficient_return sv1 d1 t mn) w1 o1 mn _ _ _ O1 A1 ltac:(intros ? ? ? E; destruct (cvar_return_best _ _ _ _ O1 R1 sv1 mn _ _ _ _ _ X1 M1 (P1 _) E) as (lb' & ub' & s' & B' & Q' & _); exists lb', ub'; split; [exact B'|eexists; exact (ex_intro _ _ Q')]) (cvar_return_answers _ _ _ _ O1 R1 sv1 mn _ _ K1 M1 (P1 _))).
    rewrite (run_iff (cvar_efficient_return sv2 d2 (c * t) mn) w2 o2 mn _ _ _ O2 A2 ltac:(intros ? ? ? E; destruct (cvar_return_best _ _ _ _ O2 R2 sv2 mn _ _ _ _ _ X2 M2 (P2 _) E) as (lb' & ub' & s' & B' & Q' & _); exists lb', ub'; split; [exact B'|eexists; exact (ex_intro _ _ Q')]) (cvar_return_answers _ _ _ _ O2 R2 sv2 mn _ _ K2 M2 (P2 _))).
    rewrite N1, N2, D1, D1', D2, D2'.
    apply (pair_exists p c s _ _ w1 w2 o1 o2 H L1 U1 F1 F2 mn _ _ _ (a)); [exact Ha| |apply cvar_risk_scaled].
    intros x Lx. rewrite cvar_mu_scaled by exact Lx. split; intros Hle; nra.
  Qed.
  End Both.
End CVaR.

Section CDaR.
  Variables (p : list nat) (a c : R) (s : list (label * R)) (rows rows' : list (list (option R))) (beta : R) (b b' : bounds_arg) (v1 v2 w1 w2 : world) (o1 o2 : ef) (d1 d2 : cdar_data).
  Hypothesis T : cdar_twins p a c s rows rows' beta b b' v1 v2 w1 w2 o1 o2 d1 d2.
  Let n := length s.
  Let m := map snd s.
  Lemma cdar_facts : 0 < a /\ 0 < c /\ ordering n p /\ Forall (fun r => length r = n) rows /\ restated_in_order p a rows rows' /\
    open_ef w1 o1 [] /\ open_ef w2 o2 [] /\ cdar_ready w1 o1 [] d1 /\ cdar_ready w2 o2 [] d2 /\
    (cd_returns d1 = dropna rows /\ cd_beta d1 = beta) /\ (cd_returns d2 = dropna rows' /\ cd_beta d2 = beta) /\
    length (e_lb o1) = n /\ length (e_ub o1) = n /\ new_for w1 o1 (map fst s) m (e_lb o1) (e_ub o1) /\
    new_for w2 o2 (pick (LInt 0) p (map fst s)) (map (Rmult c) (pick 0 p m)) (pick None p (e_lb o1)) (pick None p (e_ub o1)).
  Proof.
    destruct T as (Ha & Hc & H & Hb & Hg & Hr & E1 & E2). pose proof (good_restated p a _ rows rows' H Hg (in_order_restated _ _ _ _ Hr)) as Hg'.
    destruct (cdar_init_ready _ _ _ _ _ _ _ _ _ Hg E1) as (O1 & R1 & D1). destruct (cdar_init_ready _ _ _ _ _ _ _ _ _ Hg' E2) as (O2 & R2 & D2).
    do 3 (split; [assumption|]). split; [apply Hg|]. do 7 (split; [assumption|]).
    unfold cdar_init in E1, E2. cbn [mu_values] in E1, E2. rewrite map_length in E1, E2. rewrite (mu_restated_length p c s H) in E2.
    destruct (ef_init (MIn (MuSeries s)) _ b v1) as [x1 [q1|]] eqn:I1; [|discriminate E1]. destruct (validate_returns _ _); [|discriminate E1].
    destruct (ef_init (MIn (MuSeries (mu_restated p c s))) _ b' v2) as [x2 [q2|]] eqn:I2; [|discriminate E2]. destruct (validate_returns _ _); [|discriminate E2].
    destruct (validate_beta beta); [|discriminate E1]. cbv zeta in E1, E2.
    injection E1 as <- <- _. injection E2 as <- <- _. exact (pair_new p c s b b' _ _ _ _ _ _ _ _ H Hb I1 I2 O1 O2).
  Qed.
  Ltac facts := destruct cdar_facts as (Ha & Hc & H & Hrows & Hrs & O1 & O2 & R1 & R2 & [D1 D1'] & [D2 D2'] & L1 & U1 & F1 & F2);
    pose proof (pair_n1 s (e_lb o1) (e_ub o1) w1 o1 F1) as N1; pose proof (pair_n2 p c s (e_lb o1) (e_ub o1) w2 o2 H F2) as N2;
    assert (A1 : e_add o1 = []) by apply F1; assert (A2 : e_add o2 = []) by apply F2;
    assert (M1 : e_mu o1 = Some m) by apply F1; assert (M2 : e_mu o2 = Some (map (Rmult c) (pick 0 p m))) by apply F2;
    assert (P1 : forall name, fresh_name w1 o1 name) by (intros name; apply no_params; apply F1);
    assert (P2 : forall name, fresh_name w2 o2 name) by (intros name; apply no_params; apply F2).
  Lemma cdar_risk_scaled : forall x, length x = n -> cdar beta (dropna rows') (pick 0 p x) = a * cdar beta (dropna rows) x.
  Proof. intros x Lx. facts. apply (cdar_restated p a n); assumption. Qed.
  Lemma cdar_mu_scaled : forall x, length x = n -> inner (map (Rmult c) (pick 0 p m)) (pick 0 p x) = c * inner m x.
  Proof. intros x Lx. facts. apply (inner_restated n); [exact H|apply map_length|exact Lx]. Qed.

  Section Answers.
  Variables (sv1 sv2 : solver_t) (mn : bool) (x1 x2 : world) (y1 y2 : ef) (r1 r2 : dict R).
  Hypothesis X1 : exact_solver sv1.
  Hypothesis X2 : exact_solver sv2.
  Hypothesis Nd : NoDup (map fst s).
  Let sum := if mn then 0 else 1.
  Theorem days_min_cdar : min_cdar sv1 d1 mn w1 o1 = (x1, y1, Ok r1) -> min_cdar sv2 d2 mn w2 o2 = (x2, y2, Ok r2) ->
    exists lb ub, bounds_in_force mn o1 lb ub /\ answers (map fst s) lb ub sum (fun _ => True) (cdar beta (dropna rows)) r1 /\ answers (map fst s) lb ub sum (fun _ => True) (cdar beta (dropna rows)) r2.
  Proof.
    intros E1 E2. facts. destruct (min_cdar_best _ _ _ _ O1 R1 sv1 mn _ _ _ X1 E1) as (lb1 & ub1 & s1 & B1 & Q1 & _). destruct (min_cdar_best _ _ _ _ O2 R2 sv2 mn _ _ _ X2 E2) as (lb2 & ub2 & s2 & B2 & Q2 & _).
    rewrite D1, D1' in Q1. rewrite D2, D2' in Q2.
    refine (pair_answers p c s _ _ w1 w2 o1 o2 H L1 U1 F1 F2 mn _ _ _ _ _ _ _ a _ _ r1 r2 _ _ Nd Ha _ _ B1 (ex_intro _ _ Q1) B2 (ex_intro _ _ Q2)); [tauto|apply cdar_risk_scaled].
  Qed.
  Theorem days_cdar_risk : forall t, cdar_efficient_risk sv1 d1 t mn w1 o1 = (x1, y1, Ok r1) -> cdar_efficient_risk sv2 d2 (a * t) mn w2 o2 = (x2, y2, Ok r2) ->
    exists lb ub, bounds_in_force mn o1 lb ub /\ answers (map fst s) lb ub sum (fun x => cdar beta (dropna rows) x <= t) (fun x => - inner m x) r1 /\
      answers (map fst s) lb ub sum (fun x => cdar beta (dropna rows) x <= t) (fun x => - inner m x) r2.
  Proof.
    intros t E1 E2. facts. destruct (cdar_risk_best _ _ _ _ O1 R1 sv1 mn _ _ _ _ _ X1 M1 (P1 _) E1) as (_ & lb1 & ub1 & s1 & B1 & Q1 & _). destruct (cdar_risk_best _ _ _ _ O2 R2 sv2 mn _ _ _ _ _ X2 M2 (P2 _) E2) as (_ & lb2 & ub2 & s2 & B2 & Q2 & _).
    rewrite D1, D1' in Q1. rewrite D2, D2' in Q2.
    refine (pair_answers p c s _ _ w1 w2 o1 o2 H L1 U1 F1 F2 mn _ _ _ _ _ _ _ c _ _ r1 r2 _ _ Nd Hc _ _ B1 (ex_intro _ _ Q1) B2 (ex_intro _ _ Q2)).
    - intros x Lx. rewrite cdar_risk_scaled by exact Lx. split; intros Hle; nra.
    - intros x Lx. rewrite cdar_mu_scaled by exact Lx. ring.
  Qed.
  Theorem days_cdar_return : forall t, cdar_efficient_return sv1 d1 t mn w1 o1 = (x1, y1, Ok r1) -> cdar_efficient_return sv2 d2 (c * t) mn w2 o2 = (x2, y2, Ok r2) ->
    exists lb ub, bounds_in_force mn o1 lb ub /\ answers (map fst s) lb ub sum (fun x => t <= inner m x) (cdar beta (dropna rows)) r1 /\ answers (map fst s) lb ub sum (fun x => t <= inner m x) (cdar beta (dropna rows)) r2.
  Proof.
    intros t E1 E2. facts. destruct (cdar_return_best _ _ _ _ O1 R1 sv1 mn _ _ _ _ _ X1 M1 (P1 _) E1) as (_ & lb1 & ub1 & s1 & B1 & Q1 & _). destruct (cdar_return_best _ _ _ _ O2 R2 sv2 mn _ _ _ _ _ X2 M2 (P2 _) E2) as (_ & lb2 & ub2 & s2 & B2 & Q2 & _).
    rewrite D1, D1' in Q1. rewrite D2, D2' in Q2.
    refine (pair_answers p c s _ _ w1 w2 o1 o2 H L1 U1 F1 F2 mn _ _ _ _ _ _ _ a _ _ r1 r2 _ _ Nd Ha _ _ B1 (ex_intro _ _ Q1) B2 (ex_intro _ _ Q2)); [|apply cdar_risk_scaled].
    intros x Lx. rewrite cdar_mu_scaled by exact Lx. split; intros Hle; nra.
  Qed.
  End Answers.

  Section Both.
  Variables (sv1 sv2 : solver_t) (mn : bool).
  Hypothesis X1 : exact_solver sv1.
  Hypothesis X2 : exact_solver sv2.
  Hypothesis K1 : complete_solver sv1.
  Hypothesis K2 : complete_solver sv2.
  Theorem both_min_cdar : succeeds (min_cdar sv1 d1 mn) w1 o1 <-> succeeds (min_cdar sv2 d2 mn) w2 o2.
  Proof.
    facts.
    rewrite (run_iff (min_cdar sv1 d1 mn) w1 o1 mn _ _ _ O1 A1 ltac:(intros ? ? ? E; destruct (min_cdar_best _ _ _ _ O1 R1 sv1 mn _ _ _ X1 E) as (lb' & ub' & s' & B' & Q' & _); exists lb', ub'; split; [exact B'|eexists; exact (ex_intro _ _ Q')]) (min_cdar_answers _ _ _ _ O1 R1 sv1 mn K1)).
    rewrite (run_iff (min_cdar sv2 d2 mn) w2 o2 mn _ _ _ O2 A2 ltac:(intros ? ? ? E; destruct (min_cdar_best _ _ _ _ O2 R2 sv2 mn _ _ _ X2 E) as (lb' & ub' & s' & B' & Q' & _); exists lb', ub'; split; [exact B'|eexists; exact (ex_intro _ _ Q')]) (min_cdar_answers _ _ _ _ O2 R2 sv2 mn K2)).
    rewrite N1, N2, D1, D1', D2, D2'.
    apply (pair_exists p c s _ _ w1 w2 o1 o2 H L1 U1 F1 F2 mn _ _ _ (a)); [exact Ha|tauto|apply cdar_risk_scaled].
  Qed.
  Lemma cdar_risk_target : forall (sv : solver_t) (d : cdar_data) t w o m0, exact_solver sv -> open_ef w o [] -> cdar_ready w o [] d -> e_mu o = Some m0 -> (forall name, fresh_name w o name) ->
    succeeds (cdar_efficient_risk sv d t mn) w o -> 0 <= t.
  Proof. intros sv d t w o m0 X O R0 M0 P0 (w' & o' & dd & E). apply (cdar_risk_best _ _ _ _ O R0 sv mn _ _ _ _ _ X M0 (P0 _) E). Qed.
  Theorem both_cdar_risk : forall t, succeeds (cdar_efficient_risk sv1 d1 t mn) w1 o1 <-> succeeds (cdar_efficient_risk sv2 d2 (a * t) mn) w2 o2.
  Proof.
    intros t. facts.
    assert (Gt : 0 <= t <-> 0 <= a * t) by (split; intros Hle; nra).
    destruct (Rle_dec 0 t) as [G1|G1]; [|split; intros E; [apply (cdar_risk_target _ _ _ _ _ _ X1 O1 R1 M1 P1) in E|apply (cdar_risk_target _ _ _ _ _ _ X2 O2 R2 M2 P2) in E]; tauto]. pose proof (proj1 Gt G1) as G2.
    rewrite (run_iff (cdar_efficient_risk sv1 d1 t mn) w1 o1 mn _ _ _ O1 A1 ltac:(intros ? ? ? E; destruct (cdar_risk_best _ _ _ _ O1 R1 sv1 mn _ _ _ _ _ X1 M1 (P1 _) E) as (_ & lb' & ub' & s' & B' & Q' & _); exists lb', ub'; split; [exact B'|eexists; exact (ex_intro _ _ Q')]) (cdar_risk_answers _ _ _ _ O1 R1 sv1 mn _ _ K1 M1 (P1 _) G1)).
    rewrite (run_iff (cdar_efficient_risk sv2 d2 (a * t) mn) w2 o2 mn _ _ _ O2 A2 ltac:(intros ? ? ? E; destruct (cdar_risk_best _ _ _ _ O2 R2 sv2 mn _ _ _ _ _ X2 M2 (P2 _) E) as (_ & lb' & ub' & s' & B' & Q' & _); exists lb', ub'; split; [exact B'|eexists; exact (ex_intro _ _ Q')]) (cdar_risk_answers _ _ _ _ O2 R2 sv2 mn _ _ K2 M2 (P2 _) G2)).
    rewrite N1, N2, D1, D1', D2, D2'.
    apply (pair_exists p c s _ _ w1 w2 o1 o2 H L1 U1 F1 F2 mn _ _ _ (c)); [exact Hc| |intros x Lx; rewrite cdar_mu_scaled by exact Lx; ring].
    intros x Lx. rewrite cdar_risk_scaled by exact Lx. split; intros Hle; nra.
  Qed.
  Lemma cdar_return_target : forall (sv : solver_t) (d : cdar_data) t w o m0, exact_solver sv -> open_ef w o [] -> cdar_ready w o [] d -> e_mu o = Some m0 -> (forall name, fresh_name w o name) ->
    succeeds (cdar_efficient_return sv d t mn) w o -> 0 <= t.
  Proof. intros sv d t w o m0 X O R0 M0 P0 (w' & o' & dd & E). apply (cdar_return_best _ _ _ _ O R0 sv mn _ _ _ _ _ X M0 (P0 _) E). Qed.
  Theorem both_cdar_return : forall t, succeeds (cdar_efficient_return sv1 d1 t mn) w1 o1 <-> succeeds (cdar_efficient_return sv2 d2 (c * t) mn) w2 o2.
  Proof.
    intros t. facts.
    assert (Gt : 0 <= t <-> 0 <= c * t) by (split; intros Hle; nra).
    destruct (Rle_dec 0 t) as [G1|G1]; [|split; intros E; [apply (cdar_return_target _ _ _ _ _ _ X1 O1 R1 M1 P1) in E|apply (cdar_return_target _ _ _ _ _ _ X2 O2 R2 M2 P2) in E]; tauto]. pose proof (proj1 Gt G1) as G2.
    rewrite (run_iff (cdar_efficient_return sv1 d1 t mn) w1 o1 mn _ _ _ O1 A1 ltac:(intros ? ? ? E; destruct (cdar_return_best _ _ _ _ O1 R1 sv1 mn _ _ _ _ _ X1 M1 (P1 _) E) as (_ & lb' & ub' & s' & B' & Q' & _); exists lb', ub'; split; [exact B'|eexists; exact (ex_intro _ _ Q')]) (cdar_return_answers _ _ _ _ O1 R1 sv1 mn _ _ K1 M1 (P1 _) G1)).
    rewrite (run_iff (cdar_efficient_return sv2 d2 (c * t) mn) w2 o2 mn _ _ _ O2 A2 ltac:(intros ? ? ? E; destruct (cdar_return_best _ _ _ _ O2 R2 sv2 mn _ _ _ _ _ X2 M2 (P2 _) E) as (_ & lb' & ub' & s' & B' & Q' & _); exists lb', ub'; split; [exact B'|eexists; exact (ex_intro _ _ Q')]) (cdar_return_answers _ _ _ _ O2 R2 sv2 mn _ _ K2 M2 (P2 _) G2)).
    rewrite N1, N2, D1, D1', D2, D2'.
    apply (pair_exists p c s _ _ w1 w2 o1 o2 H L1 U1 F1 F2 mn _ _ _ (a)); [exact Ha| |apply cdar_risk_scaled].
    intros x Lx. rewrite cdar_mu_scaled by exact Lx. split; intros Hle; nra.
  Qed.
  End Both.
End CDaR.

