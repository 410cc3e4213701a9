(** * Each call of the downside optimizers on a new object: what it answers and when (C139, C140) *)
From Coq Require Import ZArith String List Bool Reals Lia Lra Permutation.
From Verif Require Import Num Py RBase PyLemmas SBL MBase MConvex MEF MDown SLin SBase SConvex SPerm SUnits SDown SDays Sums Mat PBase PConvex PEF PEF2 PEF3 PEF4 PEF6 PDown PDown2 PDown3 PDown4 PDown5 PObj PPerm PPerm2 PPerm3 PPerm4 PUnits PRisk PExist5 PDays PDays2.
Import ListNotations.
Local Open Scope R_scope.

Lemma new_answers : forall w o ts m lb0 ub0 lb ub sum (ok : list R -> Prop) cost ws d, new_for w o ts m lb0 ub0 -> NoDup ts ->
  best_portfolio w o [] lb ub sum ok cost ws d -> answers ts lb ub sum ok cost d.
Proof.
  intros w o ts m lb0 ub0 lb ub sum ok cost ws d (O & A & _ & E & _) Hnd B. pose proof O as (_ & _ & _ & _ & Hsz & _).
  destruct (best_chosen _ _ _ _ _ _ _ _ _ Hsz A B) as [x [r [C [_ [F Ed]]]]]. unfold e_n in C. rewrite E in C.
  exists x, r. split; [exact C|]. split; [exact F|]. intros t. subst d. rewrite E.
  rewrite dict_of_pairs_NoDup; [reflexivity|]. rewrite fst_combine; [exact Hnd|]. rewrite <- (Forall2_length _ _ _ F). destruct C as [C _]. symmetry. exact C.
Qed.
Lemma same_force : forall mn o1 o2 lb ub, e_n o2 = e_n o1 -> e_lb o2 = e_lb o1 -> e_ub o2 = e_ub o1 -> bounds_in_force mn o2 lb ub <-> bounds_in_force mn o1 lb ub.
Proof. intros mn o1 o2 lb ub N L U. unfold bounds_in_force. rewrite L, U, N. tauto. Qed.

Section Run_cvar.
  Variables (s : list (label * R)) (rows : list (list (option R))) (beta : R) (b : bounds_arg) (v w : world) (o : ef) (d : cvar_data).
  Hypothesis (Hg : good_rows (length s) rows) (E : cvar_init (MIn (MuSeries s)) (RTable (length s) rows) beta b v = (w, Ok (o, d))).
  Let m := map snd s.
  Lemma cvar_run_facts : open_ef w o [] /\ cvar_ready w o [] d /\ (cv_returns d = dropna rows /\ cv_beta d = beta) /\
    new_for w o (map fst s) m (e_lb o) (e_ub o) /\ read_bounds (length s) b = Ok (e_lb o, e_ub o) /\ e_n o = length s.
  Proof.
    destruct (cvar_init_ready _ _ _ _ _ _ _ _ _ Hg E) as (O & Rd & Dd). split; [exact O|]. split; [exact Rd|]. split; [exact Dd|].
    pose proof E as E0. unfold cvar_init in E0. cbn [mu_values] in E0. try rewrite map_length in E0.
    destruct (ef_init (MIn (MuSeries s)) _ b v) as [x1 [q1|]] eqn:I1; [|discriminate E0]. destruct (validate_returns _ _); [|discriminate E0]. destruct (validate_beta beta); [|discriminate E0]. cbv zeta in E0.
    injection E0 as <- <- _. destruct (zeros_square (length s)) as [Z _]. destruct (init_new_for _ _ _ _ _ _ Z I1) as (A1 & B1 & C1 & D1 & R1 & L1 & U1).
    unfold new_for, e_n. rewrite C1. rewrite map_length. repeat match goal with |- _ /\ _ => split end; first [assumption | exact eq_refl | apply map_length | idtac].
  Qed.
  Ltac facts := destruct cvar_run_facts as (O & Rd & Dd & F & Rb & N);
    assert (A : e_add o = []) by apply F; assert (M : e_mu o = Some m) by apply F;
    assert (P : forall name, fresh_name w o name) by (intros name; apply no_params; apply F).
  Variables (sv : solver_t) (mn : bool).
  Hypothesis X : exact_solver sv.
  Let sum := if mn then 0 else 1.
  Theorem cvar_min_run : forall x y r, NoDup (map fst s) -> min_cvar sv d mn w o = (x, y, Ok r) -> exists lb ub, bounds_in_force mn o lb ub /\ answers (map fst s) lb ub sum (fun _ => True) (cvar beta (dropna rows)) r.
  Proof.
    intros x y r Hnd E1. facts. destruct (min_cvar_best _ _ _ _ O Rd sv mn _ _ _ X E1) as (lb & ub & s1 & B & Q & _). rewrite (proj1 Dd), (proj2 Dd) in Q.
    exists lb, ub. split; [exact B|]. exact (new_answers _ _ _ _ _ _ _ _ _ _ _ _ _ F Hnd (ex_intro _ _ Q)).
  Qed.
  Theorem cvar_min_iff : complete_solver sv -> (succeeds (min_cvar sv d mn) w o <-> exists lb ub x, bounds_in_force mn o lb ub /\ chosen (length s) lb ub sum (fun _ => True) (cvar beta (dropna rows)) x).
  Proof.
    intros K. facts.
    rewrite (run_iff (min_cvar sv d mn) w o mn _ _ _ O A ltac:(intros ? ? ? E1; destruct (min_cvar_best _ _ _ _ O Rd sv mn _ _ _ X E1) as (lb' & ub' & s' & B' & Q' & _); exists lb', ub'; split; [exact B'|eexists; exact (ex_intro _ _ Q')]) (min_cvar_answers _ _ _ _ O Rd sv mn K)).
    rewrite N, (proj1 Dd), (proj2 Dd). tauto.
  Qed.
  Theorem cvar_risk_run : forall t, forall x y r, NoDup (map fst s) -> cvar_efficient_risk sv d t mn w o = (x, y, Ok r) -> exists lb ub, bounds_in_force mn o lb ub /\ answers (map fst s) lb ub sum (fun x => cvar beta (dropna rows) x <= t) (fun x => - inner m x) r.
  Proof.
    intros t x y r Hnd E1. facts. destruct (cvar_risk_best _ _ _ _ O Rd sv mn _ _ _ _ _ X M (P _) E1) as (_ & lb & ub & s1 & B & Q & _). rewrite (proj1 Dd), (proj2 Dd) in Q.
    exists lb, ub. split; [exact B|]. exact (new_answers _ _ _ _ _ _ _ _ _ _ _ _ _ F Hnd (ex_intro _ _ Q)).
  Qed.
  Theorem cvar_risk_iff : complete_solver sv -> forall t, (succeeds (cvar_efficient_risk sv d t mn) w o <-> 0 <= t /\ exists lb ub x, bounds_in_force mn o lb ub /\ chosen (length s) lb ub sum (fun x => cvar beta (dropna rows) x <= t) (fun x => - inner m x) x).
  Proof.
    intros K t. facts.
    destruct (Rle_dec 0 t) as [G|G]; [|split; [intros E1; apply (cvar_risk_target mn _ _ _ _ _ _ X O Rd M P) in E1; tauto|tauto]].
    rewrite (run_iff (cvar_efficient_risk sv d t mn) w o mn _ _ _ O A ltac:(intros ? ? ? E1; destruct (cvar_risk_best _ _ _ _ O Rd sv mn _ _ _ _ _ X M (P _) E1) as (_ & lb' & ub' & s' & B' & Q' & _); exists lb', ub'; split; [exact B'|eexists; exact (ex_intro _ _ Q')]) (cvar_risk_answers _ _ _ _ O Rd sv mn _ _ K M (P _) G)).
    rewrite N, (proj1 Dd), (proj2 Dd). tauto.
  Qed.
  Theorem cvar_return_run : forall t, forall x y r, NoDup (map fst s) -> cvar_efficient_return sv d t mn w o = (x, y, Ok r) -> exists lb ub, bounds_in_force mn o lb ub /\ answers (map fst s) lb ub sum (fun x => t <= inner m x) (cvar beta (dropna rows)) r.
  Proof.
    intros t x y r Hnd E1. facts. destruct (cvar_return_best _ _ _ _ O Rd sv mn _ _ _ _ _ X M (P _) E1) as (lb & ub & s1 & B & Q & _). rewrite (proj1 Dd), (proj2 Dd) in Q.
    exists lb, ub. split; [exact B|]. exact (new_answers _ _ _ _ _ _ _ _ _ _ _ _ _ F Hnd (ex_intro _ _ Q)).
  Qed.
  Theorem cvar_return_iff : complete_solver sv -> forall t, (succeeds (cvar_efficient_return sv d t mn) w o <-> exists lb ub x, bounds_in_force mn o lb ub /\ chosen (length s) lb ub sum (fun x => t <= inner m x) (cvar beta (dropna rows)) x).
  Proof.
    intros K t. facts.
    rewrite (run_iff (cvar_efficient_return sv d t mn) w o mn _ _ _ O A ltac:(intros ? ? ? E1; destruct (cvar_return_best _ _ _ _ O Rd sv mn _ _ _ _ _ X M (P _) E1) as (lb' & ub' & s' & B' & Q' & _); exists lb', ub'; split; [exact B'|eexists; exact (ex_intro _ _ Q')]) (cvar_return_answers _ _ _ _ O Rd sv mn _ _ K M (P _))).
    rewrite N, (proj1 Dd), (proj2 Dd). tauto.
  Qed.
End Run_cvar.

Section Run_cdar.
  Variables (s : list (label * R)) (rows : list (list (option R))) (beta : R) (b : bounds_arg) (v w : world) (o : ef) (d : cdar_data).
  Hypothesis (Hg : good_rows (length s) rows) (E : cdar_init (MIn (MuSeries s)) (RTable (length s) rows) beta b v = (w, Ok (o, d))).
  Let m := map snd s.
  Lemma cdar_run_facts : open_ef w o [] /\ cdar_ready w o [] d /\ (cd_returns d = dropna rows /\ cd_beta d = beta) /\
    new_for w o (map fst s) m (e_lb o) (e_ub o) /\ read_bounds (length s) b = Ok (e_lb o, e_ub o) /\ e_n o = length s.
  Proof.
    destruct (cdar_init_ready _ _ _ _ _ _ _ _ _ Hg E) as (O & Rd & Dd). split; [exact O|]. split; [exact Rd|]. split; [exact Dd|].
    pose proof E as E0. unfold cdar_init in E0. cbn [mu_values] in E0. try rewrite map_length in E0.
    destruct (ef_init (MIn (MuSeries s)) _ b v) as [x1 [q1|]] eqn:I1; [|discriminate E0]. destruct (validate_returns _ _); [|discriminate E0]. destruct (validate_beta beta); [|discriminate E0]. cbv zeta in E0.
    injection E0 as <- <- _. destruct (zeros_square (length s)) as [Z _]. destruct (init_new_for _ _ _ _ _ _ Z I1) as (A1 & B1 & C1 & D1 & R1 & L1 & U1).
    unfold new_for, e_n. rewrite C1. rewrite map_length. repeat match goal with |- _ /\ _ => split end; first [assumption | exact eq_refl | apply map_length | idtac].
  Qed.
  Ltac facts := destruct cdar_run_facts as (O & Rd & Dd & F & Rb & N);
    assert (A : e_add o = []) by apply F; assert (M : e_mu o = Some m) by apply F;
    assert (P : forall name, fresh_name w o name) by (intros name; apply no_params; apply F).
  Variables (sv : solver_t) (mn : bool).
  Hypothesis X : exact_solver sv.
  Let sum := if mn then 0 else 1.
  Theorem cdar_min_run : forall x y r, NoDup (map fst s) -> min_cdar sv d mn w o = (x, y, Ok r) -> exists lb ub, bounds_in_force mn o lb ub /\ answers (map fst s) lb ub sum (fun _ => True) (cdar beta (dropna rows)) r.
  Proof.
    intros x y r Hnd E1. facts. destruct (min_cdar_best _ _ _ _ O Rd sv mn _ _ _ X E1) as (lb & ub & s1 & B & Q & _). rewrite (proj1 Dd), (proj2 Dd) in Q.
    exists lb, ub. split; [exact B|]. exact (new_answers _ _ _ _ _ _ _ _ _ _ _ _ _ F Hnd (ex_intro _ _ Q)).
  Qed.
  Theorem cdar_min_iff : complete_solver sv -> (succeeds (min_cdar sv d mn) w o <-> exists lb ub x, bounds_in_force mn o lb ub /\ chosen (length s) lb ub sum (fun _ => True) (cdar beta (dropna rows)) x).
  Proof.
    intros K. facts.
    rewrite (run_iff (min_cdar sv d mn) w o mn _ _ _ O A ltac:(intros ? ? ? E1; destruct (min_cdar_best _ _ _ _ O Rd sv mn _ _ _ X E1) as (lb' & ub' & s' & B' & Q' & _); exists lb', ub'; split; [exact B'|eexists; exact (ex_intro _ _ Q')]) (min_cdar_answers _ _ _ _ O Rd sv mn K)).
    rewrite N, (proj1 Dd), (proj2 Dd). tauto.
  Qed.
  Theorem cdar_risk_run : forall t, forall x y r, NoDup (map fst s) -> cdar_efficient_risk sv d t mn w o = (x, y, Ok r) -> exists lb ub, bounds_in_force mn o lb ub /\ answers (map fst s) lb ub sum (fun x => cdar beta (dropna rows) x <= t) (fun x => - inner m x) r.
  Proof.
    intros t x y r Hnd E1. facts. destruct (cdar_risk_best _ _ _ _ O Rd sv mn _ _ _ _ _ X M (P _) E1) as (_ & lb & ub & s1 & B & Q & _). rewrite (proj1 Dd), (proj2 Dd) in Q.
    exists lb, ub. split; [exact B|]. exact (new_answers _ _ _ _ _ _ _ _ _ _ _ _ _ F Hnd (ex_intro _ _ Q)).
  Qed.
  Theorem cdar_risk_iff : complete_solver sv -> forall t, (succeeds (cdar_efficient_risk sv d t mn) w o <-> 0 <= t /\ exists lb ub x, bounds_in_force mn o lb ub /\ chosen (length s) lb ub sum (fun x => cdar beta (dropna rows) x <= t) (fun x => - inner m x) x).
  Proof.
    intros K t. facts.
    destruct (Rle_dec 0 t) as [G|G]; [|split; [intros E1; apply (cdar_risk_target mn _ _ _ _ _ _ X O Rd M P) in E1; tauto|tauto]].
    rewrite (run_iff (cdar_efficient_risk sv d t mn) w o mn _ _ _ O A ltac:(intros ? ? ? E1; destruct (cdar_risk_best _ _ _ _ O Rd sv mn _ _ _ _ _ X M (P _) E1) as (_ & lb' & ub' & s' & B' & Q' & _); exists lb', ub'; split; [exact B'|eexists; exact (ex_intro _ _ Q')]) (cdar_risk_answers _ _ _ _ O Rd sv mn _ _ K M (P _) G)).
    rewrite N, (proj1 Dd), (proj2 Dd). tauto.
  Qed.
  Theorem cdar_return_run : forall t, forall x y r, NoDup (map fst s) -> cdar_efficient_return sv d t mn w o = (x, y, Ok r) -> exists lb ub, bounds_in_force mn o lb ub /\ answers (map fst s) lb ub sum (fun x => t <= inner m x) (cdar beta (dropna rows)) r.
  Proof.
    intros t x y r Hnd E1. facts. destruct (cdar_return_best _ _ _ _ O Rd sv mn _ _ _ _ _ X M (P _) E1) as (_ & lb & ub & s1 & B & Q & _). rewrite (proj1 Dd), (proj2 Dd) in Q.
    exists lb, ub. split; [exact B|]. exact (new_answers _ _ _ _ _ _ _ _ _ _ _ _ _ F Hnd (ex_intro _ _ Q)).
  Qed.
  Theorem cdar_return_iff : complete_solver sv -> forall t, (succeeds (cdar_efficient_return sv d t mn) w o <-> 0 <= t /\ exists lb ub x, bounds_in_force mn o lb ub /\ chosen (length s) lb ub sum (fun x => t <= inner m x) (cdar beta (dropna rows)) x).
  Proof.
    intros K t. facts.
    destruct (Rle_dec 0 t) as [G|G]; [|split; [intros E1; apply (cdar_return_target mn _ _ _ _ _ _ X O Rd M P) in E1; tauto|tauto]].
    rewrite (run_iff (cdar_efficient_return sv d t mn) w o mn _ _ _ O A ltac:(intros ? ? ? E1; destruct (cdar_return_best _ _ _ _ O Rd sv mn _ _ _ _ _ X M (P _) E1) as (_ & lb' & ub' & s' & B' & Q' & _); exists lb', ub'; split; [exact B'|eexists; exact (ex_intro _ _ Q')]) (cdar_return_answers _ _ _ _ O Rd sv mn _ _ K M (P _) G)).
    rewrite N, (proj1 Dd), (proj2 Dd). tauto.
  Qed.
End Run_cdar.

Section Run_semi.
  Variables (s : list (label * R)) (rows : list (list (option R))) (freq bench : R) (b : bounds_arg) (v w : world) (o : ef) (d : semi).
  Hypothesis (Hg : good_rows (length s) rows) (E : semi_init (MIn (MuSeries s)) (RTable (length s) rows) freq bench b v = (w, Ok (o, d))).
  Let m := map snd s.
  Lemma semi_run_facts : open_ef w o [] /\ semi_ready w o [] d /\ d = mkSemi (dropna rows) bench freq /\
    new_for w o (map fst s) m (e_lb o) (e_ub o) /\ read_bounds (length s) b = Ok (e_lb o, e_ub o) /\ e_n o = length s.
  Proof.
    destruct (semi_init_ready _ _ _ _ _ _ _ _ _ _ Hg E) as (O & Rd & Dd). split; [exact O|]. split; [exact Rd|]. split; [exact Dd|].
    pose proof E as E0. unfold semi_init in E0. cbn [mu_values] in E0. try rewrite map_length in E0.
    destruct (ef_init (MIn (MuSeries s)) _ b v) as [x1 [q1|]] eqn:I1; [|discriminate E0]. destruct (validate_returns _ _); [|discriminate E0].
    injection E0 as <- <- _. destruct (zeros_square (length s)) as [Z _]. destruct (init_new_for _ _ _ _ _ _ Z I1) as (A1 & B1 & C1 & D1 & R1 & L1 & U1).
    unfold new_for, e_n. rewrite C1. rewrite map_length. repeat match goal with |- _ /\ _ => split end; first [assumption | exact eq_refl | apply map_length | idtac].
  Qed.
  Ltac facts := destruct semi_run_facts as (O & Rd & Dd & F & Rb & N);
    assert (A : e_add o = []) by apply F; assert (M : e_mu o = Some m) by apply F;
    assert (P : forall name, fresh_name w o name) by (intros name; apply no_params; apply F).
  Variables (sv : solver_t) (mn : bool).
  Hypothesis X : exact_solver sv.
  Let sum := if mn then 0 else 1.
  Theorem semi_min_run : forall x y r, NoDup (map fst s) -> min_semivariance sv d mn w o = (x, y, Ok r) -> exists lb ub, bounds_in_force mn o lb ub /\ answers (map fst s) lb ub sum (fun _ => True) (semivariance (dropna rows) (bench * sum)) r.
  Proof.
    intros x y r Hnd E1. facts. destruct (min_semivariance_best _ _ _ _ O Rd sv mn X _ _ _ E1) as (lb & ub & B & Q & _). rewrite Dd in Q; cbn [sd_returns sd_bench sd_freq] in Q.
    exists lb, ub. split; [exact B|]. exact (new_answers _ _ _ _ _ _ _ _ _ _ _ _ _ F Hnd Q).
  Qed.
  Theorem semi_min_iff : complete_solver sv -> (succeeds (min_semivariance sv d mn) w o <-> exists lb ub x, bounds_in_force mn o lb ub /\ chosen (length s) lb ub sum (fun _ => True) (semivariance (dropna rows) (bench * sum)) x).
  Proof.
    intros K. facts.
    rewrite (run_iff (min_semivariance sv d mn) w o mn _ _ _ O A ltac:(intros ? ? ? E1; destruct (min_semivariance_best _ _ _ _ O Rd sv mn X _ _ _ E1) as (lb' & ub' & B' & Q' & _); exists lb', ub'; split; [exact B'|eexists; exact Q']) (min_semivariance_answers _ _ _ _ O Rd sv mn K)).
    rewrite N, Dd. cbn [sd_returns sd_bench sd_freq]. tauto.
  Qed.
  Theorem semi_risk_run : forall t x y r, 0 <= freq -> NoDup (map fst s) -> semi_efficient_risk sv d t mn w o = (x, y, Ok r) -> exists lb ub, bounds_in_force mn o lb ub /\ answers (map fst s) lb ub sum (fun x => freq * semivariance (dropna rows) (bench * sum) x <= t * t) (fun x => - inner m x) r.
  Proof.
    intros t x y r Hf Hnd E1. facts. assert (G : 0 <= sd_freq d) by (rewrite Dd; exact Hf).
    destruct (semi_risk_best _ _ _ _ O Rd sv mn X _ _ _ _ _ M (P _) G E1) as (lb & ub & B & Q & _). rewrite Dd in Q; cbn [sd_returns sd_bench sd_freq] in Q.
    exists lb, ub. split; [exact B|]. exact (new_answers _ _ _ _ _ _ _ _ _ _ _ _ _ F Hnd Q).
  Qed.
  Theorem semi_risk_iff : complete_solver sv -> 0 <= freq -> forall t, (succeeds (semi_efficient_risk sv d t mn) w o <-> exists lb ub x, bounds_in_force mn o lb ub /\ chosen (length s) lb ub sum (fun x => freq * semivariance (dropna rows) (bench * sum) x <= t * t) (fun x => - inner m x) x).
  Proof.
    intros K Hf t. facts. assert (G : 0 <= sd_freq d) by (rewrite Dd; exact Hf).
    rewrite (run_iff (semi_efficient_risk sv d t mn) w o mn _ _ _ O A ltac:(intros ? ? ? E1; destruct (semi_risk_best _ _ _ _ O Rd sv mn X _ _ _ _ _ M (P _) G E1) as (lb' & ub' & B' & Q' & _); exists lb', ub'; split; [exact B'|eexists; exact Q']) (semi_risk_answers _ _ _ _ O Rd sv mn K _ _ M (P _) G)).
    rewrite N, Dd. cbn [sd_returns sd_bench sd_freq]. tauto.
  Qed.
  Theorem semi_return_run : forall t x y r, NoDup (map fst s) -> semi_efficient_return sv d (NFloat t) mn w o = (x, y, Ok r) -> exists lb ub, bounds_in_force mn o lb ub /\ answers (map fst s) lb ub sum (fun x => t <= inner m x) (semivariance (dropna rows) (bench * sum)) r.
  Proof.
    intros t x y r Hnd E1. facts.
    destruct (semi_return_best _ _ _ _ O Rd sv mn X _ _ _ _ _ M (P _) E1) as (_ & lb & ub & B & Q & _). rewrite Dd in Q; cbn [sd_returns sd_bench sd_freq] in Q.
    exists lb, ub. split; [exact B|]. exact (new_answers _ _ _ _ _ _ _ _ _ _ _ _ _ F Hnd Q).
  Qed.
  Theorem semi_utility_run : forall k x y r, NoDup (map fst s) -> semi_max_quadratic_utility sv d k mn w o = (x, y, Ok r) -> exists lb ub, bounds_in_force mn o lb ub /\ answers (map fst s) lb ub sum (fun _ => True) (fun x => - inner m x / freq + 1 / 2 * k * semivariance (dropna rows) (bench * sum) x) r.
  Proof.
    intros k x y r Hnd E1. facts.
    destruct (semi_utility_best _ _ _ _ O Rd sv mn X _ _ _ _ _ M (P _) E1) as (_ & lb & ub & B & Q & _). rewrite Dd in Q; cbn [sd_returns sd_bench sd_freq] in Q.
    exists lb, ub. split; [exact B|]. exact (new_answers _ _ _ _ _ _ _ _ _ _ _ _ _ F Hnd Q).
  Qed.
  Theorem semi_utility_iff : complete_solver sv -> forall k, (succeeds (semi_max_quadratic_utility sv d k mn) w o <-> 0 < k /\ exists lb ub x, bounds_in_force mn o lb ub /\ chosen (length s) lb ub sum (fun _ => True) (fun x => - inner m x / freq + 1 / 2 * k * semivariance (dropna rows) (bench * sum) x) x).
  Proof.
    intros K k. facts. destruct (Rlt_dec 0 k) as [G|G]; [|split; [intros E1; apply semi_utility_positive in E1; tauto|tauto]].
    rewrite (run_iff (semi_max_quadratic_utility sv d k mn) w o mn _ _ _ O A ltac:(intros ? ? ? E1; destruct (semi_utility_best _ _ _ _ O Rd sv mn X _ _ _ _ _ M (P _) E1) as (_ & lb' & ub' & B' & Q' & _); exists lb', ub'; split; [exact B'|eexists; exact Q']) (semi_utility_answers _ _ _ _ O Rd sv mn K _ _ M (P _) G)).
    rewrite N, Dd. cbn [sd_returns sd_bench sd_freq]. tauto.
  Qed.
End Run_semi.
