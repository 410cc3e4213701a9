(** * Wider bounds: the downside optimizers (C143) *)
From Coq Require Import ZArith String List Bool Reals Lra Lia.
From Verif Require Import Num Py RBase PyLemmas SBL MBase MConvex MEF MDown SLin SBase SConvex SPerm SUnits SDown SDays SExist SGrow SWide Sums Mat PBase PConvex PEF PEF2 PDown5 PPerm PPerm2 PPerm4 PDays PTail PExist PExist2 PExist4 PClone PClone2 PGrow PWide.
Import ListNotations.
Local Open Scope R_scope.

Lemma wide_init : forall s b v2 lb ub, read_bounds (length s) b = Ok (lb, ub) -> exists w2 o2, ef_init (MIn (MuSeries s)) (CIn (CovArray (zeros (length s)))) b v2 = (w2, Ok o2) /\ e_mu o2 = Some (map snd s).
Proof.
  intros s b v2 lb ub E. destruct (zeros_square (length s)) as [Z _]. eexists _, _. split; [apply ef_init_ok with (lb := lb) (ub := ub)|].
  - unfold init_shape_ok. cbn [mu_values cov_values]. rewrite map_length. split; [apply Z|]. destruct s as [|p s]; [reflexivity|]. apply num_cols_square; [cbn; lia|exact Z].
  - cbn [init_tickers]. rewrite map_length. exact E.
  - reflexivity.
Qed.
Theorem semi_wide_accepted : forall s rows freq bench b1 b2 v1 v2 w1 o1 d1 lb ub, read_bounds (length s) b2 = Ok (lb, ub) ->
  semi_init (MIn (MuSeries s)) (RTable (length s) rows) freq bench b1 v1 = (w1, Ok (o1, d1)) ->
  exists w2 o2 d2, semi_init (MIn (MuSeries s)) (RTable (length s) rows) freq bench b2 v2 = (w2, Ok (o2, d2)).
Proof.
  intros s rows freq bench b1 b2 v1 v2 w1 o1 d1 lb ub Rb E. unfold semi_init in *. cbn [mu_values] in *. try rewrite map_length in E. try rewrite map_length. cbv zeta in E |- *.
  destruct (ef_init (MIn (MuSeries s)) _ b1 v1) as [x1 [q1|]] eqn:I1; [|discriminate E].
  destruct (wide_init s b2 v2 lb ub Rb) as (x2 & q2 & I2 & E2). rewrite I2. unfold validate_returns in *. rewrite E2, map_length, Nat.eqb_refl. cbn [negb].
  eauto.
Qed.
Section Wide_semi.
  Variables (s : list (label * R)) (rows : list (list (option R))) (freq bench : R) (b1 b2 : bounds_arg) (v1 v2 w1 w2 : world) (o1 o2 : ef) (d1 d2 : semi).
  Hypothesis T : semi_wider s rows freq bench b1 b2 v1 v2 w1 w2 o1 o2 d1 d2.
  Lemma wl_semi : forall mn lb ub lb' ub', same_kind mn o1 o2 -> bounds_in_force mn o1 lb ub -> bounds_in_force mn o2 lb' ub' -> looser lb ub lb' ub'.
  Proof.
    intros mn lb ub lb' ub' Sk B1 B2. pose proof T as (Hg & I1 & I2 & Lo). destruct (semi_run_facts _ _ _ _ _ _ _ _ _ Hg I1) as (_ & _ & _ & _ & _ & N1). destruct (semi_run_facts _ _ _ _ _ _ _ _ _ Hg I2) as (_ & _ & _ & _ & _ & N2).
    apply (wide_force mn o1 o2); try assumption. congruence.
  Qed.
  Lemma wcont_semi : forall mn : bool, continuous_on (length s) (fun x => semivariance (dropna rows) (bench * (if mn then 0 else 1)) x).
  Proof. intros mn. pose proof T as (Hg & I1 & I2 & Lo). apply semivariance_cont. Qed.
  Theorem min_semivariance_wide : forall sv1 sv2 mn, exact_solver sv1 -> exact_solver sv2 -> same_kind mn o1 o2 -> forall x1 y1 r1 x2 y2 r2, NoDup (map fst s) ->
    min_semivariance sv1 d1 mn w1 o1 = (x1, y1, Ok r1) -> min_semivariance sv2 d2 mn w2 o2 = (x2, y2, Ok r2) ->
    exists lb ub lb' ub', bounds_in_force mn o1 lb ub /\ bounds_in_force mn o2 lb' ub' /\
    loosened (map fst s) lb ub lb' ub' (if mn then 0 else 1) (fun x => True) (fun x => semivariance (dropna rows) (bench * (if mn then 0 else 1)) x) r1 r2.
  Proof.
    intros sv1 sv2 mn X1 X2 Sk x1 y1 r1 x2 y2 r2 Hnd E1 E2. pose proof T as (Hg & I1 & I2 & _).
    destruct (semi_min_run _ _ _ _ _ _ _ _ _ Hg I1 sv1 mn X1 _ _ _ Hnd E1) as (lb & ub & B & A). destruct (semi_min_run _ _ _ _ _ _ _ _ _ Hg I2 sv2 mn X2 _ _ _ Hnd E2) as (lb' & ub' & B' & A').
    exists lb, ub, lb', ub'. split; [exact B|]. split; [exact B'|]. exact (wide_loosened (length s) _ _ _ _ _ _ _ (wl_semi mn _ _ _ _ Sk B B') _ _ _ (map_length _ _) A A').
  Qed.
  Theorem min_semivariance_wide_found : forall sv1 sv2 mn, exact_solver sv1 -> exact_solver sv2 -> complete_solver sv1 -> complete_solver sv2 -> bounded (e_lb o2) -> bounded (e_ub o2) -> same_kind mn o1 o2 ->
    succeeds (min_semivariance sv1 d1 mn) w1 o1 -> succeeds (min_semivariance sv2 d2 mn) w2 o2.
  Proof.
    intros sv1 sv2 mn X1 X2 K1 K2 Bl Bu Sk S1. pose proof T as (Hg & I1 & I2 & _). destruct (semi_run_facts _ _ _ _ _ _ _ _ _ Hg I2) as (O & _ & _ & F & _ & N). assert (A : e_add o2 = []) by apply F. destruct (force_some mn o2) as (lb' & ub' & B').
    apply (semi_min_iff _ _ _ _ _ _ _ _ _ Hg I1 sv1 mn X1 K1 ) in S1. apply (semi_min_iff _ _ _ _ _ _ _ _ _ Hg I2 sv2 mn X2 K2 ).
    destruct S1 as (lb & ub & x & B & X). exists lb', ub'. rewrite <- N.
    match goal with |- exists x, _ /\ chosen _ _ _ _ ?ok ?cost x => destruct (new_chosen w2 o2 mn lb' ub' (if mn then 0 else 1) ok cost O A Bl Bu B') as [x' X'] end; [| | |exists x'; split; [exact B'|exact X']]; rewrite N.
    - first [apply closed_true|apply closed_le; first [apply (wcont_semi mn)|apply cont_scal, (wcont_semi mn)|apply cont_const|apply new_inner_cont]].
    - first [apply (wcont_semi mn)|apply cont_opp, new_inner_cont|apply cont_plus; [|apply cont_scal, (wcont_semi mn)]; apply (cont_ext _ (fun x => / freq * - inner (map snd s) x)); [apply cont_scal, cont_opp, new_inner_cont|intros z _; unfold Rdiv; ring]].
    - exact (wide_fits (length s) _ _ _ _ _ _ _ (wl_semi mn _ _ _ _ Sk B B') x X).
  Qed.
  Theorem semivariance_risk_wide : forall sv1 sv2 mn, exact_solver sv1 -> exact_solver sv2 -> same_kind mn o1 o2 -> forall tg, 0 <= freq -> forall x1 y1 r1 x2 y2 r2, NoDup (map fst s) ->
    semi_efficient_risk sv1 d1 tg mn w1 o1 = (x1, y1, Ok r1) -> semi_efficient_risk sv2 d2 tg mn w2 o2 = (x2, y2, Ok r2) ->
    exists lb ub lb' ub', bounds_in_force mn o1 lb ub /\ bounds_in_force mn o2 lb' ub' /\
    loosened (map fst s) lb ub lb' ub' (if mn then 0 else 1) (fun x => freq * semivariance (dropna rows) (bench * (if mn then 0 else 1)) x <= tg * tg) (fun x => - inner (map snd s) x) r1 r2.
  Proof.
    intros sv1 sv2 mn X1 X2 Sk tg Hf x1 y1 r1 x2 y2 r2 Hnd E1 E2. pose proof T as (Hg & I1 & I2 & _).
    destruct (semi_risk_run _ _ _ _ _ _ _ _ _ Hg I1 sv1 mn X1 tg _ _ _ Hf Hnd E1) as (lb & ub & B & A). destruct (semi_risk_run _ _ _ _ _ _ _ _ _ Hg I2 sv2 mn X2 tg _ _ _ Hf Hnd E2) as (lb' & ub' & B' & A').
    exists lb, ub, lb', ub'. split; [exact B|]. split; [exact B'|]. exact (wide_loosened (length s) _ _ _ _ _ _ _ (wl_semi mn _ _ _ _ Sk B B') _ _ _ (map_length _ _) A A').
  Qed.
  Theorem semivariance_risk_wide_found : forall sv1 sv2 mn, exact_solver sv1 -> exact_solver sv2 -> complete_solver sv1 -> complete_solver sv2 -> bounded (e_lb o2) -> bounded (e_ub o2) -> same_kind mn o1 o2 ->
    0 <= freq -> forall tg, succeeds (semi_efficient_risk sv1 d1 tg mn) w1 o1 -> succeeds (semi_efficient_risk sv2 d2 tg mn) w2 o2.
  Proof.
    intros sv1 sv2 mn X1 X2 K1 K2 Bl Bu Sk Hf tg S1. pose proof T as (Hg & I1 & I2 & _). destruct (semi_run_facts _ _ _ _ _ _ _ _ _ Hg I2) as (O & _ & _ & F & _ & N). assert (A : e_add o2 = []) by apply F. destruct (force_some mn o2) as (lb' & ub' & B').
    apply (semi_risk_iff _ _ _ _ _ _ _ _ _ Hg I1 sv1 mn X1 K1 Hf tg) in S1. apply (semi_risk_iff _ _ _ _ _ _ _ _ _ Hg I2 sv2 mn X2 K2 Hf tg).
    destruct S1 as (lb & ub & x & B & X). exists lb', ub'. rewrite <- N.
    match goal with |- exists x, _ /\ chosen _ _ _ _ ?ok ?cost x => destruct (new_chosen w2 o2 mn lb' ub' (if mn then 0 else 1) ok cost O A Bl Bu B') as [x' X'] end; [| | |exists x'; split; [exact B'|exact X']]; rewrite N.
    - first [apply closed_true|apply closed_le; first [apply (wcont_semi mn)|apply cont_scal, (wcont_semi mn)|apply cont_const|apply new_inner_cont]].
    - first [apply (wcont_semi mn)|apply cont_opp, new_inner_cont|apply cont_plus; [|apply cont_scal, (wcont_semi mn)]; apply (cont_ext _ (fun x => / freq * - inner (map snd s) x)); [apply cont_scal, cont_opp, new_inner_cont|intros z _; unfold Rdiv; ring]].
    - exact (wide_fits (length s) _ _ _ _ _ _ _ (wl_semi mn _ _ _ _ Sk B B') x X).
  Qed.
  Theorem semivariance_return_wide : forall sv1 sv2 mn, exact_solver sv1 -> exact_solver sv2 -> same_kind mn o1 o2 -> forall tg, forall x1 y1 r1 x2 y2 r2, NoDup (map fst s) ->
    semi_efficient_return sv1 d1 (NFloat tg) mn w1 o1 = (x1, y1, Ok r1) -> semi_efficient_return sv2 d2 (NFloat tg) mn w2 o2 = (x2, y2, Ok r2) ->
    exists lb ub lb' ub', bounds_in_force mn o1 lb ub /\ bounds_in_force mn o2 lb' ub' /\
    loosened (map fst s) lb ub lb' ub' (if mn then 0 else 1) (fun x => tg <= inner (map snd s) x) (fun x => semivariance (dropna rows) (bench * (if mn then 0 else 1)) x) r1 r2.
  Proof.
    intros sv1 sv2 mn X1 X2 Sk tg x1 y1 r1 x2 y2 r2 Hnd E1 E2. pose proof T as (Hg & I1 & I2 & _).
    destruct (semi_return_run _ _ _ _ _ _ _ _ _ Hg I1 sv1 mn X1 tg _ _ _ Hnd E1) as (lb & ub & B & A). destruct (semi_return_run _ _ _ _ _ _ _ _ _ Hg I2 sv2 mn X2 tg _ _ _ Hnd E2) as (lb' & ub' & B' & A').
    exists lb, ub, lb', ub'. split; [exact B|]. split; [exact B'|]. exact (wide_loosened (length s) _ _ _ _ _ _ _ (wl_semi mn _ _ _ _ Sk B B') _ _ _ (map_length _ _) A A').
  Qed.
  Theorem semivariance_utility_wide : forall sv1 sv2 mn, exact_solver sv1 -> exact_solver sv2 -> same_kind mn o1 o2 -> forall tg, forall x1 y1 r1 x2 y2 r2, NoDup (map fst s) ->
    semi_max_quadratic_utility sv1 d1 tg mn w1 o1 = (x1, y1, Ok r1) -> semi_max_quadratic_utility sv2 d2 tg mn w2 o2 = (x2, y2, Ok r2) ->
    exists lb ub lb' ub', bounds_in_force mn o1 lb ub /\ bounds_in_force mn o2 lb' ub' /\
    loosened (map fst s) lb ub lb' ub' (if mn then 0 else 1) (fun x => True) (fun x => - inner (map snd s) x / freq + 1 / 2 * tg * semivariance (dropna rows) (bench * (if mn then 0 else 1)) x) r1 r2.
  Proof.
    intros sv1 sv2 mn X1 X2 Sk tg x1 y1 r1 x2 y2 r2 Hnd E1 E2. pose proof T as (Hg & I1 & I2 & _).
    destruct (semi_utility_run _ _ _ _ _ _ _ _ _ Hg I1 sv1 mn X1 tg _ _ _ Hnd E1) as (lb & ub & B & A). destruct (semi_utility_run _ _ _ _ _ _ _ _ _ Hg I2 sv2 mn X2 tg _ _ _ Hnd E2) as (lb' & ub' & B' & A').
    exists lb, ub, lb', ub'. split; [exact B|]. split; [exact B'|]. exact (wide_loosened (length s) _ _ _ _ _ _ _ (wl_semi mn _ _ _ _ Sk B B') _ _ _ (map_length _ _) A A').
  Qed.
  Theorem semivariance_utility_wide_found : forall sv1 sv2 mn, exact_solver sv1 -> exact_solver sv2 -> complete_solver sv1 -> complete_solver sv2 -> bounded (e_lb o2) -> bounded (e_ub o2) -> same_kind mn o1 o2 ->
    forall tg, succeeds (semi_max_quadratic_utility sv1 d1 tg mn) w1 o1 -> succeeds (semi_max_quadratic_utility sv2 d2 tg mn) w2 o2.
  Proof.
    intros sv1 sv2 mn X1 X2 K1 K2 Bl Bu Sk tg S1. pose proof T as (Hg & I1 & I2 & _). destruct (semi_run_facts _ _ _ _ _ _ _ _ _ Hg I2) as (O & _ & _ & F & _ & N). assert (A : e_add o2 = []) by apply F. destruct (force_some mn o2) as (lb' & ub' & B').
    apply (semi_utility_iff _ _ _ _ _ _ _ _ _ Hg I1 sv1 mn X1 K1 tg) in S1. apply (semi_utility_iff _ _ _ _ _ _ _ _ _ Hg I2 sv2 mn X2 K2 tg).
    destruct S1 as [G S1]. split; [exact G|]. destruct S1 as (lb & ub & x & B & X). exists lb', ub'. rewrite <- N.
    match goal with |- exists x, _ /\ chosen _ _ _ _ ?ok ?cost x => destruct (new_chosen w2 o2 mn lb' ub' (if mn then 0 else 1) ok cost O A Bl Bu B') as [x' X'] end; [| | |exists x'; split; [exact B'|exact X']]; rewrite N.
    - first [apply closed_true|apply closed_le; first [apply (wcont_semi mn)|apply cont_scal, (wcont_semi mn)|apply cont_const|apply new_inner_cont]].
    - first [apply (wcont_semi mn)|apply cont_opp, new_inner_cont|apply cont_plus; [|apply cont_scal, (wcont_semi mn)]; apply (cont_ext _ (fun x => / freq * - inner (map snd s) x)); [apply cont_scal, cont_opp, new_inner_cont|intros z _; unfold Rdiv; ring]].
    - exact (wide_fits (length s) _ _ _ _ _ _ _ (wl_semi mn _ _ _ _ Sk B B') x X).
  Qed.
End Wide_semi.
Theorem cvar_wide_accepted : forall s rows beta b1 b2 v1 v2 w1 o1 d1 lb ub, read_bounds (length s) b2 = Ok (lb, ub) ->
  cvar_init (MIn (MuSeries s)) (RTable (length s) rows) beta b1 v1 = (w1, Ok (o1, d1)) ->
  exists w2 o2 d2, cvar_init (MIn (MuSeries s)) (RTable (length s) rows) beta b2 v2 = (w2, Ok (o2, d2)).
Proof.
  intros s rows beta b1 b2 v1 v2 w1 o1 d1 lb ub Rb E. unfold cvar_init in *. cbn [mu_values] in *. try rewrite map_length in E. try rewrite map_length. cbv zeta in E |- *.
  destruct (ef_init (MIn (MuSeries s)) _ b1 v1) as [x1 [q1|]] eqn:I1; [|discriminate E].
  destruct (wide_init s b2 v2 lb ub Rb) as (x2 & q2 & I2 & E2). rewrite I2. unfold validate_returns in *. rewrite E2, map_length, Nat.eqb_refl. cbn [negb].
  match type of E with context [if ?b then _ else _] => destruct b; [discriminate E|] end. destruct (validate_beta beta); [|discriminate E]. cbv zeta. eauto.
Qed.
Section Wide_cvar.
  Variables (s : list (label * R)) (rows : list (list (option R))) (beta : R) (b1 b2 : bounds_arg) (v1 v2 w1 w2 : world) (o1 o2 : ef) (d1 d2 : cvar_data).
  Hypothesis T : cvar_wider s rows beta b1 b2 v1 v2 w1 w2 o1 o2 d1 d2.
  Lemma wl_cvar : forall mn lb ub lb' ub', same_kind mn o1 o2 -> bounds_in_force mn o1 lb ub -> bounds_in_force mn o2 lb' ub' -> looser lb ub lb' ub'.
  Proof.
    intros mn lb ub lb' ub' Sk B1 B2. pose proof T as (Hg & I1 & I2 & Lo). destruct (cvar_run_facts _ _ _ _ _ _ _ _ Hg I1) as (_ & _ & _ & _ & _ & N1). destruct (cvar_run_facts _ _ _ _ _ _ _ _ Hg I2) as (_ & _ & _ & _ & _ & N2).
    apply (wide_force mn o1 o2); try assumption. congruence.
  Qed.
  Lemma wcont_cvar : forall mn : bool, continuous_on (length s) (fun x => cvar beta (dropna rows) x).
  Proof. intros mn. pose proof T as (Hg & I1 & I2 & Lo). destruct (cvar_run_facts _ _ _ _ _ _ _ _ Hg I2) as (_ & Rd & (D1 & D2) & _); rewrite <- D1, <- D2; apply cvar_cont; apply Rd. Qed.
  Theorem min_cvar_wide : forall sv1 sv2 mn, exact_solver sv1 -> exact_solver sv2 -> same_kind mn o1 o2 -> forall x1 y1 r1 x2 y2 r2, NoDup (map fst s) ->
    min_cvar sv1 d1 mn w1 o1 = (x1, y1, Ok r1) -> min_cvar sv2 d2 mn w2 o2 = (x2, y2, Ok r2) ->
    exists lb ub lb' ub', bounds_in_force mn o1 lb ub /\ bounds_in_force mn o2 lb' ub' /\
    loosened (map fst s) lb ub lb' ub' (if mn then 0 else 1) (fun x => True) (fun x => cvar beta (dropna rows) x) r1 r2.
  Proof.
    intros sv1 sv2 mn X1 X2 Sk x1 y1 r1 x2 y2 r2 Hnd E1 E2. pose proof T as (Hg & I1 & I2 & _).
    destruct (cvar_min_run _ _ _ _ _ _ _ _ Hg I1 sv1 mn X1 _ _ _ Hnd E1) as (lb & ub & B & A). destruct (cvar_min_run _ _ _ _ _ _ _ _ Hg I2 sv2 mn X2 _ _ _ Hnd E2) as (lb' & ub' & B' & A').
    exists lb, ub, lb', ub'. split; [exact B|]. split; [exact B'|]. exact (wide_loosened (length s) _ _ _ _ _ _ _ (wl_cvar mn _ _ _ _ Sk B B') _ _ _ (map_length _ _) A A').
  Qed.
  Theorem min_cvar_wide_found : forall sv1 sv2 mn, exact_solver sv1 -> exact_solver sv2 -> complete_solver sv1 -> complete_solver sv2 -> bounded (e_lb o2) -> bounded (e_ub o2) -> same_kind mn o1 o2 ->
    succeeds (min_cvar sv1 d1 mn) w1 o1 -> succeeds (min_cvar sv2 d2 mn) w2 o2.
  Proof.
    intros sv1 sv2 mn X1 X2 K1 K2 Bl Bu Sk S1. pose proof T as (Hg & I1 & I2 & _). destruct (cvar_run_facts _ _ _ _ _ _ _ _ Hg I2) as (O & _ & _ & F & _ & N). assert (A : e_add o2 = []) by apply F. destruct (force_some mn o2) as (lb' & ub' & B').
    apply (cvar_min_iff _ _ _ _ _ _ _ _ Hg I1 sv1 mn X1 K1 ) in S1. apply (cvar_min_iff _ _ _ _ _ _ _ _ Hg I2 sv2 mn X2 K2 ).
    destruct S1 as (lb & ub & x & B & X). exists lb', ub'. rewrite <- N.
    match goal with |- exists x, _ /\ chosen _ _ _ _ ?ok ?cost x => destruct (new_chosen w2 o2 mn lb' ub' (if mn then 0 else 1) ok cost O A Bl Bu B') as [x' X'] end; [| | |exists x'; split; [exact B'|exact X']]; rewrite N.
    - first [apply closed_true|apply closed_le; first [apply (wcont_cvar mn)|apply cont_scal, (wcont_cvar mn)|apply cont_const|apply new_inner_cont]].
    - first [apply (wcont_cvar mn)|apply cont_opp, new_inner_cont|apply cont_plus; [|apply cont_scal, (wcont_cvar mn)]; apply (cont_ext _ (fun x => / freq * - inner (map snd s) x)); [apply cont_scal, cont_opp, new_inner_cont|intros z _; unfold Rdiv; ring]].
    - exact (wide_fits (length s) _ _ _ _ _ _ _ (wl_cvar mn _ _ _ _ Sk B B') x X).
  Qed.
  Theorem cvar_risk_wide : forall sv1 sv2 mn, exact_solver sv1 -> exact_solver sv2 -> same_kind mn o1 o2 -> forall tg, forall x1 y1 r1 x2 y2 r2, NoDup (map fst s) ->
    cvar_efficient_risk sv1 d1 tg mn w1 o1 = (x1, y1, Ok r1) -> cvar_efficient_risk sv2 d2 tg mn w2 o2 = (x2, y2, Ok r2) ->
    exists lb ub lb' ub', bounds_in_force mn o1 lb ub /\ bounds_in_force mn o2 lb' ub' /\
    loosened (map fst s) lb ub lb' ub' (if mn then 0 else 1) (fun x => cvar beta (dropna rows) x <= tg) (fun x => - inner (map snd s) x) r1 r2.
  Proof.
    intros sv1 sv2 mn X1 X2 Sk tg x1 y1 r1 x2 y2 r2 Hnd E1 E2. pose proof T as (Hg & I1 & I2 & _).
    destruct (cvar_risk_run _ _ _ _ _ _ _ _ Hg I1 sv1 mn X1 tg _ _ _ Hnd E1) as (lb & ub & B & A). destruct (cvar_risk_run _ _ _ _ _ _ _ _ Hg I2 sv2 mn X2 tg _ _ _ Hnd E2) as (lb' & ub' & B' & A').
    exists lb, ub, lb', ub'. split; [exact B|]. split; [exact B'|]. exact (wide_loosened (length s) _ _ _ _ _ _ _ (wl_cvar mn _ _ _ _ Sk B B') _ _ _ (map_length _ _) A A').
  Qed.
  Theorem cvar_risk_wide_found : forall sv1 sv2 mn, exact_solver sv1 -> exact_solver sv2 -> complete_solver sv1 -> complete_solver sv2 -> bounded (e_lb o2) -> bounded (e_ub o2) -> same_kind mn o1 o2 ->
    forall tg, succeeds (cvar_efficient_risk sv1 d1 tg mn) w1 o1 -> succeeds (cvar_efficient_risk sv2 d2 tg mn) w2 o2.
  Proof.
    intros sv1 sv2 mn X1 X2 K1 K2 Bl Bu Sk tg S1. pose proof T as (Hg & I1 & I2 & _). destruct (cvar_run_facts _ _ _ _ _ _ _ _ Hg I2) as (O & _ & _ & F & _ & N). assert (A : e_add o2 = []) by apply F. destruct (force_some mn o2) as (lb' & ub' & B').
    apply (cvar_risk_iff _ _ _ _ _ _ _ _ Hg I1 sv1 mn X1 K1 tg) in S1. apply (cvar_risk_iff _ _ _ _ _ _ _ _ Hg I2 sv2 mn X2 K2 tg).
    destruct S1 as [G S1]. split; [exact G|]. destruct S1 as (lb & ub & x & B & X). exists lb', ub'. rewrite <- N.
    match goal with |- exists x, _ /\ chosen _ _ _ _ ?ok ?cost x => destruct (new_chosen w2 o2 mn lb' ub' (if mn then 0 else 1) ok cost O A Bl Bu B') as [x' X'] end; [| | |exists x'; split; [exact B'|exact X']]; rewrite N.
    - first [apply closed_true|apply closed_le; first [apply (wcont_cvar mn)|apply cont_scal, (wcont_cvar mn)|apply cont_const|apply new_inner_cont]].
    - first [apply (wcont_cvar mn)|apply cont_opp, new_inner_cont|apply cont_plus; [|apply cont_scal, (wcont_cvar mn)]; apply (cont_ext _ (fun x => / freq * - inner (map snd s) x)); [apply cont_scal, cont_opp, new_inner_cont|intros z _; unfold Rdiv; ring]].
    - exact (wide_fits (length s) _ _ _ _ _ _ _ (wl_cvar mn _ _ _ _ Sk B B') x X).
  Qed.
  Theorem cvar_return_wide : forall sv1 sv2 mn, exact_solver sv1 -> exact_solver sv2 -> same_kind mn o1 o2 -> forall tg, forall x1 y1 r1 x2 y2 r2, NoDup (map fst s) ->
    cvar_efficient_return sv1 d1 tg mn w1 o1 = (x1, y1, Ok r1) -> cvar_efficient_return sv2 d2 tg mn w2 o2 = (x2, y2, Ok r2) ->
    exists lb ub lb' ub', bounds_in_force mn o1 lb ub /\ bounds_in_force mn o2 lb' ub' /\
    loosened (map fst s) lb ub lb' ub' (if mn then 0 else 1) (fun x => tg <= inner (map snd s) x) (fun x => cvar beta (dropna rows) x) r1 r2.
  Proof.
    intros sv1 sv2 mn X1 X2 Sk tg x1 y1 r1 x2 y2 r2 Hnd E1 E2. pose proof T as (Hg & I1 & I2 & _).
    destruct (cvar_return_run _ _ _ _ _ _ _ _ Hg I1 sv1 mn X1 tg _ _ _ Hnd E1) as (lb & ub & B & A). destruct (cvar_return_run _ _ _ _ _ _ _ _ Hg I2 sv2 mn X2 tg _ _ _ Hnd E2) as (lb' & ub' & B' & A').
    exists lb, ub, lb', ub'. split; [exact B|]. split; [exact B'|]. exact (wide_loosened (length s) _ _ _ _ _ _ _ (wl_cvar mn _ _ _ _ Sk B B') _ _ _ (map_length _ _) A A').
  Qed.
  Theorem cvar_return_wide_found : forall sv1 sv2 mn, exact_solver sv1 -> exact_solver sv2 -> complete_solver sv1 -> complete_solver sv2 -> bounded (e_lb o2) -> bounded (e_ub o2) -> same_kind mn o1 o2 ->
    forall tg, succeeds (cvar_efficient_return sv1 d1 tg mn) w1 o1 -> succeeds (cvar_efficient_return sv2 d2 tg mn) w2 o2.
  Proof.
    intros sv1 sv2 mn X1 X2 K1 K2 Bl Bu Sk tg S1. pose proof T as (Hg & I1 & I2 & _). destruct (cvar_run_facts _ _ _ _ _ _ _ _ Hg I2) as (O & _ & _ & F & _ & N). assert (A : e_add o2 = []) by apply F. destruct (force_some mn o2) as (lb' & ub' & B').
    apply (cvar_return_iff _ _ _ _ _ _ _ _ Hg I1 sv1 mn X1 K1 tg) in S1. apply (cvar_return_iff _ _ _ _ _ _ _ _ Hg I2 sv2 mn X2 K2 tg).
    destruct S1 as (lb & ub & x & B & X). exists lb', ub'. rewrite <- N.
    match goal with |- exists x, _ /\ chosen _ _ _ _ ?ok ?cost x => destruct (new_chosen w2 o2 mn lb' ub' (if mn then 0 else 1) ok cost O A Bl Bu B') as [x' X'] end; [| | |exists x'; split; [exact B'|exact X']]; rewrite N.
    - first [apply closed_true|apply closed_le; first [apply (wcont_cvar mn)|apply cont_scal, (wcont_cvar mn)|apply cont_const|apply new_inner_cont]].
    - first [apply (wcont_cvar mn)|apply cont_opp, new_inner_cont|apply cont_plus; [|apply cont_scal, (wcont_cvar mn)]; apply (cont_ext _ (fun x => / freq * - inner (map snd s) x)); [apply cont_scal, cont_opp, new_inner_cont|intros z _; unfold Rdiv; ring]].
    - exact (wide_fits (length s) _ _ _ _ _ _ _ (wl_cvar mn _ _ _ _ Sk B B') x X).
  Qed.
End Wide_cvar.
Theorem cdar_wide_accepted : forall s rows beta b1 b2 v1 v2 w1 o1 d1 lb ub, read_bounds (length s) b2 = Ok (lb, ub) ->
  cdar_init (MIn (MuSeries s)) (RTable (length s) rows) beta b1 v1 = (w1, Ok (o1, d1)) ->
  exists w2 o2 d2, cdar_init (MIn (MuSeries s)) (RTable (length s) rows) beta b2 v2 = (w2, Ok (o2, d2)).
Proof.
  intros s rows beta b1 b2 v1 v2 w1 o1 d1 lb ub Rb E. unfold cdar_init in *. cbn [mu_values] in *. try rewrite map_length in E. try rewrite map_length. cbv zeta in E |- *.
  destruct (ef_init (MIn (MuSeries s)) _ b1 v1) as [x1 [q1|]] eqn:I1; [|discriminate E].
  destruct (wide_init s b2 v2 lb ub Rb) as (x2 & q2 & I2 & E2). rewrite I2. unfold validate_returns in *. rewrite E2, map_length, Nat.eqb_refl. cbn [negb].
  match type of E with context [if ?b then _ else _] => destruct b; [discriminate E|] end. destruct (validate_beta beta); [|discriminate E]. cbv zeta. eauto.
Qed.
Section Wide_cdar.
  Variables (s : list (label * R)) (rows : list (list (option R))) (beta : R) (b1 b2 : bounds_arg) (v1 v2 w1 w2 : world) (o1 o2 : ef) (d1 d2 : cdar_data).
  Hypothesis T : cdar_wider s rows beta b1 b2 v1 v2 w1 w2 o1 o2 d1 d2.
  Lemma wl_cdar : forall mn lb ub lb' ub', same_kind mn o1 o2 -> bounds_in_force mn o1 lb ub -> bounds_in_force mn o2 lb' ub' -> looser lb ub lb' ub'.
  Proof.
    intros mn lb ub lb' ub' Sk B1 B2. pose proof T as (Hg & I1 & I2 & Lo). destruct (cdar_run_facts _ _ _ _ _ _ _ _ Hg I1) as (_ & _ & _ & _ & _ & N1). destruct (cdar_run_facts _ _ _ _ _ _ _ _ Hg I2) as (_ & _ & _ & _ & _ & N2).
    apply (wide_force mn o1 o2); try assumption. congruence.
  Qed.
  Lemma wcont_cdar : forall mn : bool, continuous_on (length s) (fun x => cdar beta (dropna rows) x).
  Proof. intros mn. pose proof T as (Hg & I1 & I2 & Lo). destruct (cdar_run_facts _ _ _ _ _ _ _ _ Hg I2) as (_ & Rd & (D1 & D2) & _); rewrite <- D1, <- D2; apply cdar_cont; apply Rd. Qed.
  Theorem min_cdar_wide : forall sv1 sv2 mn, exact_solver sv1 -> exact_solver sv2 -> same_kind mn o1 o2 -> forall x1 y1 r1 x2 y2 r2, NoDup (map fst s) ->
    min_cdar sv1 d1 mn w1 o1 = (x1, y1, Ok r1) -> min_cdar sv2 d2 mn w2 o2 = (x2, y2, Ok r2) ->
    exists lb ub lb' ub', bounds_in_force mn o1 lb ub /\ bounds_in_force mn o2 lb' ub' /\
    loosened (map fst s) lb ub lb' ub' (if mn then 0 else 1) (fun x => True) (fun x => cdar beta (dropna rows) x) r1 r2.
  Proof.
    intros sv1 sv2 mn X1 X2 Sk x1 y1 r1 x2 y2 r2 Hnd E1 E2. pose proof T as (Hg & I1 & I2 & _).
    destruct (cdar_min_run _ _ _ _ _ _ _ _ Hg I1 sv1 mn X1 _ _ _ Hnd E1) as (lb & ub & B & A). destruct (cdar_min_run _ _ _ _ _ _ _ _ Hg I2 sv2 mn X2 _ _ _ Hnd E2) as (lb' & ub' & B' & A').
    exists lb, ub, lb', ub'. split; [exact B|]. split; [exact B'|]. exact (wide_loosened (length s) _ _ _ _ _ _ _ (wl_cdar mn _ _ _ _ Sk B B') _ _ _ (map_length _ _) A A').
  Qed.
  Theorem min_cdar_wide_found : forall sv1 sv2 mn, exact_solver sv1 -> exact_solver sv2 -> complete_solver sv1 -> complete_solver sv2 -> bounded (e_lb o2) -> bounded (e_ub o2) -> same_kind mn o1 o2 ->
    succeeds (min_cdar sv1 d1 mn) w1 o1 -> succeeds (min_cdar sv2 d2 mn) w2 o2.
  Proof.
    intros sv1 sv2 mn X1 X2 K1 K2 Bl Bu Sk S1. pose proof T as (Hg & I1 & I2 & _). destruct (cdar_run_facts _ _ _ _ _ _ _ _ Hg I2) as (O & _ & _ & F & _ & N). assert (A : e_add o2 = []) by apply F. destruct (force_some mn o2) as (lb' & ub' & B').
    apply (cdar_min_iff _ _ _ _ _ _ _ _ Hg I1 sv1 mn X1 K1 ) in S1. apply (cdar_min_iff _ _ _ _ _ _ _ _ Hg I2 sv2 mn X2 K2 ).
    destruct S1 as (lb & ub & x & B & X). exists lb', ub'. rewrite <- N.
    match goal with |- exists x, _ /\ chosen _ _ _ _ ?ok ?cost x => destruct (new_chosen w2 o2 mn lb' ub' (if mn then 0 else 1) ok cost O A Bl Bu B') as [x' X'] end; [| | |exists x'; split; [exact B'|exact X']]; rewrite N.
    - first [apply closed_true|apply closed_le; first [apply (wcont_cdar mn)|apply cont_scal, (wcont_cdar mn)|apply cont_const|apply new_inner_cont]].
    - first [apply (wcont_cdar mn)|apply cont_opp, new_inner_cont|apply cont_plus; [|apply cont_scal, (wcont_cdar mn)]; apply (cont_ext _ (fun x => / freq * - inner (map snd s) x)); [apply cont_scal, cont_opp, new_inner_cont|intros z _; unfold Rdiv; ring]].
    - exact (wide_fits (length s) _ _ _ _ _ _ _ (wl_cdar mn _ _ _ _ Sk B B') x X).
  Qed.
  Theorem cdar_risk_wide : forall sv1 sv2 mn, exact_solver sv1 -> exact_solver sv2 -> same_kind mn o1 o2 -> forall tg, forall x1 y1 r1 x2 y2 r2, NoDup (map fst s) ->
    cdar_efficient_risk sv1 d1 tg mn w1 o1 = (x1, y1, Ok r1) -> cdar_efficient_risk sv2 d2 tg mn w2 o2 = (x2, y2, Ok r2) ->
    exists lb ub lb' ub', bounds_in_force mn o1 lb ub /\ bounds_in_force mn o2 lb' ub' /\
    loosened (map fst s) lb ub lb' ub' (if mn then 0 else 1) (fun x => cdar beta (dropna rows) x <= tg) (fun x => - inner (map snd s) x) r1 r2.
  Proof.
    intros sv1 sv2 mn X1 X2 Sk tg x1 y1 r1 x2 y2 r2 Hnd E1 E2. pose proof T as (Hg & I1 & I2 & _).
    destruct (cdar_risk_run _ _ _ _ _ _ _ _ Hg I1 sv1 mn X1 tg _ _ _ Hnd E1) as (lb & ub & B & A). destruct (cdar_risk_run _ _ _ _ _ _ _ _ Hg I2 sv2 mn X2 tg _ _ _ Hnd E2) as (lb' & ub' & B' & A').
    exists lb, ub, lb', ub'. split; [exact B|]. split; [exact B'|]. exact (wide_loosened (length s) _ _ _ _ _ _ _ (wl_cdar mn _ _ _ _ Sk B B') _ _ _ (map_length _ _) A A').
  Qed.
  Theorem cdar_risk_wide_found : forall sv1 sv2 mn, exact_solver sv1 -> exact_solver sv2 -> complete_solver sv1 -> complete_solver sv2 -> bounded (e_lb o2) -> bounded (e_ub o2) -> same_kind mn o1 o2 ->
    forall tg, succeeds (cdar_efficient_risk sv1 d1 tg mn) w1 o1 -> succeeds (cdar_efficient_risk sv2 d2 tg mn) w2 o2.
  Proof.
    intros sv1 sv2 mn X1 X2 K1 K2 Bl Bu Sk tg S1. pose proof T as (Hg & I1 & I2 & _). destruct (cdar_run_facts _ _ _ _ _ _ _ _ Hg I2) as (O & _ & _ & F & _ & N). assert (A : e_add o2 = []) by apply F. destruct (force_some mn o2) as (lb' & ub' & B').
    apply (cdar_risk_iff _ _ _ _ _ _ _ _ Hg I1 sv1 mn X1 K1 tg) in S1. apply (cdar_risk_iff _ _ _ _ _ _ _ _ Hg I2 sv2 mn X2 K2 tg).
    destruct S1 as [G S1]. split; [exact G|]. destruct S1 as (lb & ub & x & B & X). exists lb', ub'. rewrite <- N.
    match goal with |- exists x, _ /\ chosen _ _ _ _ ?ok ?cost x => destruct (new_chosen w2 o2 mn lb' ub' (if mn then 0 else 1) ok cost O A Bl Bu B') as [x' X'] end; [| | |exists x'; split; [exact B'|exact X']]; rewrite N.
    - first [apply closed_true|apply closed_le; first [apply (wcont_cdar mn)|apply cont_scal, (wcont_cdar mn)|apply cont_const|apply new_inner_cont]].
    - first [apply (wcont_cdar mn)|apply cont_opp, new_inner_cont|apply cont_plus; [|apply cont_scal, (wcont_cdar mn)]; apply (cont_ext _ (fun x => / freq * - inner (map snd s) x)); [apply cont_scal, cont_opp, new_inner_cont|intros z _; unfold Rdiv; ring]].
    - exact (wide_fits (length s) _ _ _ _ _ _ _ (wl_cdar mn _ _ _ _ Sk B B') x X).
  Qed.
  Theorem cdar_return_wide : forall sv1 sv2 mn, exact_solver sv1 -> exact_solver sv2 -> same_kind mn o1 o2 -> forall tg, forall x1 y1 r1 x2 y2 r2, NoDup (map fst s) ->
    cdar_efficient_return sv1 d1 tg mn w1 o1 = (x1, y1, Ok r1) -> cdar_efficient_return sv2 d2 tg mn w2 o2 = (x2, y2, Ok r2) ->
    exists lb ub lb' ub', bounds_in_force mn o1 lb ub /\ bounds_in_force mn o2 lb' ub' /\
    loosened (map fst s) lb ub lb' ub' (if mn then 0 else 1) (fun x => tg <= inner (map snd s) x) (fun x => cdar beta (dropna rows) x) r1 r2.
  Proof.
    intros sv1 sv2 mn X1 X2 Sk tg x1 y1 r1 x2 y2 r2 Hnd E1 E2. pose proof T as (Hg & I1 & I2 & _).
    destruct (cdar_return_run _ _ _ _ _ _ _ _ Hg I1 sv1 mn X1 tg _ _ _ Hnd E1) as (lb & ub & B & A). destruct (cdar_return_run _ _ _ _ _ _ _ _ Hg I2 sv2 mn X2 tg _ _ _ Hnd E2) as (lb' & ub' & B' & A').
    exists lb, ub, lb', ub'. split; [exact B|]. split; [exact B'|]. exact (wide_loosened (length s) _ _ _ _ _ _ _ (wl_cdar mn _ _ _ _ Sk B B') _ _ _ (map_length _ _) A A').
  Qed.
  Theorem cdar_return_wide_found : forall sv1 sv2 mn, exact_solver sv1 -> exact_solver sv2 -> complete_solver sv1 -> complete_solver sv2 -> bounded (e_lb o2) -> bounded (e_ub o2) -> same_kind mn o1 o2 ->
    forall tg, succeeds (cdar_efficient_return sv1 d1 tg mn) w1 o1 -> succeeds (cdar_efficient_return sv2 d2 tg mn) w2 o2.
  Proof.
    intros sv1 sv2 mn X1 X2 K1 K2 Bl Bu Sk tg S1. pose proof T as (Hg & I1 & I2 & _). destruct (cdar_run_facts _ _ _ _ _ _ _ _ Hg I2) as (O & _ & _ & F & _ & N). assert (A : e_add o2 = []) by apply F. destruct (force_some mn o2) as (lb' & ub' & B').
    apply (cdar_return_iff _ _ _ _ _ _ _ _ Hg I1 sv1 mn X1 K1 tg) in S1. apply (cdar_return_iff _ _ _ _ _ _ _ _ Hg I2 sv2 mn X2 K2 tg).
    destruct S1 as [G S1]. split; [exact G|]. destruct S1 as (lb & ub & x & B & X). exists lb', ub'. rewrite <- N.
    match goal with |- exists x, _ /\ chosen _ _ _ _ ?ok ?cost x => destruct (new_chosen w2 o2 mn lb' ub' (if mn then 0 else 1) ok cost O A Bl Bu B') as [x' X'] end; [| | |exists x'; split; [exact B'|exact X']]; rewrite N.
    - first [apply closed_true|apply closed_le; first [apply (wcont_cdar mn)|apply cont_scal, (wcont_cdar mn)|apply cont_const|apply new_inner_cont]].
    - first [apply (wcont_cdar mn)|apply cont_opp, new_inner_cont|apply cont_plus; [|apply cont_scal, (wcont_cdar mn)]; apply (cont_ext _ (fun x => / freq * - inner (map snd s) x)); [apply cont_scal, cont_opp, new_inner_cont|intros z _; unfold Rdiv; ring]].
    - exact (wide_fits (length s) _ _ _ _ _ _ _ (wl_cdar mn _ _ _ _ Sk B B') x X).
  Qed.
End Wide_cdar.
