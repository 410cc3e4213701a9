(** * One more asset: the downside optimizers (C142) *)
From Coq Require Import ZArith String List Bool Reals Lra Lia.
From Verif Require Import Num Py RBase PyLemmas SBL MBase MConvex MEF MDown SLin SBase SConvex SPerm SUnits SDown SDays SExist SGrow Sums Mat PBase PConvex PEF PEF2 PDown5 PPerm PPerm2 PPerm4 PDays PTail PExist PExist2 PExist4 PClone PClone2 PGrow.
Import ListNotations.
Local Open Scope R_scope.

Lemma dropna_cons : forall r rows, dropna (r :: rows) = match complete r with Some l => l :: dropna rows | None => dropna rows end.
Proof. intros r rows. unfold dropna. cbn [flat_map]. destruct (complete r); reflexivity. Qed.
Lemma grow_rows : forall q rows, length q = length rows -> exists q', length q' = length (dropna rows) /\ dropna (rows_grow (map Some q) rows) = map (fun p => fst p :: snd p) (combine q' (dropna rows)).
Proof.
  induction q as [|a q IH]; intros [|r rows] L; try discriminate L; [exists []; split; reflexivity|]. injection L as L. destruct (IH rows L) as (q' & Lq & E). unfold rows_grow in *. cbn [map combine fst snd]. rewrite !dropna_cons.
  cbn [complete]. destruct (complete r) as [l|]; [|exists q'; auto]. exists (a :: q'). cbn [length combine map fst snd]. rewrite E, Lq. auto.
Qed.
Lemma grow_periods : forall q rows y, length q = length rows -> period_returns (dropna (rows_grow (map Some q) rows)) (0 :: y) = period_returns (dropna rows) y.
Proof.
  intros q rows y L. destruct (grow_rows q rows L) as (q' & Lq & ->). unfold period_returns. rewrite map_map. cbn [fst snd].
  revert q' Lq. induction (dropna rows) as [|r rs IH]; intros [|a q'] Lq; try discriminate Lq; [reflexivity|]. injection Lq as Lq. cbn [combine map fst snd]. rewrite (IH q' Lq), inner_grow. reflexivity.
Qed.
Lemma grow_days : forall q rows, length q = length rows -> length (dropna (rows_grow (map Some q) rows)) = length (dropna rows).
Proof. intros q rows L. pose proof (f_equal (@length R) (grow_periods q rows [] L)) as E. unfold period_returns in E. rewrite !map_length in E. exact E. Qed.
Lemma grow_good : forall n q rows, length q = length rows -> good_rows n rows -> good_rows (S n) (rows_grow (map Some q) rows).
Proof.
  intros n q rows L [F (r & l & I & E)]. split.
  - unfold rows_grow. apply Forall_map, Forall_forall. intros [a p] Ip. apply in_combine_r in Ip. rewrite Forall_forall in F. cbn. rewrite (F p Ip). reflexivity.
  - clear F. revert q L. induction rows as [|p rows IH]; [contradiction I|]. intros [|a q] L; [discriminate L|]. injection L as L. destruct I as [<-|I].
    + exists (Some a :: p), (a :: l). split; [left; reflexivity|]. cbn. rewrite E. reflexivity.
    + destruct (IH I q L) as (r1 & l1 & I1 & E1). exists r1, l1. split; [right; exact I1|exact E1].
Qed.
Lemma grow_init : forall t a s lo hi v2, exists w2 o2, ef_init (MIn (MuSeries (mu_grow t a s))) (CIn (CovArray (zeros (S (length s))))) (around lo hi) v2 = (w2, Ok o2) /\ e_mu o2 = Some (map snd (mu_grow t a s)).
Proof.
  intros t a s lo hi v2. eexists _, _. split; [apply ef_init_ok with (lb := repeat (Some lo) (S (length s))) (ub := repeat (Some hi) (S (length s)))|].
  - destruct (zeros_square (S (length s))) as [Z _]. unfold init_shape_ok. cbn [mu_values cov_values mu_grow map snd length]. rewrite map_length. split; [apply Z|]. apply num_cols_square; [lia|exact Z].
  - cbn [init_tickers mu_grow map fst length]. rewrite map_length. unfold read_bounds, around. rewrite andb_false_r. reflexivity.
  - reflexivity.
Qed.
Theorem semi_grow_accepted : forall t a q lo hi s rows freq bench v1 v2 w1 o1 d1, semi_init (MIn (MuSeries s)) (RTable (length s) rows) freq bench (around lo hi) v1 = (w1, Ok (o1, d1)) ->
  exists w2 o2 d2, semi_init (MIn (MuSeries (mu_grow t a s))) (RTable (S (length s)) (rows_grow q rows)) freq bench (around lo hi) v2 = (w2, Ok (o2, d2)).
Proof.
  intros t a q lo hi s rows freq bench v1 v2 w1 o1 d1 E. unfold semi_init in *. cbn [mu_values] in *. try rewrite map_length in E. change (map snd (mu_grow t a s)) with (a :: map snd s). cbn [length]. try rewrite map_length. cbv zeta in E |- *.
  destruct (ef_init (MIn (MuSeries s)) _ (around lo hi) v1) as [x1 [q1|]] eqn:I1; [|discriminate E].
  destruct (grow_init t a s lo hi v2) as (x2 & q2 & I2 & E2). cbn [mu_grow length] in *. rewrite I2. unfold validate_returns in *. rewrite E2. change (map snd ((t, a) :: s)) with (a :: map snd s). cbn [length]. rewrite map_length, Nat.eqb_refl. cbn [negb].
  eauto.
Qed.
Section Grow_semi.
  Variables (t : label) (a : R) (q : list R) (lo hi : R) (s : list (label * R)) (rows : list (list (option R))) (freq bench : R) (v1 v2 w1 w2 : world) (o1 o2 : ef) (d1 d2 : semi).
  Hypothesis T : semi_grown t a q lo hi s rows freq bench v1 v2 w1 w2 o1 o2 d1 d2.
  Lemma gg_semi : good_rows (length (mu_grow t a s)) (rows_grow (map Some q) rows).
  Proof. cbn [mu_grow length]. apply grow_good; apply T. Qed.
  Lemma gi_semi : semi_init (MIn (MuSeries (mu_grow t a s))) (RTable (length (mu_grow t a s)) (rows_grow (map Some q) rows)) freq bench (around lo hi) v2 = (w2, Ok (o2, d2)).
  Proof. cbn [mu_grow length]. apply T. Qed.
  Lemma go_semi : forall mn lb ub lb' ub', bounds_in_force mn o1 lb ub -> bounds_in_force mn o2 lb' ub' -> forall y, within lb' ub' (0 :: y) <-> within lb ub y.
  Proof.
    intros mn lb ub lb' ub' B1 B2 y. pose proof T as (Hz & Hn & Lq & Hg & E1 & _). destruct (semi_run_facts _ _ _ _ _ _ _ _ _ Hg E1) as (_ & _ & _ & _ & Q1 & N1). destruct (semi_run_facts _ _ _ _ _ _ _ _ _ gg_semi gi_semi) as (_ & _ & _ & _ & Q2 & N2).
    cbn [mu_grow length] in N2, Q2. unfold read_bounds, around in Q1, Q2. rewrite andb_false_r in Q1, Q2. injection Q1 as L1 U1. injection Q2 as L2 U2. symmetry in L1, U1, L2, U2.
    apply (around_force mn o1 _ lo hi _ _ N1 Hn L1 U1) in B1 as [-> ->]. apply (around_force mn o2 (S (length s)) lo hi _ _ N2 (Nat.lt_0_succ _) L2 U2) in B2 as [-> ->]. apply around_within, around_zero, Hz.
  Qed.
  Lemma gf_semi : forall mn, exists lb ub, bounds_in_force mn o2 lb ub.
  Proof.
    intros mn. destruct (semi_run_facts _ _ _ _ _ _ _ _ _ gg_semi gi_semi) as (_ & _ & _ & _ & Q2 & N2). cbn [mu_grow length] in N2, Q2. unfold read_bounds, around in Q2. rewrite andb_false_r in Q2. injection Q2 as L2 U2. symmetry in L2, U2.
    eexists _, _. apply (around_force mn o2 (S (length s)) lo hi _ _ N2 (Nat.lt_0_succ _) L2 U2). auto.
  Qed.
  Lemma gb_semi : open_ef w2 o2 [] /\ e_add o2 = [] /\ bounded (e_lb o2) /\ bounded (e_ub o2) /\ e_n o2 = S (length s).
  Proof.
    destruct (semi_run_facts _ _ _ _ _ _ _ _ _ gg_semi gi_semi) as (O & _ & _ & F & Q2 & N2). cbn [mu_grow length] in N2, Q2. unfold read_bounds, around in Q2. rewrite andb_false_r in Q2. injection Q2 as L2 U2. rewrite <- L2, <- U2.
    split; [exact O|]. split; [apply F|]. split; [exact (around_bounded (S (length s)) lo)|]. split; [exact (around_bounded (S (length s)) hi)|exact N2].
  Qed.
  Lemma grisk_semi : forall (mn : bool) (y : list R), semivariance (dropna (rows_grow (map Some q) rows)) (bench * (if mn then 0 else 1)) (0 :: y) = semivariance (dropna rows) (bench * (if mn then 0 else 1)) y.
  Proof.
    intros mn y. pose proof T as (_ & _ & Lq & _). unfold semivariance, cvar, cdar. rewrite ?(grow_days _ _ Lq). rewrite (grow_periods _ _ _ Lq). reflexivity.
  Qed.
  Lemma gcont_semi : forall mn : bool, continuous_on (S (length s)) (fun x => semivariance (dropna (rows_grow (map Some q) rows)) (bench * (if mn then 0 else 1)) x).
  Proof. intros mn. apply semivariance_cont. Qed.
  Theorem min_semivariance_grow : forall sv1 sv2 mn, exact_solver sv1 -> exact_solver sv2 -> forall x1 y1 r1 x2 y2 r2, NoDup (t :: map fst s) ->
    min_semivariance sv1 d1 mn w1 o1 = (x1, y1, Ok r1) -> min_semivariance sv2 d2 mn w2 o2 = (x2, y2, Ok r2) ->
    exists lb ub lb' ub', bounds_in_force mn o1 lb ub /\ bounds_in_force mn o2 lb' ub' /\
    improved (map fst s) t lb ub lb' ub' (if mn then 0 else 1) (fun x => True) (fun x => True)
      (fun x => semivariance (dropna rows) (bench * (if mn then 0 else 1)) x) (fun x => semivariance (dropna (rows_grow (map Some q) rows)) (bench * (if mn then 0 else 1)) x) r1 r2.
  Proof.
    intros sv1 sv2 mn X1 X2 x1 y1 r1 x2 y2 r2 Hnd E1 E2. pose proof T as (_ & _ & _ & Hg & I1 & _). assert (Hnd1 : NoDup (map fst s)) by (inversion Hnd; assumption).
    destruct (semi_min_run _ _ _ _ _ _ _ _ _ Hg I1 sv1 mn X1 _ _ _ Hnd1 E1) as (lb & ub & B & A). destruct (semi_min_run _ _ _ _ _ _ _ _ _ gg_semi gi_semi sv2 mn X2 _ _ _ Hnd E2) as (lb' & ub' & B' & A').
    exists lb, ub, lb', ub'. split; [exact B|]. split; [exact B'|].
    refine (grow_improved (length s) _ _ _ _ _ _ _ _ _ (go_semi mn _ _ _ _ B B') _ _ _ _ _ _ (map_length _ _) A A'); intros z _; cbv beta; change (map snd (mu_grow t a s)) with (a :: map snd s); rewrite ?(grisk_semi mn z), ?inner_grow; tauto.
  Qed.
  Theorem min_semivariance_grow_found : forall sv1 sv2 mn, exact_solver sv1 -> exact_solver sv2 -> complete_solver sv1 -> complete_solver sv2 -> succeeds (min_semivariance sv1 d1 mn) w1 o1 -> succeeds (min_semivariance sv2 d2 mn) w2 o2.
  Proof.
    intros sv1 sv2 mn X1 X2 K1 K2 S1. pose proof T as (_ & _ & _ & Hg & I1 & _). destruct gb_semi as (O & A & Bl & Bu & N). destruct (gf_semi mn) as (lb' & ub' & B').
    apply (semi_min_iff _ _ _ _ _ _ _ _ _ Hg I1 sv1 mn X1 K1 ) in S1. apply (semi_min_iff _ _ _ _ _ _ _ _ _ gg_semi gi_semi sv2 mn X2 K2 ).
    destruct S1 as (lb & ub & x & B & X). change (length (mu_grow t a s)) with (S (length s)). exists lb', ub'. rewrite <- N.
    match goal with |- exists x, _ /\ chosen _ _ _ _ ?ok ?cost x => destruct (new_chosen w2 o2 mn lb' ub' (if mn then 0 else 1) ok cost O A Bl Bu B') as [x' X'] end; [| | |exists x'; split; [exact B'|exact X']]; rewrite N.
    - first [apply closed_true|apply closed_le; first [apply (gcont_semi mn)|apply cont_scal, (gcont_semi mn)|apply cont_const|apply new_inner_cont]].
    - first [apply (gcont_semi mn)|apply cont_opp, new_inner_cont|apply cont_plus; [|apply cont_scal, (gcont_semi mn)]; apply (cont_ext _ (fun x => / freq * - inner (map snd (mu_grow t a s)) x)); [apply cont_scal, cont_opp, new_inner_cont|intros z _; unfold Rdiv; ring]].
    - refine (grow_fits (length s) _ _ _ _ _ _ _ _ (go_semi mn _ _ _ _ B B') _ x X); intros z _; cbv beta; change (map snd (mu_grow t a s)) with (a :: map snd s); rewrite ?(grisk_semi mn z), ?inner_grow; tauto.
  Qed.
  Theorem semivariance_risk_grow : forall sv1 sv2 mn, exact_solver sv1 -> exact_solver sv2 -> forall tg, 0 <= freq -> forall x1 y1 r1 x2 y2 r2, NoDup (t :: map fst s) ->
    semi_efficient_risk sv1 d1 tg mn w1 o1 = (x1, y1, Ok r1) -> semi_efficient_risk sv2 d2 tg mn w2 o2 = (x2, y2, Ok r2) ->
    exists lb ub lb' ub', bounds_in_force mn o1 lb ub /\ bounds_in_force mn o2 lb' ub' /\
    improved (map fst s) t lb ub lb' ub' (if mn then 0 else 1) (fun x => freq * semivariance (dropna rows) (bench * (if mn then 0 else 1)) x <= tg * tg) (fun x => freq * semivariance (dropna (rows_grow (map Some q) rows)) (bench * (if mn then 0 else 1)) x <= tg * tg)
      (fun x => - inner (map snd s) x) (fun x => - inner (a :: map snd s) x) r1 r2.
  Proof.
    intros sv1 sv2 mn X1 X2 tg Hf x1 y1 r1 x2 y2 r2 Hnd E1 E2. pose proof T as (_ & _ & _ & Hg & I1 & _). assert (Hnd1 : NoDup (map fst s)) by (inversion Hnd; assumption).
    destruct (semi_risk_run _ _ _ _ _ _ _ _ _ Hg I1 sv1 mn X1 tg _ _ _ Hf Hnd1 E1) as (lb & ub & B & A). destruct (semi_risk_run _ _ _ _ _ _ _ _ _ gg_semi gi_semi sv2 mn X2 tg _ _ _ Hf Hnd E2) as (lb' & ub' & B' & A').
    exists lb, ub, lb', ub'. split; [exact B|]. split; [exact B'|].
    refine (grow_improved (length s) _ _ _ _ _ _ _ _ _ (go_semi mn _ _ _ _ B B') _ _ _ _ _ _ (map_length _ _) A A'); intros z _; cbv beta; change (map snd (mu_grow t a s)) with (a :: map snd s); rewrite ?(grisk_semi mn z), ?inner_grow; tauto.
  Qed.
  Theorem semivariance_risk_grow_found : forall sv1 sv2 mn, exact_solver sv1 -> exact_solver sv2 -> complete_solver sv1 -> complete_solver sv2 -> 0 <= freq -> forall tg, succeeds (semi_efficient_risk sv1 d1 tg mn) w1 o1 -> succeeds (semi_efficient_risk sv2 d2 tg mn) w2 o2.
  Proof.
    intros sv1 sv2 mn X1 X2 K1 K2 Hf tg S1. pose proof T as (_ & _ & _ & Hg & I1 & _). destruct gb_semi as (O & A & Bl & Bu & N). destruct (gf_semi mn) as (lb' & ub' & B').
    apply (semi_risk_iff _ _ _ _ _ _ _ _ _ Hg I1 sv1 mn X1 K1 Hf tg) in S1. apply (semi_risk_iff _ _ _ _ _ _ _ _ _ gg_semi gi_semi sv2 mn X2 K2 Hf tg).
    destruct S1 as (lb & ub & x & B & X). change (length (mu_grow t a s)) with (S (length s)). exists lb', ub'. rewrite <- N.
    match goal with |- exists x, _ /\ chosen _ _ _ _ ?ok ?cost x => destruct (new_chosen w2 o2 mn lb' ub' (if mn then 0 else 1) ok cost O A Bl Bu B') as [x' X'] end; [| | |exists x'; split; [exact B'|exact X']]; rewrite N.
    - first [apply closed_true|apply closed_le; first [apply (gcont_semi mn)|apply cont_scal, (gcont_semi mn)|apply cont_const|apply new_inner_cont]].
    - first [apply (gcont_semi mn)|apply cont_opp, new_inner_cont|apply cont_plus; [|apply cont_scal, (gcont_semi mn)]; apply (cont_ext _ (fun x => / freq * - inner (map snd (mu_grow t a s)) x)); [apply cont_scal, cont_opp, new_inner_cont|intros z _; unfold Rdiv; ring]].
    - refine (grow_fits (length s) _ _ _ _ _ _ _ _ (go_semi mn _ _ _ _ B B') _ x X); intros z _; cbv beta; change (map snd (mu_grow t a s)) with (a :: map snd s); rewrite ?(grisk_semi mn z), ?inner_grow; tauto.
  Qed.
  Theorem semivariance_return_grow : forall sv1 sv2 mn, exact_solver sv1 -> exact_solver sv2 -> forall tg, forall x1 y1 r1 x2 y2 r2, NoDup (t :: map fst s) ->
    semi_efficient_return sv1 d1 (NFloat tg) mn w1 o1 = (x1, y1, Ok r1) -> semi_efficient_return sv2 d2 (NFloat tg) mn w2 o2 = (x2, y2, Ok r2) ->
    exists lb ub lb' ub', bounds_in_force mn o1 lb ub /\ bounds_in_force mn o2 lb' ub' /\
    improved (map fst s) t lb ub lb' ub' (if mn then 0 else 1) (fun x => tg <= inner (map snd s) x) (fun x => tg <= inner (a :: map snd s) x)
      (fun x => semivariance (dropna rows) (bench * (if mn then 0 else 1)) x) (fun x => semivariance (dropna (rows_grow (map Some q) rows)) (bench * (if mn then 0 else 1)) x) r1 r2.
  Proof.
    intros sv1 sv2 mn X1 X2 tg x1 y1 r1 x2 y2 r2 Hnd E1 E2. pose proof T as (_ & _ & _ & Hg & I1 & _). assert (Hnd1 : NoDup (map fst s)) by (inversion Hnd; assumption).
    destruct (semi_return_run _ _ _ _ _ _ _ _ _ Hg I1 sv1 mn X1 tg _ _ _ Hnd1 E1) as (lb & ub & B & A). destruct (semi_return_run _ _ _ _ _ _ _ _ _ gg_semi gi_semi sv2 mn X2 tg _ _ _ Hnd E2) as (lb' & ub' & B' & A').
    exists lb, ub, lb', ub'. split; [exact B|]. split; [exact B'|].
    refine (grow_improved (length s) _ _ _ _ _ _ _ _ _ (go_semi mn _ _ _ _ B B') _ _ _ _ _ _ (map_length _ _) A A'); intros z _; cbv beta; change (map snd (mu_grow t a s)) with (a :: map snd s); rewrite ?(grisk_semi mn z), ?inner_grow; tauto.
  Qed.
  Theorem semivariance_utility_grow : forall sv1 sv2 mn, exact_solver sv1 -> exact_solver sv2 -> forall tg, forall x1 y1 r1 x2 y2 r2, NoDup (t :: map fst s) ->
    semi_max_quadratic_utility sv1 d1 tg mn w1 o1 = (x1, y1, Ok r1) -> semi_max_quadratic_utility sv2 d2 tg mn w2 o2 = (x2, y2, Ok r2) ->
    exists lb ub lb' ub', bounds_in_force mn o1 lb ub /\ bounds_in_force mn o2 lb' ub' /\
    improved (map fst s) t lb ub lb' ub' (if mn then 0 else 1) (fun x => True) (fun x => True)
      (fun x => - inner (map snd s) x / freq + 1 / 2 * tg * semivariance (dropna rows) (bench * (if mn then 0 else 1)) x) (fun x => - inner (a :: map snd s) x / freq + 1 / 2 * tg * semivariance (dropna (rows_grow (map Some q) rows)) (bench * (if mn then 0 else 1)) x) r1 r2.
  Proof.
    intros sv1 sv2 mn X1 X2 tg x1 y1 r1 x2 y2 r2 Hnd E1 E2. pose proof T as (_ & _ & _ & Hg & I1 & _). assert (Hnd1 : NoDup (map fst s)) by (inversion Hnd; assumption).
    destruct (semi_utility_run _ _ _ _ _ _ _ _ _ Hg I1 sv1 mn X1 tg _ _ _ Hnd1 E1) as (lb & ub & B & A). destruct (semi_utility_run _ _ _ _ _ _ _ _ _ gg_semi gi_semi sv2 mn X2 tg _ _ _ Hnd E2) as (lb' & ub' & B' & A').
    exists lb, ub, lb', ub'. split; [exact B|]. split; [exact B'|].
    refine (grow_improved (length s) _ _ _ _ _ _ _ _ _ (go_semi mn _ _ _ _ B B') _ _ _ _ _ _ (map_length _ _) A A'); intros z _; cbv beta; change (map snd (mu_grow t a s)) with (a :: map snd s); rewrite ?(grisk_semi mn z), ?inner_grow; tauto.
  Qed.
  Theorem semivariance_utility_grow_found : forall sv1 sv2 mn, exact_solver sv1 -> exact_solver sv2 -> complete_solver sv1 -> complete_solver sv2 -> forall tg, succeeds (semi_max_quadratic_utility sv1 d1 tg mn) w1 o1 -> succeeds (semi_max_quadratic_utility sv2 d2 tg mn) w2 o2.
  Proof.
    intros sv1 sv2 mn X1 X2 K1 K2 tg S1. pose proof T as (_ & _ & _ & Hg & I1 & _). destruct gb_semi as (O & A & Bl & Bu & N). destruct (gf_semi mn) as (lb' & ub' & B').
    apply (semi_utility_iff _ _ _ _ _ _ _ _ _ Hg I1 sv1 mn X1 K1 tg) in S1. apply (semi_utility_iff _ _ _ _ _ _ _ _ _ gg_semi gi_semi sv2 mn X2 K2 tg).
    destruct S1 as [G S1]. split; [exact G|]. destruct S1 as (lb & ub & x & B & X). change (length (mu_grow t a s)) with (S (length s)). exists lb', ub'. rewrite <- N.
    match goal with |- exists x, _ /\ chosen _ _ _ _ ?ok ?cost x => destruct (new_chosen w2 o2 mn lb' ub' (if mn then 0 else 1) ok cost O A Bl Bu B') as [x' X'] end; [| | |exists x'; split; [exact B'|exact X']]; rewrite N.
    - first [apply closed_true|apply closed_le; first [apply (gcont_semi mn)|apply cont_scal, (gcont_semi mn)|apply cont_const|apply new_inner_cont]].
    - first [apply (gcont_semi mn)|apply cont_opp, new_inner_cont|apply cont_plus; [|apply cont_scal, (gcont_semi mn)]; apply (cont_ext _ (fun x => / freq * - inner (map snd (mu_grow t a s)) x)); [apply cont_scal, cont_opp, new_inner_cont|intros z _; unfold Rdiv; ring]].
    - refine (grow_fits (length s) _ _ _ _ _ _ _ _ (go_semi mn _ _ _ _ B B') _ x X); intros z _; cbv beta; change (map snd (mu_grow t a s)) with (a :: map snd s); rewrite ?(grisk_semi mn z), ?inner_grow; tauto.
  Qed.
End Grow_semi.
Theorem cvar_grow_accepted : forall t a q lo hi s rows beta v1 v2 w1 o1 d1, cvar_init (MIn (MuSeries s)) (RTable (length s) rows) beta (around lo hi) v1 = (w1, Ok (o1, d1)) ->
  exists w2 o2 d2, cvar_init (MIn (MuSeries (mu_grow t a s))) (RTable (S (length s)) (rows_grow q rows)) beta (around lo hi) v2 = (w2, Ok (o2, d2)).
Proof.
  intros t a q lo hi s rows beta v1 v2 w1 o1 d1 E. unfold cvar_init in *. cbn [mu_values] in *. try rewrite map_length in E. change (map snd (mu_grow t a s)) with (a :: map snd s). cbn [length]. try rewrite map_length. cbv zeta in E |- *.
  destruct (ef_init (MIn (MuSeries s)) _ (around lo hi) v1) as [x1 [q1|]] eqn:I1; [|discriminate E].
  destruct (grow_init t a s lo hi v2) as (x2 & q2 & I2 & E2). cbn [mu_grow length] in *. rewrite I2. unfold validate_returns in *. rewrite E2. change (map snd ((t, a) :: s)) with (a :: map snd s). cbn [length]. rewrite map_length, Nat.eqb_refl. cbn [negb].
  match type of E with context [if ?b then _ else _] => destruct b; [discriminate E|] end. destruct (validate_beta beta); [|discriminate E]. cbv zeta. eauto.
Qed.
Section Grow_cvar.
  Variables (t : label) (a : R) (q : list R) (lo hi : R) (s : list (label * R)) (rows : list (list (option R))) (beta : R) (v1 v2 w1 w2 : world) (o1 o2 : ef) (d1 d2 : cvar_data).
  Hypothesis T : cvar_grown t a q lo hi s rows beta v1 v2 w1 w2 o1 o2 d1 d2.
  Lemma gg_cvar : good_rows (length (mu_grow t a s)) (rows_grow (map Some q) rows).
  Proof. cbn [mu_grow length]. apply grow_good; apply T. Qed.
  Lemma gi_cvar : cvar_init (MIn (MuSeries (mu_grow t a s))) (RTable (length (mu_grow t a s)) (rows_grow (map Some q) rows)) beta (around lo hi) v2 = (w2, Ok (o2, d2)).
  Proof. cbn [mu_grow length]. apply T. Qed.
  Lemma go_cvar : forall mn lb ub lb' ub', bounds_in_force mn o1 lb ub -> bounds_in_force mn o2 lb' ub' -> forall y, within lb' ub' (0 :: y) <-> within lb ub y.
  Proof.
    intros mn lb ub lb' ub' B1 B2 y. pose proof T as (Hz & Hn & Lq & Hg & E1 & _). destruct (cvar_run_facts _ _ _ _ _ _ _ _ Hg E1) as (_ & _ & _ & _ & Q1 & N1). destruct (cvar_run_facts _ _ _ _ _ _ _ _ gg_cvar gi_cvar) as (_ & _ & _ & _ & Q2 & N2).
    cbn [mu_grow length] in N2, Q2. unfold read_bounds, around in Q1, Q2. rewrite andb_false_r in Q1, Q2. injection Q1 as L1 U1. injection Q2 as L2 U2. symmetry in L1, U1, L2, U2.
    apply (around_force mn o1 _ lo hi _ _ N1 Hn L1 U1) in B1 as [-> ->]. apply (around_force mn o2 (S (length s)) lo hi _ _ N2 (Nat.lt_0_succ _) L2 U2) in B2 as [-> ->]. apply around_within, around_zero, Hz.
  Qed.
  Lemma gf_cvar : forall mn, exists lb ub, bounds_in_force mn o2 lb ub.
  Proof.
    intros mn. destruct (cvar_run_facts _ _ _ _ _ _ _ _ gg_cvar gi_cvar) as (_ & _ & _ & _ & Q2 & N2). cbn [mu_grow length] in N2, Q2. unfold read_bounds, around in Q2. rewrite andb_false_r in Q2. injection Q2 as L2 U2. symmetry in L2, U2.
    eexists _, _. apply (around_force mn o2 (S (length s)) lo hi _ _ N2 (Nat.lt_0_succ _) L2 U2). auto.
  Qed.
  Lemma gb_cvar : open_ef w2 o2 [] /\ e_add o2 = [] /\ bounded (e_lb o2) /\ bounded (e_ub o2) /\ e_n o2 = S (length s).
  Proof.
    destruct (cvar_run_facts _ _ _ _ _ _ _ _ gg_cvar gi_cvar) as (O & _ & _ & F & Q2 & N2). cbn [mu_grow length] in N2, Q2. unfold read_bounds, around in Q2. rewrite andb_false_r in Q2. injection Q2 as L2 U2. rewrite <- L2, <- U2.
    split; [exact O|]. split; [apply F|]. split; [exact (around_bounded (S (length s)) lo)|]. split; [exact (around_bounded (S (length s)) hi)|exact N2].
  Qed.
  Lemma grisk_cvar : forall (mn : bool) (y : list R), cvar beta (dropna (rows_grow (map Some q) rows)) (0 :: y) = cvar beta (dropna rows) y.
  Proof.
    intros mn y. pose proof T as (_ & _ & Lq & _). unfold semivariance, cvar, cdar. rewrite ?(grow_days _ _ Lq). rewrite (grow_periods _ _ _ Lq). reflexivity.
  Qed.
  Lemma gcont_cvar : forall mn : bool, continuous_on (S (length s)) (fun x => cvar beta (dropna (rows_grow (map Some q) rows)) x).
  Proof. intros mn. destruct (cvar_run_facts _ _ _ _ _ _ _ _ gg_cvar gi_cvar) as (_ & Rd & (D1 & D2) & _); rewrite <- D1, <- D2; apply cvar_cont; apply Rd. Qed.
  Theorem min_cvar_grow : forall sv1 sv2 mn, exact_solver sv1 -> exact_solver sv2 -> forall x1 y1 r1 x2 y2 r2, NoDup (t :: map fst s) ->
    min_cvar sv1 d1 mn w1 o1 = (x1, y1, Ok r1) -> min_cvar sv2 d2 mn w2 o2 = (x2, y2, Ok r2) ->
    exists lb ub lb' ub', bounds_in_force mn o1 lb ub /\ bounds_in_force mn o2 lb' ub' /\
    improved (map fst s) t lb ub lb' ub' (if mn then 0 else 1) (fun x => True) (fun x => True)
      (fun x => cvar beta (dropna rows) x) (fun x => cvar beta (dropna (rows_grow (map Some q) rows)) x) r1 r2.
  Proof.
    intros sv1 sv2 mn X1 X2 x1 y1 r1 x2 y2 r2 Hnd E1 E2. pose proof T as (_ & _ & _ & Hg & I1 & _). assert (Hnd1 : NoDup (map fst s)) by (inversion Hnd; assumption).
    destruct (cvar_min_run _ _ _ _ _ _ _ _ Hg I1 sv1 mn X1 _ _ _ Hnd1 E1) as (lb & ub & B & A). destruct (cvar_min_run _ _ _ _ _ _ _ _ gg_cvar gi_cvar sv2 mn X2 _ _ _ Hnd E2) as (lb' & ub' & B' & A').
    exists lb, ub, lb', ub'. split; [exact B|]. split; [exact B'|].
    refine (grow_improved (length s) _ _ _ _ _ _ _ _ _ (go_cvar mn _ _ _ _ B B') _ _ _ _ _ _ (map_length _ _) A A'); intros z _; cbv beta; change (map snd (mu_grow t a s)) with (a :: map snd s); rewrite ?(grisk_cvar mn z), ?inner_grow; tauto.
  Qed.
  Theorem min_cvar_grow_found : forall sv1 sv2 mn, exact_solver sv1 -> exact_solver sv2 -> complete_solver sv1 -> complete_solver sv2 -> succeeds (min_cvar sv1 d1 mn) w1 o1 -> succeeds (min_cvar sv2 d2 mn) w2 o2.
  Proof.
    intros sv1 sv2 mn X1 X2 K1 K2 S1. pose proof T as (_ & _ & _ & Hg & I1 & _). destruct gb_cvar as (O & A & Bl & Bu & N). destruct (gf_cvar mn) as (lb' & ub' & B').
    apply (cvar_min_iff _ _ _ _ _ _ _ _ Hg I1 sv1 mn X1 K1 ) in S1. apply (cvar_min_iff _ _ _ _ _ _ _ _ gg_cvar gi_cvar sv2 mn X2 K2 ).
    destruct S1 as (lb & ub & x & B & X). change (length (mu_grow t a s)) with (S (length s)). exists lb', ub'. rewrite <- N.
    match goal with |- exists x, _ /\ chosen _ _ _ _ ?ok ?cost x => destruct (new_chosen w2 o2 mn lb' ub' (if mn then 0 else 1) ok cost O A Bl Bu B') as [x' X'] end; [| | |exists x'; split; [exact B'|exact X']]; rewrite N.
    - first [apply closed_true|apply closed_le; first [apply (gcont_cvar mn)|apply cont_scal, (gcont_cvar mn)|apply cont_const|apply new_inner_cont]].
    - first [apply (gcont_cvar mn)|apply cont_opp, new_inner_cont|apply cont_plus; [|apply cont_scal, (gcont_cvar mn)]; apply (cont_ext _ (fun x => / freq * - inner (map snd (mu_grow t a s)) x)); [apply cont_scal, cont_opp, new_inner_cont|intros z _; unfold Rdiv; ring]].
    - refine (grow_fits (length s) _ _ _ _ _ _ _ _ (go_cvar mn _ _ _ _ B B') _ x X); intros z _; cbv beta; change (map snd (mu_grow t a s)) with (a :: map snd s); rewrite ?(grisk_cvar mn z), ?inner_grow; tauto.
  Qed.
  Theorem cvar_risk_grow : forall sv1 sv2 mn, exact_solver sv1 -> exact_solver sv2 -> forall tg, forall x1 y1 r1 x2 y2 r2, NoDup (t :: map fst s) ->
    cvar_efficient_risk sv1 d1 tg mn w1 o1 = (x1, y1, Ok r1) -> cvar_efficient_risk sv2 d2 tg mn w2 o2 = (x2, y2, Ok r2) ->
    exists lb ub lb' ub', bounds_in_force mn o1 lb ub /\ bounds_in_force mn o2 lb' ub' /\
    improved (map fst s) t lb ub lb' ub' (if mn then 0 else 1) (fun x => cvar beta (dropna rows) x <= tg) (fun x => cvar beta (dropna (rows_grow (map Some q) rows)) x <= tg)
      (fun x => - inner (map snd s) x) (fun x => - inner (a :: map snd s) x) r1 r2.
  Proof.
    intros sv1 sv2 mn X1 X2 tg x1 y1 r1 x2 y2 r2 Hnd E1 E2. pose proof T as (_ & _ & _ & Hg & I1 & _). assert (Hnd1 : NoDup (map fst s)) by (inversion Hnd; assumption).
    destruct (cvar_risk_run _ _ _ _ _ _ _ _ Hg I1 sv1 mn X1 tg _ _ _ Hnd1 E1) as (lb & ub & B & A). destruct (cvar_risk_run _ _ _ _ _ _ _ _ gg_cvar gi_cvar sv2 mn X2 tg _ _ _ Hnd E2) as (lb' & ub' & B' & A').
    exists lb, ub, lb', ub'. split; [exact B|]. split; [exact B'|].
    refine (grow_improved (length s) _ _ _ _ _ _ _ _ _ (go_cvar mn _ _ _ _ B B') _ _ _ _ _ _ (map_length _ _) A A'); intros z _; cbv beta; change (map snd (mu_grow t a s)) with (a :: map snd s); rewrite ?(grisk_cvar mn z), ?inner_grow; tauto.
  Qed.
  Theorem cvar_risk_grow_found : forall sv1 sv2 mn, exact_solver sv1 -> exact_solver sv2 -> complete_solver sv1 -> complete_solver sv2 -> forall tg, succeeds (cvar_efficient_risk sv1 d1 tg mn) w1 o1 -> succeeds (cvar_efficient_risk sv2 d2 tg mn) w2 o2.
  Proof.
    intros sv1 sv2 mn X1 X2 K1 K2 tg S1. pose proof T as (_ & _ & _ & Hg & I1 & _). destruct gb_cvar as (O & A & Bl & Bu & N). destruct (gf_cvar mn) as (lb' & ub' & B').
    apply (cvar_risk_iff _ _ _ _ _ _ _ _ Hg I1 sv1 mn X1 K1 tg) in S1. apply (cvar_risk_iff _ _ _ _ _ _ _ _ gg_cvar gi_cvar sv2 mn X2 K2 tg).
    destruct S1 as [G S1]. split; [exact G|]. destruct S1 as (lb & ub & x & B & X). change (length (mu_grow t a s)) with (S (length s)). exists lb', ub'. rewrite <- N.
    match goal with |- exists x, _ /\ chosen _ _ _ _ ?ok ?cost x => destruct (new_chosen w2 o2 mn lb' ub' (if mn then 0 else 1) ok cost O A Bl Bu B') as [x' X'] end; [| | |exists x'; split; [exact B'|exact X']]; rewrite N.
    - first [apply closed_true|apply closed_le; first [apply (gcont_cvar mn)|apply cont_scal, (gcont_cvar mn)|apply cont_const|apply new_inner_cont]].
    - first [apply (gcont_cvar mn)|apply cont_opp, new_inner_cont|apply cont_plus; [|apply cont_scal, (gcont_cvar mn)]; apply (cont_ext _ (fun x => / freq * - inner (map snd (mu_grow t a s)) x)); [apply cont_scal, cont_opp, new_inner_cont|intros z _; unfold Rdiv; ring]].
    - refine (grow_fits (length s) _ _ _ _ _ _ _ _ (go_cvar mn _ _ _ _ B B') _ x X); intros z _; cbv beta; change (map snd (mu_grow t a s)) with (a :: map snd s); rewrite ?(grisk_cvar mn z), ?inner_grow; tauto.
  Qed.
  Theorem cvar_return_grow : forall sv1 sv2 mn, exact_solver sv1 -> exact_solver sv2 -> forall tg, forall x1 y1 r1 x2 y2 r2, NoDup (t :: map fst s) ->
    cvar_efficient_return sv1 d1 tg mn w1 o1 = (x1, y1, Ok r1) -> cvar_efficient_return sv2 d2 tg mn w2 o2 = (x2, y2, Ok r2) ->
    exists lb ub lb' ub', bounds_in_force mn o1 lb ub /\ bounds_in_force mn o2 lb' ub' /\
    improved (map fst s) t lb ub lb' ub' (if mn then 0 else 1) (fun x => tg <= inner (map snd s) x) (fun x => tg <= inner (a :: map snd s) x)
      (fun x => cvar beta (dropna rows) x) (fun x => cvar beta (dropna (rows_grow (map Some q) rows)) x) r1 r2.
  Proof.
    intros sv1 sv2 mn X1 X2 tg x1 y1 r1 x2 y2 r2 Hnd E1 E2. pose proof T as (_ & _ & _ & Hg & I1 & _). assert (Hnd1 : NoDup (map fst s)) by (inversion Hnd; assumption).
    destruct (cvar_return_run _ _ _ _ _ _ _ _ Hg I1 sv1 mn X1 tg _ _ _ Hnd1 E1) as (lb & ub & B & A). destruct (cvar_return_run _ _ _ _ _ _ _ _ gg_cvar gi_cvar sv2 mn X2 tg _ _ _ Hnd E2) as (lb' & ub' & B' & A').
    exists lb, ub, lb', ub'. split; [exact B|]. split; [exact B'|].
    refine (grow_improved (length s) _ _ _ _ _ _ _ _ _ (go_cvar mn _ _ _ _ B B') _ _ _ _ _ _ (map_length _ _) A A'); intros z _; cbv beta; change (map snd (mu_grow t a s)) with (a :: map snd s); rewrite ?(grisk_cvar mn z), ?inner_grow; tauto.
  Qed.
  Theorem cvar_return_grow_found : forall sv1 sv2 mn, exact_solver sv1 -> exact_solver sv2 -> complete_solver sv1 -> complete_solver sv2 -> forall tg, succeeds (cvar_efficient_return sv1 d1 tg mn) w1 o1 -> succeeds (cvar_efficient_return sv2 d2 tg mn) w2 o2.
  Proof.
    intros sv1 sv2 mn X1 X2 K1 K2 tg S1. pose proof T as (_ & _ & _ & Hg & I1 & _). destruct gb_cvar as (O & A & Bl & Bu & N). destruct (gf_cvar mn) as (lb' & ub' & B').
    apply (cvar_return_iff _ _ _ _ _ _ _ _ Hg I1 sv1 mn X1 K1 tg) in S1. apply (cvar_return_iff _ _ _ _ _ _ _ _ gg_cvar gi_cvar sv2 mn X2 K2 tg).
    destruct S1 as (lb & ub & x & B & X). change (length (mu_grow t a s)) with (S (length s)). exists lb', ub'. rewrite <- N.
    match goal with |- exists x, _ /\ chosen _ _ _ _ ?ok ?cost x => destruct (new_chosen w2 o2 mn lb' ub' (if mn then 0 else 1) ok cost O A Bl Bu B') as [x' X'] end; [| | |exists x'; split; [exact B'|exact X']]; rewrite N.
    - first [apply closed_true|apply closed_le; first [apply (gcont_cvar mn)|apply cont_scal, (gcont_cvar mn)|apply cont_const|apply new_inner_cont]].
    - first [apply (gcont_cvar mn)|apply cont_opp, new_inner_cont|apply cont_plus; [|apply cont_scal, (gcont_cvar mn)]; apply (cont_ext _ (fun x => / freq * - inner (map snd (mu_grow t a s)) x)); [apply cont_scal, cont_opp, new_inner_cont|intros z _; unfold Rdiv; ring]].
    - refine (grow_fits (length s) _ _ _ _ _ _ _ _ (go_cvar mn _ _ _ _ B B') _ x X); intros z _; cbv beta; change (map snd (mu_grow t a s)) with (a :: map snd s); rewrite ?(grisk_cvar mn z), ?inner_grow; tauto.
  Qed.
End Grow_cvar.
Theorem cdar_grow_accepted : forall t a q lo hi s rows beta v1 v2 w1 o1 d1, cdar_init (MIn (MuSeries s)) (RTable (length s) rows) beta (around lo hi) v1 = (w1, Ok (o1, d1)) ->
  exists w2 o2 d2, cdar_init (MIn (MuSeries (mu_grow t a s))) (RTable (S (length s)) (rows_grow q rows)) beta (around lo hi) v2 = (w2, Ok (o2, d2)).
Proof.
  intros t a q lo hi s rows beta v1 v2 w1 o1 d1 E. unfold cdar_init in *. cbn [mu_values] in *. try rewrite map_length in E. change (map snd (mu_grow t a s)) with (a :: map snd s). cbn [length]. try rewrite map_length. cbv zeta in E |- *.
  destruct (ef_init (MIn (MuSeries s)) _ (around lo hi) v1) as [x1 [q1|]] eqn:I1; [|discriminate E].
  destruct (grow_init t a s lo hi v2) as (x2 & q2 & I2 & E2). cbn [mu_grow length] in *. rewrite I2. unfold validate_returns in *. rewrite E2. change (map snd ((t, a) :: s)) with (a :: map snd s). cbn [length]. rewrite map_length, Nat.eqb_refl. cbn [negb].
  match type of E with context [if ?b then _ else _] => destruct b; [discriminate E|] end. destruct (validate_beta beta); [|discriminate E]. cbv zeta. eauto.
Qed.
Section Grow_cdar.
  Variables (t : label) (a : R) (q : list R) (lo hi : R) (s : list (label * R)) (rows : list (list (option R))) (beta : R) (v1 v2 w1 w2 : world) (o1 o2 : ef) (d1 d2 : cdar_data).
  Hypothesis T : cdar_grown t a q lo hi s rows beta v1 v2 w1 w2 o1 o2 d1 d2.
  Lemma gg_cdar : good_rows (length (mu_grow t a s)) (rows_grow (map Some q) rows).
  Proof. cbn [mu_grow length]. apply grow_good; apply T. Qed.
  Lemma gi_cdar : cdar_init (MIn (MuSeries (mu_grow t a s))) (RTable (length (mu_grow t a s)) (rows_grow (map Some q) rows)) beta (around lo hi) v2 = (w2, Ok (o2, d2)).
  Proof. cbn [mu_grow length]. apply T. Qed.
  Lemma go_cdar : forall mn lb ub lb' ub', bounds_in_force mn o1 lb ub -> bounds_in_force mn o2 lb' ub' -> forall y, within lb' ub' (0 :: y) <-> within lb ub y.
  Proof.
    intros mn lb ub lb' ub' B1 B2 y. pose proof T as (Hz & Hn & Lq & Hg & E1 & _). destruct (cdar_run_facts _ _ _ _ _ _ _ _ Hg E1) as (_ & _ & _ & _ & Q1 & N1). destruct (cdar_run_facts _ _ _ _ _ _ _ _ gg_cdar gi_cdar) as (_ & _ & _ & _ & Q2 & N2).
    cbn [mu_grow length] in N2, Q2. unfold read_bounds, around in Q1, Q2. rewrite andb_false_r in Q1, Q2. injection Q1 as L1 U1. injection Q2 as L2 U2. symmetry in L1, U1, L2, U2.
    apply (around_force mn o1 _ lo hi _ _ N1 Hn L1 U1) in B1 as [-> ->]. apply (around_force mn o2 (S (length s)) lo hi _ _ N2 (Nat.lt_0_succ _) L2 U2) in B2 as [-> ->]. apply around_within, around_zero, Hz.
  Qed.
  Lemma gf_cdar : forall mn, exists lb ub, bounds_in_force mn o2 lb ub.
  Proof.
    intros mn. destruct (cdar_run_facts _ _ _ _ _ _ _ _ gg_cdar gi_cdar) as (_ & _ & _ & _ & Q2 & N2). cbn [mu_grow length] in N2, Q2. unfold read_bounds, around in Q2. rewrite andb_false_r in Q2. injection Q2 as L2 U2. symmetry in L2, U2.
    eexists _, _. apply (around_force mn o2 (S (length s)) lo hi _ _ N2 (Nat.lt_0_succ _) L2 U2). auto.
  Qed.
  Lemma gb_cdar : open_ef w2 o2 [] /\ e_add o2 = [] /\ bounded (e_lb o2) /\ bounded (e_ub o2) /\ e_n o2 = S (length s).
  Proof.
    destruct (cdar_run_facts _ _ _ _ _ _ _ _ gg_cdar gi_cdar) as (O & _ & _ & F & Q2 & N2). cbn [mu_grow length] in N2, Q2. unfold read_bounds, around in Q2. rewrite andb_false_r in Q2. injection Q2 as L2 U2. rewrite <- L2, <- U2.
    split; [exact O|]. split; [apply F|]. split; [exact (around_bounded (S (length s)) lo)|]. split; [exact (around_bounded (S (length s)) hi)|exact N2].
  Qed.
  Lemma grisk_cdar : forall (mn : bool) (y : list R), cdar beta (dropna (rows_grow (map Some q) rows)) (0 :: y) = cdar beta (dropna rows) y.
  Proof.
    intros mn y. pose proof T as (_ & _ & Lq & _). unfold semivariance, cvar, cdar. rewrite ?(grow_days _ _ Lq). rewrite (grow_periods _ _ _ Lq). reflexivity.
  Qed.
  Lemma gcont_cdar : forall mn : bool, continuous_on (S (length s)) (fun x => cdar beta (dropna (rows_grow (map Some q) rows)) x).
  Proof. intros mn. destruct (cdar_run_facts _ _ _ _ _ _ _ _ gg_cdar gi_cdar) as (_ & Rd & (D1 & D2) & _); rewrite <- D1, <- D2; apply cdar_cont; apply Rd. Qed.
  Theorem min_cdar_grow : forall sv1 sv2 mn, exact_solver sv1 -> exact_solver sv2 -> forall x1 y1 r1 x2 y2 r2, NoDup (t :: map fst s) ->
    min_cdar sv1 d1 mn w1 o1 = (x1, y1, Ok r1) -> min_cdar sv2 d2 mn w2 o2 = (x2, y2, Ok r2) ->
    exists lb ub lb' ub', bounds_in_force mn o1 lb ub /\ bounds_in_force mn o2 lb' ub' /\
    improved (map fst s) t lb ub lb' ub' (if mn then 0 else 1) (fun x => True) (fun x => True)
      (fun x => cdar beta (dropna rows) x) (fun x => cdar beta (dropna (rows_grow (map Some q) rows)) x) r1 r2.
  Proof.
    intros sv1 sv2 mn X1 X2 x1 y1 r1 x2 y2 r2 Hnd E1 E2. pose proof T as (_ & _ & _ & Hg & I1 & _). assert (Hnd1 : NoDup (map fst s)) by (inversion Hnd; assumption).
    destruct (cdar_min_run _ _ _ _ _ _ _ _ Hg I1 sv1 mn X1 _ _ _ Hnd1 E1) as (lb & ub & B & A). destruct (cdar_min_run _ _ _ _ _ _ _ _ gg_cdar gi_cdar sv2 mn X2 _ _ _ Hnd E2) as (lb' & ub' & B' & A').
    exists lb, ub, lb', ub'. split; [exact B|]. split; [exact B'|].
    refine (grow_improved (length s) _ _ _ _ _ _ _ _ _ (go_cdar mn _ _ _ _ B B') _ _ _ _ _ _ (map_length _ _) A A'); intros z _; cbv beta; change (map snd (mu_grow t a s)) with (a :: map snd s); rewrite ?(grisk_cdar mn z), ?inner_grow; tauto.
  Qed.
  Theorem min_cdar_grow_found : forall sv1 sv2 mn, exact_solver sv1 -> exact_solver sv2 -> complete_solver sv1 -> complete_solver sv2 -> succeeds (min_cdar sv1 d1 mn) w1 o1 -> succeeds (min_cdar sv2 d2 mn) w2 o2.
  Proof.
    intros sv1 sv2 mn X1 X2 K1 K2 S1. pose proof T as (_ & _ & _ & Hg & I1 & _). destruct gb_cdar as (O & A & Bl & Bu & N). destruct (gf_cdar mn) as (lb' & ub' & B').
    apply (cdar_min_iff _ _ _ _ _ _ _ _ Hg I1 sv1 mn X1 K1 ) in S1. apply (cdar_min_iff _ _ _ _ _ _ _ _ gg_cdar gi_cdar sv2 mn X2 K2 ).
    destruct S1 as (lb & ub & x & B & X). change (length (mu_grow t a s)) with (S (length s)). exists lb', ub'. rewrite <- N.
    match goal with |- exists x, _ /\ chosen _ _ _ _ ?ok ?cost x => destruct (new_chosen w2 o2 mn lb' ub' (if mn then 0 else 1) ok cost O A Bl Bu B') as [x' X'] end; [| | |exists x'; split; [exact B'|exact X']]; rewrite N.
    - first [apply closed_true|apply closed_le; first [apply (gcont_cdar mn)|apply cont_scal, (gcont_cdar mn)|apply cont_const|apply new_inner_cont]].
    - first [apply (gcont_cdar mn)|apply cont_opp, new_inner_cont|apply cont_plus; [|apply cont_scal, (gcont_cdar mn)]; apply (cont_ext _ (fun x => / freq * - inner (map snd (mu_grow t a s)) x)); [apply cont_scal, cont_opp, new_inner_cont|intros z _; unfold Rdiv; ring]].
    - refine (grow_fits (length s) _ _ _ _ _ _ _ _ (go_cdar mn _ _ _ _ B B') _ x X); intros z _; cbv beta; change (map snd (mu_grow t a s)) with (a :: map snd s); rewrite ?(grisk_cdar mn z), ?inner_grow; tauto.
  Qed.
  Theorem cdar_risk_grow : forall sv1 sv2 mn, exact_solver sv1 -> exact_solver sv2 -> forall tg, forall x1 y1 r1 x2 y2 r2, NoDup (t :: map fst s) ->
    cdar_efficient_risk sv1 d1 tg mn w1 o1 = (x1, y1, Ok r1) -> cdar_efficient_risk sv2 d2 tg mn w2 o2 = (x2, y2, Ok r2) ->
    exists lb ub lb' ub', bounds_in_force mn o1 lb ub /\ bounds_in_force mn o2 lb' ub' /\
    improved (map fst s) t lb ub lb' ub' (if mn then 0 else 1) (fun x => cdar beta (dropna rows) x <= tg) (fun x => cdar beta (dropna (rows_grow (map Some q) rows)) x <= tg)
      (fun x => - inner (map snd s) x) (fun x => - inner (a :: map snd s) x) r1 r2.
  Proof.
    intros sv1 sv2 mn X1 X2 tg x1 y1 r1 x2 y2 r2 Hnd E1 E2. pose proof T as (_ & _ & _ & Hg & I1 & _). assert (Hnd1 : NoDup (map fst s)) by (inversion Hnd; assumption).
    destruct (cdar_risk_run _ _ _ _ _ _ _ _ Hg I1 sv1 mn X1 tg _ _ _ Hnd1 E1) as (lb & ub & B & A). destruct (cdar_risk_run _ _ _ _ _ _ _ _ gg_cdar gi_cdar sv2 mn X2 tg _ _ _ Hnd E2) as (lb' & ub' & B' & A').
    exists lb, ub, lb', ub'. split; [exact B|]. split; [exact B'|].
    refine (grow_improved (length s) _ _ _ _ _ _ _ _ _ (go_cdar mn _ _ _ _ B B') _ _ _ _ _ _ (map_length _ _) A A'); intros z _; cbv beta; change (map snd (mu_grow t a s)) with (a :: map snd s); rewrite ?(grisk_cdar mn z), ?inner_grow; tauto.
  Qed.
  Theorem cdar_risk_grow_found : forall sv1 sv2 mn, exact_solver sv1 -> exact_solver sv2 -> complete_solver sv1 -> complete_solver sv2 -> forall tg, succeeds (cdar_efficient_risk sv1 d1 tg mn) w1 o1 -> succeeds (cdar_efficient_risk sv2 d2 tg mn) w2 o2.
  Proof.
    intros sv1 sv2 mn X1 X2 K1 K2 tg S1. pose proof T as (_ & _ & _ & Hg & I1 & _). destruct gb_cdar as (O & A & Bl & Bu & N). destruct (gf_cdar mn) as (lb' & ub' & B').
    apply (cdar_risk_iff _ _ _ _ _ _ _ _ Hg I1 sv1 mn X1 K1 tg) in S1. apply (cdar_risk_iff _ _ _ _ _ _ _ _ gg_cdar gi_cdar sv2 mn X2 K2 tg).
    destruct S1 as [G S1]. split; [exact G|]. destruct S1 as (lb & ub & x & B & X). change (length (mu_grow t a s)) with (S (length s)). exists lb', ub'. rewrite <- N.
    match goal with |- exists x, _ /\ chosen _ _ _ _ ?ok ?cost x => destruct (new_chosen w2 o2 mn lb' ub' (if mn then 0 else 1) ok cost O A Bl Bu B') as [x' X'] end; [| | |exists x'; split; [exact B'|exact X']]; rewrite N.
    - first [apply closed_true|apply closed_le; first [apply (gcont_cdar mn)|apply cont_scal, (gcont_cdar mn)|apply cont_const|apply new_inner_cont]].
    - first [apply (gcont_cdar mn)|apply cont_opp, new_inner_cont|apply cont_plus; [|apply cont_scal, (gcont_cdar mn)]; apply (cont_ext _ (fun x => / freq * - inner (map snd (mu_grow t a s)) x)); [apply cont_scal, cont_opp, new_inner_cont|intros z _; unfold Rdiv; ring]].
    - refine (grow_fits (length s) _ _ _ _ _ _ _ _ (go_cdar mn _ _ _ _ B B') _ x X); intros z _; cbv beta; change (map snd (mu_grow t a s)) with (a :: map snd s); rewrite ?(grisk_cdar mn z), ?inner_grow; tauto.
  Qed.
  Theorem cdar_return_grow : forall sv1 sv2 mn, exact_solver sv1 -> exact_solver sv2 -> forall tg, forall x1 y1 r1 x2 y2 r2, NoDup (t :: map fst s) ->
    cdar_efficient_return sv1 d1 tg mn w1 o1 = (x1, y1, Ok r1) -> cdar_efficient_return sv2 d2 tg mn w2 o2 = (x2, y2, Ok r2) ->
    exists lb ub lb' ub', bounds_in_force mn o1 lb ub /\ bounds_in_force mn o2 lb' ub' /\
    improved (map fst s) t lb ub lb' ub' (if mn then 0 else 1) (fun x => tg <= inner (map snd s) x) (fun x => tg <= inner (a :: map snd s) x)
      (fun x => cdar beta (dropna rows) x) (fun x => cdar beta (dropna (rows_grow (map Some q) rows)) x) r1 r2.
  Proof.
    intros sv1 sv2 mn X1 X2 tg x1 y1 r1 x2 y2 r2 Hnd E1 E2. pose proof T as (_ & _ & _ & Hg & I1 & _). assert (Hnd1 : NoDup (map fst s)) by (inversion Hnd; assumption).
    destruct (cdar_return_run _ _ _ _ _ _ _ _ Hg I1 sv1 mn X1 tg _ _ _ Hnd1 E1) as (lb & ub & B & A). destruct (cdar_return_run _ _ _ _ _ _ _ _ gg_cdar gi_cdar sv2 mn X2 tg _ _ _ Hnd E2) as (lb' & ub' & B' & A').
    exists lb, ub, lb', ub'. split; [exact B|]. split; [exact B'|].
    refine (grow_improved (length s) _ _ _ _ _ _ _ _ _ (go_cdar mn _ _ _ _ B B') _ _ _ _ _ _ (map_length _ _) A A'); intros z _; cbv beta; change (map snd (mu_grow t a s)) with (a :: map snd s); rewrite ?(grisk_cdar mn z), ?inner_grow; tauto.
  Qed.
  Theorem cdar_return_grow_found : forall sv1 sv2 mn, exact_solver sv1 -> exact_solver sv2 -> complete_solver sv1 -> complete_solver sv2 -> forall tg, succeeds (cdar_efficient_return sv1 d1 tg mn) w1 o1 -> succeeds (cdar_efficient_return sv2 d2 tg mn) w2 o2.
  Proof.
    intros sv1 sv2 mn X1 X2 K1 K2 tg S1. pose proof T as (_ & _ & _ & Hg & I1 & _). destruct gb_cdar as (O & A & Bl & Bu & N). destruct (gf_cdar mn) as (lb' & ub' & B').
    apply (cdar_return_iff _ _ _ _ _ _ _ _ Hg I1 sv1 mn X1 K1 tg) in S1. apply (cdar_return_iff _ _ _ _ _ _ _ _ gg_cdar gi_cdar sv2 mn X2 K2 tg).
    destruct S1 as [G S1]. split; [exact G|]. destruct S1 as (lb & ub & x & B & X). change (length (mu_grow t a s)) with (S (length s)). exists lb', ub'. rewrite <- N.
    match goal with |- exists x, _ /\ chosen _ _ _ _ ?ok ?cost x => destruct (new_chosen w2 o2 mn lb' ub' (if mn then 0 else 1) ok cost O A Bl Bu B') as [x' X'] end; [| | |exists x'; split; [exact B'|exact X']]; rewrite N.
    - first [apply closed_true|apply closed_le; first [apply (gcont_cdar mn)|apply cont_scal, (gcont_cdar mn)|apply cont_const|apply new_inner_cont]].
    - first [apply (gcont_cdar mn)|apply cont_opp, new_inner_cont|apply cont_plus; [|apply cont_scal, (gcont_cdar mn)]; apply (cont_ext _ (fun x => / freq * - inner (map snd (mu_grow t a s)) x)); [apply cont_scal, cont_opp, new_inner_cont|intros z _; unfold Rdiv; ring]].
    - refine (grow_fits (length s) _ _ _ _ _ _ _ _ (go_cdar mn _ _ _ _ B B') _ x X); intros z _; cbv beta; change (map snd (mu_grow t a s)) with (a :: map snd s); rewrite ?(grisk_cdar mn z), ?inner_grow; tauto.
  Qed.
End Grow_cdar.
