(** * An asset listed twice: the downside optimizers (C141) *)
From Coq Require Import ZArith String List Bool Reals Lra Lia.
From Verif Require Import Num Py RBase PyLemmas SBL MBase MConvex MEF MDown SLin SBase SConvex SPerm SUnits SDown SDays SClone Sums Mat PBase PConvex PEF PEF2 PDown5 PPerm PPerm2 PPerm4 PDays PTail PClone.
Import ListNotations.
Local Open Scope R_scope.

Lemma nth_map_some : forall l i, nth i (map (@Some R) l) None = if Nat.ltb i (length l) then Some (nth i l 0) else None.
Proof. induction l as [|a l IH]; intros [|i]; try reflexivity. cbn [map nth length]. rewrite IH. reflexivity. Qed.
Lemma complete_some : forall row l, complete row = Some l -> row = map (@Some R) l.
Proof.
  induction row as [|[a|] row IH]; intros l E; cbn in E; [injection E as <-; reflexivity| |discriminate E].
  destruct (complete row) as [q|]; [|discriminate E]. injection E as <-. cbn. rewrite (IH q eq_refl). reflexivity.
Qed.
Lemma complete_clone : forall i row, (i < length row)%nat -> complete (nth i row None :: row) = option_map (fun l => nth i l 0 :: l) (complete row).
Proof.
  intros i row H. destruct (complete row) as [l|] eqn:E.
  - apply complete_some in E as E1. cbn [option_map]. replace (nth i row None) with (Some (nth i l 0)); [cbn; rewrite E; reflexivity|].
    subst row. rewrite map_length in H. rewrite nth_map_some, (proj2 (Nat.ltb_lt _ _) H). reflexivity.
  - cbn [option_map]. destruct (nth i row None); [cbn; rewrite E|]; reflexivity.
Qed.
Lemma dropna_clone : forall n i rows, (i < n)%nat -> Forall (fun r => length r = n) rows -> dropna (rows_clone i rows) = map (fun l => nth i l 0 :: l) (dropna rows).
Proof.
  intros n i rows H. induction 1 as [|r rows L _ IH]; [reflexivity|]. unfold dropna, rows_clone in *. cbn [map flat_map]. rewrite complete_clone by lia. rewrite IH. destruct (complete r); reflexivity.
Qed.
Lemma good_clone : forall n i rows, (i < n)%nat -> good_rows n rows -> good_rows (S n) (rows_clone i rows).
Proof.
  intros n i rows H [F (r & l & I & E)]. split.
  - unfold rows_clone. apply Forall_map. revert F. apply Forall_impl. intros q Hq. cbn. congruence.
  - exists (nth i r None :: r), (nth i l 0 :: l). split; [apply (in_map (fun row => nth i row None :: row)); exact I|]. rewrite Forall_forall in F. rewrite complete_clone by (rewrite (F r I); exact H). rewrite E. reflexivity.
Qed.
Lemma periods_clone : forall n i rows x, (i < n)%nat -> good_rows n rows -> length x = S n -> period_returns (dropna (rows_clone i rows)) x = period_returns (dropna rows) (merge i x).
Proof.
  intros n i rows x H [F _] L. rewrite (dropna_clone n) by assumption. unfold period_returns. rewrite map_map. apply map_ext_in. intros r I.
  pose proof (dropna_lengths _ _ F) as G. rewrite Forall_forall in G. apply inner_clone; rewrite (G r I); assumption.
Qed.
Lemma dropna_clone_len : forall n i rows, (i < n)%nat -> good_rows n rows -> length (dropna (rows_clone i rows)) = length (dropna rows).
Proof. intros n i rows H [F _]. rewrite (dropna_clone n) by assumption. apply map_length. Qed.
Lemma clone_init : forall t i s v1 v2 w1 o1, ef_init (MIn (MuSeries s)) (CIn (CovArray (zeros (length s)))) longs v1 = (w1, Ok o1) ->
  exists w2 o2, ef_init (MIn (MuSeries (mu_clone t i s))) (CIn (CovArray (zeros (S (length s))))) longs v2 = (w2, Ok o2) /\ e_mu o2 = Some (map snd (mu_clone t i s)).
Proof.
  intros t i s v1 v2 w1 o1 _. eexists _, _. split; [apply ef_init_ok with (lb := zeros_to (S (length s))) (ub := ones_to (S (length s)))|].
  - destruct (zeros_square (S (length s))) as [Z _]. unfold init_shape_ok. cbn [mu_values cov_values mu_clone map snd length]. rewrite map_length. split; [apply Z|]. apply num_cols_square; [lia|exact Z].
  - cbn [init_tickers mu_clone map fst length]. rewrite map_length. apply long_read.
  - reflexivity.
Qed.
Theorem semi_clone_accepted : forall t i s rows freq bench v1 v2 w1 o1 d1, (i < length s)%nat -> semi_init (MIn (MuSeries s)) (RTable (length s) rows) freq bench longs v1 = (w1, Ok (o1, d1)) ->
  exists w2 o2 d2, semi_init (MIn (MuSeries (mu_clone t i s))) (RTable (S (length s)) (rows_clone i rows)) freq bench longs v2 = (w2, Ok (o2, d2)).
Proof.
  intros t i s rows freq bench v1 v2 w1 o1 d1 Hi E. unfold semi_init in *. cbn [mu_values] in *. try rewrite map_length in E. change (map snd (mu_clone t i s)) with (nth i (map snd s) 0 :: map snd s). cbn [length]. try rewrite map_length. cbv zeta in E |- *.
  destruct (ef_init (MIn (MuSeries s)) _ longs v1) as [x1 [q1|]] eqn:I1; [|discriminate E].
  destruct (clone_init t i s v1 v2 x1 q1 I1) as (x2 & q2 & I2 & M2). cbn [mu_clone length] in *. rewrite I2. unfold validate_returns in *. rewrite M2. change (map snd ((t, nth i (map snd s) 0) :: s)) with (nth i (map snd s) 0 :: map snd s). cbn [length]. rewrite map_length, Nat.eqb_refl. cbn [negb].
  eauto.
Qed.
Section Clone_semi.
  Variables (t : label) (i : nat) (s : list (label * R)) (rows : list (list (option R))) (freq bench : R) (v1 v2 w1 w2 : world) (o1 o2 : ef) (d1 d2 : semi).
  Hypothesis T : semi_clones t i s rows freq bench v1 v2 w1 w2 o1 o2 d1 d2.
  Lemma cg_semi : good_rows (length (mu_clone t i s)) (rows_clone i rows).
  Proof. cbn [mu_clone length]. apply good_clone; apply T. Qed.
  Lemma ci_semi : semi_init (MIn (MuSeries (mu_clone t i s))) (RTable (length (mu_clone t i s)) (rows_clone i rows)) freq bench longs v2 = (w2, Ok (o2, d2)).
  Proof. cbn [mu_clone length]. apply T. Qed.
  Lemma co_semi : (e_lb o1 = zeros_to (length s) /\ e_ub o1 = ones_to (length s)) /\ e_lb o2 = zeros_to (S (length s)) /\ e_ub o2 = ones_to (S (length s)).
  Proof.
    pose proof T as (_ & Hg & E1 & _). destruct (semi_run_facts _ _ _ _ _ _ _ _ _ Hg E1) as (_ & _ & _ & _ & B1 & _). destruct (semi_run_facts _ _ _ _ _ _ _ _ _ cg_semi ci_semi) as (_ & _ & _ & _ & B2 & _).
    rewrite long_read in B1, B2. cbn [mu_clone length] in B2. injection B1 as L1 U1. injection B2 as L2 U2. auto.
  Qed.
  Lemma cret_semi : forall x, length x = S (length s) -> total x = 1 -> inner (map snd (mu_clone t i s)) x = inner (map snd s) (merge i x).
  Proof. intros x L _. cbn [mu_clone map snd]. apply inner_clone; rewrite map_length; [exact L|apply T]. Qed.
  Lemma crisk_semi : forall x, length x = S (length s) -> total x = 1 -> semivariance (dropna (rows_clone i rows)) (bench * 1) x = semivariance (dropna rows) bench (merge i x).
  Proof.
    intros x L _. pose proof T as (Hi & Hg & _). unfold semivariance, cvar, cdar. rewrite ?Rmult_1_r, ?(dropna_clone_len _ _ _ Hi Hg). rewrite (periods_clone (length s)) by assumption. reflexivity.
  Qed.
  Lemma cfacts_semi : (i < length s)%nat /\ length (map fst (mu_clone t i s)) = S (length s).
  Proof. split; [apply T|]. cbn. rewrite map_length. reflexivity. Qed.
  Theorem min_semivariance_clone : forall sv, exact_solver sv -> forall x y r, NoDup (map fst (mu_clone t i s)) -> min_semivariance sv d2 false w2 o2 = (x, y, Ok r) ->
    merged_answers (map fst (mu_clone t i s)) i (chosen (length s) (zeros_to (length s)) (ones_to (length s)) 1 (fun x => True) (fun x => semivariance (dropna rows) bench x)) r.
  Proof.
    intros sv X x y r Hnd E. destruct co_semi as (_ & L2 & U2). destruct cfacts_semi as (Hi & Lt).
    destruct (semi_min_run _ _ _ _ _ _ _ _ _ cg_semi ci_semi sv false X _ _ _ Hnd E) as (lb & ub & B & A). destruct (long_force _ _ _ _ L2 U2 B) as [-> ->].
    refine (answers_merge (length s) i _ _ _ _ Hi _ _ _ _ Lt A); intros z Lz Tz; rewrite ?(crisk_semi z Lz Tz), ?(cret_semi z Lz Tz); tauto.
  Qed.
  Theorem min_semivariance_clone_both : forall sv1 sv2, exact_solver sv1 -> exact_solver sv2 -> complete_solver sv1 -> complete_solver sv2 -> (succeeds (min_semivariance sv1 d1 false) w1 o1 <-> succeeds (min_semivariance sv2 d2 false) w2 o2).
  Proof.
    intros sv1 sv2 X1 X2 K1 K2 . pose proof T as (_ & Hg & E1 & _). destruct co_semi as ((L1 & U1) & L2 & U2). destruct cfacts_semi as (Hi & Lt).
    rewrite (semi_min_iff _ _ _ _ _ _ _ _ _ Hg E1 sv1 false X1 K1 ), (semi_min_iff _ _ _ _ _ _ _ _ _ cg_semi ci_semi sv2 false X2 K2 ). change (length (mu_clone t i s)) with (S (length s)).
    rewrite (ex_force o1 (length s)), (ex_force o2 (S (length s))) by assumption.
    apply (chosen_both (length s) i); try exact Hi; intros z Lz Tz; rewrite ?(crisk_semi z Lz Tz), ?(cret_semi z Lz Tz); rewrite ?Rmult_1_r; tauto.
  Qed.
  Theorem semivariance_risk_clone : forall sv, exact_solver sv -> forall tg, 0 <= freq -> forall x y r, NoDup (map fst (mu_clone t i s)) -> semi_efficient_risk sv d2 tg false w2 o2 = (x, y, Ok r) ->
    merged_answers (map fst (mu_clone t i s)) i (chosen (length s) (zeros_to (length s)) (ones_to (length s)) 1 (fun x => freq * semivariance (dropna rows) bench x <= tg * tg) (fun x => - inner (map snd s) x)) r.
  Proof.
    intros sv X tg Hf x y r Hnd E. destruct co_semi as (_ & L2 & U2). destruct cfacts_semi as (Hi & Lt).
    destruct (semi_risk_run _ _ _ _ _ _ _ _ _ cg_semi ci_semi sv false X tg _ _ _ Hf Hnd E) as (lb & ub & B & A). destruct (long_force _ _ _ _ L2 U2 B) as [-> ->].
    refine (answers_merge (length s) i _ _ _ _ Hi _ _ _ _ Lt A); intros z Lz Tz; rewrite ?(crisk_semi z Lz Tz), ?(cret_semi z Lz Tz); tauto.
  Qed.
  Theorem semivariance_risk_clone_both : forall sv1 sv2, exact_solver sv1 -> exact_solver sv2 -> complete_solver sv1 -> complete_solver sv2 -> 0 <= freq -> forall tg, (succeeds (semi_efficient_risk sv1 d1 tg false) w1 o1 <-> succeeds (semi_efficient_risk sv2 d2 tg false) w2 o2).
  Proof.
    intros sv1 sv2 X1 X2 K1 K2 Hf tg. pose proof T as (_ & Hg & E1 & _). destruct co_semi as ((L1 & U1) & L2 & U2). destruct cfacts_semi as (Hi & Lt).
    rewrite (semi_risk_iff _ _ _ _ _ _ _ _ _ Hg E1 sv1 false X1 K1 Hf tg), (semi_risk_iff _ _ _ _ _ _ _ _ _ cg_semi ci_semi sv2 false X2 K2 Hf tg). change (length (mu_clone t i s)) with (S (length s)).
    rewrite (ex_force o1 (length s)), (ex_force o2 (S (length s))) by assumption.
    apply (chosen_both (length s) i); try exact Hi; intros z Lz Tz; rewrite ?(crisk_semi z Lz Tz), ?(cret_semi z Lz Tz); rewrite ?Rmult_1_r; tauto.
  Qed.
  Theorem semivariance_return_clone : forall sv, exact_solver sv -> forall tg, forall x y r, NoDup (map fst (mu_clone t i s)) -> semi_efficient_return sv d2 (NFloat tg) false w2 o2 = (x, y, Ok r) ->
    merged_answers (map fst (mu_clone t i s)) i (chosen (length s) (zeros_to (length s)) (ones_to (length s)) 1 (fun x => tg <= inner (map snd s) x) (fun x => semivariance (dropna rows) bench x)) r.
  Proof.
    intros sv X tg x y r Hnd E. destruct co_semi as (_ & L2 & U2). destruct cfacts_semi as (Hi & Lt).
    destruct (semi_return_run _ _ _ _ _ _ _ _ _ cg_semi ci_semi sv false X tg _ _ _ Hnd E) as (lb & ub & B & A). destruct (long_force _ _ _ _ L2 U2 B) as [-> ->].
    refine (answers_merge (length s) i _ _ _ _ Hi _ _ _ _ Lt A); intros z Lz Tz; rewrite ?(crisk_semi z Lz Tz), ?(cret_semi z Lz Tz); tauto.
  Qed.
  Theorem semivariance_utility_clone : forall sv, exact_solver sv -> forall tg, forall x y r, NoDup (map fst (mu_clone t i s)) -> semi_max_quadratic_utility sv d2 tg false w2 o2 = (x, y, Ok r) ->
    merged_answers (map fst (mu_clone t i s)) i (chosen (length s) (zeros_to (length s)) (ones_to (length s)) 1 (fun x => True) (fun x => - inner (map snd s) x / freq + 1 / 2 * tg * semivariance (dropna rows) bench x)) r.
  Proof.
    intros sv X tg x y r Hnd E. destruct co_semi as (_ & L2 & U2). destruct cfacts_semi as (Hi & Lt).
    destruct (semi_utility_run _ _ _ _ _ _ _ _ _ cg_semi ci_semi sv false X tg _ _ _ Hnd E) as (lb & ub & B & A). destruct (long_force _ _ _ _ L2 U2 B) as [-> ->].
    refine (answers_merge (length s) i _ _ _ _ Hi _ _ _ _ Lt A); intros z Lz Tz; rewrite ?(crisk_semi z Lz Tz), ?(cret_semi z Lz Tz); tauto.
  Qed.
  Theorem semivariance_utility_clone_both : forall sv1 sv2, exact_solver sv1 -> exact_solver sv2 -> complete_solver sv1 -> complete_solver sv2 -> forall tg, (succeeds (semi_max_quadratic_utility sv1 d1 tg false) w1 o1 <-> succeeds (semi_max_quadratic_utility sv2 d2 tg false) w2 o2).
  Proof.
    intros sv1 sv2 X1 X2 K1 K2 tg. pose proof T as (_ & Hg & E1 & _). destruct co_semi as ((L1 & U1) & L2 & U2). destruct cfacts_semi as (Hi & Lt).
    rewrite (semi_utility_iff _ _ _ _ _ _ _ _ _ Hg E1 sv1 false X1 K1 tg), (semi_utility_iff _ _ _ _ _ _ _ _ _ cg_semi ci_semi sv2 false X2 K2 tg). change (length (mu_clone t i s)) with (S (length s)).
    rewrite (ex_force o1 (length s)), (ex_force o2 (S (length s))) by assumption.
    apply and_iff_compat_l. apply (chosen_both (length s) i); try exact Hi; intros z Lz Tz; rewrite ?(crisk_semi z Lz Tz), ?(cret_semi z Lz Tz); rewrite ?Rmult_1_r; tauto.
  Qed.
End Clone_semi.
Theorem cvar_clone_accepted : forall t i s rows beta v1 v2 w1 o1 d1, (i < length s)%nat -> cvar_init (MIn (MuSeries s)) (RTable (length s) rows) beta longs v1 = (w1, Ok (o1, d1)) ->
  exists w2 o2 d2, cvar_init (MIn (MuSeries (mu_clone t i s))) (RTable (S (length s)) (rows_clone i rows)) beta longs v2 = (w2, Ok (o2, d2)).
Proof.
  intros t i s rows beta v1 v2 w1 o1 d1 Hi E. unfold cvar_init in *. cbn [mu_values] in *. try rewrite map_length in E. change (map snd (mu_clone t i s)) with (nth i (map snd s) 0 :: map snd s). cbn [length]. try rewrite map_length. cbv zeta in E |- *.
  destruct (ef_init (MIn (MuSeries s)) _ longs v1) as [x1 [q1|]] eqn:I1; [|discriminate E].
  destruct (clone_init t i s v1 v2 x1 q1 I1) as (x2 & q2 & I2 & M2). cbn [mu_clone length] in *. rewrite I2. unfold validate_returns in *. rewrite M2. change (map snd ((t, nth i (map snd s) 0) :: s)) with (nth i (map snd s) 0 :: map snd s). cbn [length]. rewrite map_length, Nat.eqb_refl. cbn [negb].
  match type of E with context [if ?b then _ else _] => destruct b; [discriminate E|] end. destruct (validate_beta beta); [|discriminate E]. cbv zeta. eauto.
Qed.
Section Clone_cvar.
  Variables (t : label) (i : nat) (s : list (label * R)) (rows : list (list (option R))) (beta : R) (v1 v2 w1 w2 : world) (o1 o2 : ef) (d1 d2 : cvar_data).
  Hypothesis T : cvar_clones t i s rows beta v1 v2 w1 w2 o1 o2 d1 d2.
  Lemma cg_cvar : good_rows (length (mu_clone t i s)) (rows_clone i rows).
  Proof. cbn [mu_clone length]. apply good_clone; apply T. Qed.
  Lemma ci_cvar : cvar_init (MIn (MuSeries (mu_clone t i s))) (RTable (length (mu_clone t i s)) (rows_clone i rows)) beta longs v2 = (w2, Ok (o2, d2)).
  Proof. cbn [mu_clone length]. apply T. Qed.
  Lemma co_cvar : (e_lb o1 = zeros_to (length s) /\ e_ub o1 = ones_to (length s)) /\ e_lb o2 = zeros_to (S (length s)) /\ e_ub o2 = ones_to (S (length s)).
  Proof.
    pose proof T as (_ & Hg & E1 & _). destruct (cvar_run_facts _ _ _ _ _ _ _ _ Hg E1) as (_ & _ & _ & _ & B1 & _). destruct (cvar_run_facts _ _ _ _ _ _ _ _ cg_cvar ci_cvar) as (_ & _ & _ & _ & B2 & _).
    rewrite long_read in B1, B2. cbn [mu_clone length] in B2. injection B1 as L1 U1. injection B2 as L2 U2. auto.
  Qed.
  Lemma cret_cvar : forall x, length x = S (length s) -> total x = 1 -> inner (map snd (mu_clone t i s)) x = inner (map snd s) (merge i x).
  Proof. intros x L _. cbn [mu_clone map snd]. apply inner_clone; rewrite map_length; [exact L|apply T]. Qed.
  Lemma crisk_cvar : forall x, length x = S (length s) -> total x = 1 -> cvar beta (dropna (rows_clone i rows)) x = cvar beta (dropna rows) (merge i x).
  Proof.
    intros x L _. pose proof T as (Hi & Hg & _). unfold semivariance, cvar, cdar. rewrite ?Rmult_1_r, ?(dropna_clone_len _ _ _ Hi Hg). rewrite (periods_clone (length s)) by assumption. reflexivity.
  Qed.
  Lemma cfacts_cvar : (i < length s)%nat /\ length (map fst (mu_clone t i s)) = S (length s).
  Proof. split; [apply T|]. cbn. rewrite map_length. reflexivity. Qed.
  Theorem min_cvar_clone : forall sv, exact_solver sv -> forall x y r, NoDup (map fst (mu_clone t i s)) -> min_cvar sv d2 false w2 o2 = (x, y, Ok r) ->
    merged_answers (map fst (mu_clone t i s)) i (chosen (length s) (zeros_to (length s)) (ones_to (length s)) 1 (fun x => True) (fun x => cvar beta (dropna rows) x)) r.
  Proof.
    intros sv X x y r Hnd E. destruct co_cvar as (_ & L2 & U2). destruct cfacts_cvar as (Hi & Lt).
    destruct (cvar_min_run _ _ _ _ _ _ _ _ cg_cvar ci_cvar sv false X _ _ _ Hnd E) as (lb & ub & B & A). destruct (long_force _ _ _ _ L2 U2 B) as [-> ->].
    refine (answers_merge (length s) i _ _ _ _ Hi _ _ _ _ Lt A); intros z Lz Tz; rewrite ?(crisk_cvar z Lz Tz), ?(cret_cvar z Lz Tz); tauto.
  Qed.
  Theorem min_cvar_clone_both : forall sv1 sv2, exact_solver sv1 -> exact_solver sv2 -> complete_solver sv1 -> complete_solver sv2 -> (succeeds (min_cvar sv1 d1 false) w1 o1 <-> succeeds (min_cvar sv2 d2 false) w2 o2).
  Proof.
    intros sv1 sv2 X1 X2 K1 K2 . pose proof T as (_ & Hg & E1 & _). destruct co_cvar as ((L1 & U1) & L2 & U2). destruct cfacts_cvar as (Hi & Lt).
    rewrite (cvar_min_iff _ _ _ _ _ _ _ _ Hg E1 sv1 false X1 K1 ), (cvar_min_iff _ _ _ _ _ _ _ _ cg_cvar ci_cvar sv2 false X2 K2 ). change (length (mu_clone t i s)) with (S (length s)).
    rewrite (ex_force o1 (length s)), (ex_force o2 (S (length s))) by assumption.
    apply (chosen_both (length s) i); try exact Hi; intros z Lz Tz; rewrite ?(crisk_cvar z Lz Tz), ?(cret_cvar z Lz Tz); rewrite ?Rmult_1_r; tauto.
  Qed.
  Theorem cvar_risk_clone : forall sv, exact_solver sv -> forall tg, forall x y r, NoDup (map fst (mu_clone t i s)) -> cvar_efficient_risk sv d2 tg false w2 o2 = (x, y, Ok r) ->
    merged_answers (map fst (mu_clone t i s)) i (chosen (length s) (zeros_to (length s)) (ones_to (length s)) 1 (fun x => cvar beta (dropna rows) x <= tg) (fun x => - inner (map snd s) x)) r.
  Proof.
    intros sv X tg x y r Hnd E. destruct co_cvar as (_ & L2 & U2). destruct cfacts_cvar as (Hi & Lt).
    destruct (cvar_risk_run _ _ _ _ _ _ _ _ cg_cvar ci_cvar sv false X tg _ _ _ Hnd E) as (lb & ub & B & A). destruct (long_force _ _ _ _ L2 U2 B) as [-> ->].
    refine (answers_merge (length s) i _ _ _ _ Hi _ _ _ _ Lt A); intros z Lz Tz; rewrite ?(crisk_cvar z Lz Tz), ?(cret_cvar z Lz Tz); tauto.
  Qed.
  Theorem cvar_risk_clone_both : forall sv1 sv2, exact_solver sv1 -> exact_solver sv2 -> complete_solver sv1 -> complete_solver sv2 -> forall tg, (succeeds (cvar_efficient_risk sv1 d1 tg false) w1 o1 <-> succeeds (cvar_efficient_risk sv2 d2 tg false) w2 o2).
  Proof.
    intros sv1 sv2 X1 X2 K1 K2 tg. pose proof T as (_ & Hg & E1 & _). destruct co_cvar as ((L1 & U1) & L2 & U2). destruct cfacts_cvar as (Hi & Lt).
    rewrite (cvar_risk_iff _ _ _ _ _ _ _ _ Hg E1 sv1 false X1 K1 tg), (cvar_risk_iff _ _ _ _ _ _ _ _ cg_cvar ci_cvar sv2 false X2 K2 tg). change (length (mu_clone t i s)) with (S (length s)).
    rewrite (ex_force o1 (length s)), (ex_force o2 (S (length s))) by assumption.
    apply and_iff_compat_l. apply (chosen_both (length s) i); try exact Hi; intros z Lz Tz; rewrite ?(crisk_cvar z Lz Tz), ?(cret_cvar z Lz Tz); rewrite ?Rmult_1_r; tauto.
  Qed.
  Theorem cvar_return_clone : forall sv, exact_solver sv -> forall tg, forall x y r, NoDup (map fst (mu_clone t i s)) -> cvar_efficient_return sv d2 tg false w2 o2 = (x, y, Ok r) ->
    merged_answers (map fst (mu_clone t i s)) i (chosen (length s) (zeros_to (length s)) (ones_to (length s)) 1 (fun x => tg <= inner (map snd s) x) (fun x => cvar beta (dropna rows) x)) r.
  Proof.
    intros sv X tg x y r Hnd E. destruct co_cvar as (_ & L2 & U2). destruct cfacts_cvar as (Hi & Lt).
    destruct (cvar_return_run _ _ _ _ _ _ _ _ cg_cvar ci_cvar sv false X tg _ _ _ Hnd E) as (lb & ub & B & A). destruct (long_force _ _ _ _ L2 U2 B) as [-> ->].
    refine (answers_merge (length s) i _ _ _ _ Hi _ _ _ _ Lt A); intros z Lz Tz; rewrite ?(crisk_cvar z Lz Tz), ?(cret_cvar z Lz Tz); tauto.
  Qed.
  Theorem cvar_return_clone_both : forall sv1 sv2, exact_solver sv1 -> exact_solver sv2 -> complete_solver sv1 -> complete_solver sv2 -> forall tg, (succeeds (cvar_efficient_return sv1 d1 tg false) w1 o1 <-> succeeds (cvar_efficient_return sv2 d2 tg false) w2 o2).
  Proof.
    intros sv1 sv2 X1 X2 K1 K2 tg. pose proof T as (_ & Hg & E1 & _). destruct co_cvar as ((L1 & U1) & L2 & U2). destruct cfacts_cvar as (Hi & Lt).
    rewrite (cvar_return_iff _ _ _ _ _ _ _ _ Hg E1 sv1 false X1 K1 tg), (cvar_return_iff _ _ _ _ _ _ _ _ cg_cvar ci_cvar sv2 false X2 K2 tg). change (length (mu_clone t i s)) with (S (length s)).
    rewrite (ex_force o1 (length s)), (ex_force o2 (S (length s))) by assumption.
    apply (chosen_both (length s) i); try exact Hi; intros z Lz Tz; rewrite ?(crisk_cvar z Lz Tz), ?(cret_cvar z Lz Tz); rewrite ?Rmult_1_r; tauto.
  Qed.
End Clone_cvar.
Theorem cdar_clone_accepted : forall t i s rows beta v1 v2 w1 o1 d1, (i < length s)%nat -> cdar_init (MIn (MuSeries s)) (RTable (length s) rows) beta longs v1 = (w1, Ok (o1, d1)) ->
  exists w2 o2 d2, cdar_init (MIn (MuSeries (mu_clone t i s))) (RTable (S (length s)) (rows_clone i rows)) beta longs v2 = (w2, Ok (o2, d2)).
Proof.
  intros t i s rows beta v1 v2 w1 o1 d1 Hi E. unfold cdar_init in *. cbn [mu_values] in *. try rewrite map_length in E. change (map snd (mu_clone t i s)) with (nth i (map snd s) 0 :: map snd s). cbn [length]. try rewrite map_length. cbv zeta in E |- *.
  destruct (ef_init (MIn (MuSeries s)) _ longs v1) as [x1 [q1|]] eqn:I1; [|discriminate E].
  destruct (clone_init t i s v1 v2 x1 q1 I1) as (x2 & q2 & I2 & M2). cbn [mu_clone length] in *. rewrite I2. unfold validate_returns in *. rewrite M2. change (map snd ((t, nth i (map snd s) 0) :: s)) with (nth i (map snd s) 0 :: map snd s). cbn [length]. rewrite map_length, Nat.eqb_refl. cbn [negb].
  match type of E with context [if ?b then _ else _] => destruct b; [discriminate E|] end. destruct (validate_beta beta); [|discriminate E]. cbv zeta. eauto.
Qed.
Section Clone_cdar.
  Variables (t : label) (i : nat) (s : list (label * R)) (rows : list (list (option R))) (beta : R) (v1 v2 w1 w2 : world) (o1 o2 : ef) (d1 d2 : cdar_data).
  Hypothesis T : cdar_clones t i s rows beta v1 v2 w1 w2 o1 o2 d1 d2.
  Lemma cg_cdar : good_rows (length (mu_clone t i s)) (rows_clone i rows).
  Proof. cbn [mu_clone length]. apply good_clone; apply T. Qed.
  Lemma ci_cdar : cdar_init (MIn (MuSeries (mu_clone t i s))) (RTable (length (mu_clone t i s)) (rows_clone i rows)) beta longs v2 = (w2, Ok (o2, d2)).
  Proof. cbn [mu_clone length]. apply T. Qed.
  Lemma co_cdar : (e_lb o1 = zeros_to (length s) /\ e_ub o1 = ones_to (length s)) /\ e_lb o2 = zeros_to (S (length s)) /\ e_ub o2 = ones_to (S (length s)).
  Proof.
    pose proof T as (_ & Hg & E1 & _). destruct (cdar_run_facts _ _ _ _ _ _ _ _ Hg E1) as (_ & _ & _ & _ & B1 & _). destruct (cdar_run_facts _ _ _ _ _ _ _ _ cg_cdar ci_cdar) as (_ & _ & _ & _ & B2 & _).
    rewrite long_read in B1, B2. cbn [mu_clone length] in B2. injection B1 as L1 U1. injection B2 as L2 U2. auto.
  Qed.
  Lemma cret_cdar : forall x, length x = S (length s) -> total x = 1 -> inner (map snd (mu_clone t i s)) x = inner (map snd s) (merge i x).
  Proof. intros x L _. cbn [mu_clone map snd]. apply inner_clone; rewrite map_length; [exact L|apply T]. Qed.
  Lemma crisk_cdar : forall x, length x = S (length s) -> total x = 1 -> cdar beta (dropna (rows_clone i rows)) x = cdar beta (dropna rows) (merge i x).
  Proof.
    intros x L _. pose proof T as (Hi & Hg & _). unfold semivariance, cvar, cdar. rewrite ?Rmult_1_r, ?(dropna_clone_len _ _ _ Hi Hg). rewrite (periods_clone (length s)) by assumption. reflexivity.
  Qed.
  Lemma cfacts_cdar : (i < length s)%nat /\ length (map fst (mu_clone t i s)) = S (length s).
  Proof. split; [apply T|]. cbn. rewrite map_length. reflexivity. Qed.
  Theorem min_cdar_clone : forall sv, exact_solver sv -> forall x y r, NoDup (map fst (mu_clone t i s)) -> min_cdar sv d2 false w2 o2 = (x, y, Ok r) ->
    merged_answers (map fst (mu_clone t i s)) i (chosen (length s) (zeros_to (length s)) (ones_to (length s)) 1 (fun x => True) (fun x => cdar beta (dropna rows) x)) r.
  Proof.
    intros sv X x y r Hnd E. destruct co_cdar as (_ & L2 & U2). destruct cfacts_cdar as (Hi & Lt).
    destruct (cdar_min_run _ _ _ _ _ _ _ _ cg_cdar ci_cdar sv false X _ _ _ Hnd E) as (lb & ub & B & A). destruct (long_force _ _ _ _ L2 U2 B) as [-> ->].
    refine (answers_merge (length s) i _ _ _ _ Hi _ _ _ _ Lt A); intros z Lz Tz; rewrite ?(crisk_cdar z Lz Tz), ?(cret_cdar z Lz Tz); tauto.
  Qed.
  Theorem min_cdar_clone_both : forall sv1 sv2, exact_solver sv1 -> exact_solver sv2 -> complete_solver sv1 -> complete_solver sv2 -> (succeeds (min_cdar sv1 d1 false) w1 o1 <-> succeeds (min_cdar sv2 d2 false) w2 o2).
  Proof.
    intros sv1 sv2 X1 X2 K1 K2 . pose proof T as (_ & Hg & E1 & _). destruct co_cdar as ((L1 & U1) & L2 & U2). destruct cfacts_cdar as (Hi & Lt).
    rewrite (cdar_min_iff _ _ _ _ _ _ _ _ Hg E1 sv1 false X1 K1 ), (cdar_min_iff _ _ _ _ _ _ _ _ cg_cdar ci_cdar sv2 false X2 K2 ). change (length (mu_clone t i s)) with (S (length s)).
    rewrite (ex_force o1 (length s)), (ex_force o2 (S (length s))) by assumption.
    apply (chosen_both (length s) i); try exact Hi; intros z Lz Tz; rewrite ?(crisk_cdar z Lz Tz), ?(cret_cdar z Lz Tz); rewrite ?Rmult_1_r; tauto.
  Qed.
  Theorem cdar_risk_clone : forall sv, exact_solver sv -> forall tg, forall x y r, NoDup (map fst (mu_clone t i s)) -> cdar_efficient_risk sv d2 tg false w2 o2 = (x, y, Ok r) ->
    merged_answers (map fst (mu_clone t i s)) i (chosen (length s) (zeros_to (length s)) (ones_to (length s)) 1 (fun x => cdar beta (dropna rows) x <= tg) (fun x => - inner (map snd s) x)) r.
  Proof.
    intros sv X tg x y r Hnd E. destruct co_cdar as (_ & L2 & U2). destruct cfacts_cdar as (Hi & Lt).
    destruct (cdar_risk_run _ _ _ _ _ _ _ _ cg_cdar ci_cdar sv false X tg _ _ _ Hnd E) as (lb & ub & B & A). destruct (long_force _ _ _ _ L2 U2 B) as [-> ->].
    refine (answers_merge (length s) i _ _ _ _ Hi _ _ _ _ Lt A); intros z Lz Tz; rewrite ?(crisk_cdar z Lz Tz), ?(cret_cdar z Lz Tz); tauto.
  Qed.
  Theorem cdar_risk_clone_both : forall sv1 sv2, exact_solver sv1 -> exact_solver sv2 -> complete_solver sv1 -> complete_solver sv2 -> forall tg, (succeeds (cdar_efficient_risk sv1 d1 tg false) w1 o1 <-> succeeds (cdar_efficient_risk sv2 d2 tg false) w2 o2).
  Proof.
    intros sv1 sv2 X1 X2 K1 K2 tg. pose proof T as (_ & Hg & E1 & _). destruct co_cdar as ((L1 & U1) & L2 & U2). destruct cfacts_cdar as (Hi & Lt).
    rewrite (cdar_risk_iff _ _ _ _ _ _ _ _ Hg E1 sv1 false X1 K1 tg), (cdar_risk_iff _ _ _ _ _ _ _ _ cg_cdar ci_cdar sv2 false X2 K2 tg). change (length (mu_clone t i s)) with (S (length s)).
    rewrite (ex_force o1 (length s)), (ex_force o2 (S (length s))) by assumption.
    apply and_iff_compat_l. apply (chosen_both (length s) i); try exact Hi; intros z Lz Tz; rewrite ?(crisk_cdar z Lz Tz), ?(cret_cdar z Lz Tz); rewrite ?Rmult_1_r; tauto.
  Qed.
  Theorem cdar_return_clone : forall sv, exact_solver sv -> forall tg, forall x y r, NoDup (map fst (mu_clone t i s)) -> cdar_efficient_return sv d2 tg false w2 o2 = (x, y, Ok r) ->
    merged_answers (map fst (mu_clone t i s)) i (chosen (length s) (zeros_to (length s)) (ones_to (length s)) 1 (fun x => tg <= inner (map snd s) x) (fun x => cdar beta (dropna rows) x)) r.
  Proof.
    intros sv X tg x y r Hnd E. destruct co_cdar as (_ & L2 & U2). destruct cfacts_cdar as (Hi & Lt).
    destruct (cdar_return_run _ _ _ _ _ _ _ _ cg_cdar ci_cdar sv false X tg _ _ _ Hnd E) as (lb & ub & B & A). destruct (long_force _ _ _ _ L2 U2 B) as [-> ->].
    refine (answers_merge (length s) i _ _ _ _ Hi _ _ _ _ Lt A); intros z Lz Tz; rewrite ?(crisk_cdar z Lz Tz), ?(cret_cdar z Lz Tz); tauto.
  Qed.
  Theorem cdar_return_clone_both : forall sv1 sv2, exact_solver sv1 -> exact_solver sv2 -> complete_solver sv1 -> complete_solver sv2 -> forall tg, (succeeds (cdar_efficient_return sv1 d1 tg false) w1 o1 <-> succeeds (cdar_efficient_return sv2 d2 tg false) w2 o2).
  Proof.
    intros sv1 sv2 X1 X2 K1 K2 tg. pose proof T as (_ & Hg & E1 & _). destruct co_cdar as ((L1 & U1) & L2 & U2). destruct cfacts_cdar as (Hi & Lt).
    rewrite (cdar_return_iff _ _ _ _ _ _ _ _ Hg E1 sv1 false X1 K1 tg), (cdar_return_iff _ _ _ _ _ _ _ _ cg_cdar ci_cdar sv2 false X2 K2 tg). change (length (mu_clone t i s)) with (S (length s)).
    rewrite (ex_force o1 (length s)), (ex_force o2 (S (length s))) by assumption.
    apply and_iff_compat_l. apply (chosen_both (length s) i); try exact Hi; intros z Lz Tz; rewrite ?(crisk_cdar z Lz Tz), ?(cret_cdar z Lz Tz); rewrite ?Rmult_1_r; tauto.
  Qed.
End Clone_cdar.
