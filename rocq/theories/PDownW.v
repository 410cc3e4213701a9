(** * Concrete downside problems (C35, C37) *)
From Coq Require Import ZArith List String Bool Reals Lra Lia ClassicalEpsilon.
From Verif Require Import Num Py RBase PyLemmas MBase MConvex MEF MDown SLin SBase SConvex SDown Sums Mat PBase PConvex PEF PEF2 PEF3 PEF4 PEFW PRisk PDown PDown2 PDown3 PDown4 PDown5.
Import ListNotations.
Local Open Scope R_scope.

Lemma best_solver_complete : complete_solver best_solver.
Proof. intros sizes ps obj cs s H. destruct (best_solver_answers _ _ _ _ _ H) as [s' [E _]]. eauto. Qed.

(** a solver that prefers a given optimum *)
Definition prefer (s0 : env) : solver_t := fun sizes ps obj cs =>
  if excluded_middle_informative (optimal sizes ps obj cs s0) then AOptimal s0 (evals s0 ps obj) else best_solver sizes ps obj cs.
Lemma prefer_exact : forall s0, exact_solver (prefer s0).
Proof.
  intros s0 sizes ps obj cs s v H. unfold prefer in H. destruct (excluded_middle_informative _) as [Ho|_].
  - inversion H; subst. split; [exact Ho|reflexivity].
  - exact (best_solver_exact _ _ _ _ _ _ H).
Qed.
Lemma prefer_answers : forall s0 sizes ps obj cs, optimal sizes ps obj cs s0 ->
  prefer s0 sizes ps obj cs = AOptimal s0 (evals s0 ps obj).
Proof. intros. unfold prefer. destruct (excluded_middle_informative _); [reflexivity|contradiction]. Qed.

(** two assets, long only *)
Definition pair_of (s : env) (lo hi sum : R) : Prop := exists x y, s 0%nat = [x; y] /\ lo <= x <= hi /\ lo <= y <= hi /\ x + y = sum.
Lemma admissible_two : forall w o lo hi sum s, e_w o = 0%nat -> nth_error (w_sizes w) 0 = Some 2%nat ->
  admissible w o [] [Some lo; Some lo] [Some hi; Some hi] sum s -> pair_of s lo hi sum.
Proof.
  intros w o lo hi sum s Ew Es [Hw [[H1 H2] [H3 _]]]. rewrite Ew in *. pose proof (sized_nth _ _ _ _ Hw Es) as L.
  destruct (s 0%nat) as [|x [|y [|]]] eqn:E; try discriminate L. rewrite Forall2_two in H1, H2. cbn in H1, H2, H3.
  exists x, y. split; [exact E|]. repeat split; lra.
Qed.
Lemma admissible_two' : forall w o lo hi sum s, e_w o = 0%nat -> well_sized (w_sizes w) s ->
  pair_of s lo hi sum -> admissible w o [] [Some lo; Some lo] [Some hi; Some hi] sum s.
Proof.
  intros w o lo hi sum s Ew Hw [x [y [E [H1 [H2 H3]]]]]. unfold admissible. rewrite Ew, E. split; [exact Hw|].
  split; [split; rewrite Forall2_two; cbn; lra|]. split; [cbn; lra|constructor].
Qed.
Lemma rounded_int : forall z y, rounded 16 (IZR z) y -> y = IZR z.
Proof.
  intros z y [k [H1 [H2 _]]]. rewrite <- mult_IZR, <- minus_IZR, <- abs_IZR in H2.
  assert (Hz : (2 * Z.abs (z * 10 ^ 16 - k) <= 1)%Z) by (apply le_IZR; rewrite mult_IZR; exact H2).
  assert (Ek : k = (z * 10 ^ 16)%Z) by lia. rewrite Ek, mult_IZR in H1.
  apply (Rmult_eq_reg_r (IZR (10 ^ 16))); [exact H1|]. apply not_0_IZR. discriminate.
Qed.

(** ** C35 *)
Definition semi2 (bench lo hi : R) (row : R * R) : world * res (ef * semi) :=
  semi_init (MIn (MuArray [1/5; 1/10])) (RTable 2 [[Some (fst row); Some (snd row)]]) 1 bench (BPair (Some lo) (Some hi)) empty_world.
Definition semi2_ef (lo hi : R) : ef :=
  init_ef (MuArray [1/5; 1/10]) (CovArray (zeros 2)) [Some lo; Some lo] [Some hi; Some hi] empty_world.
Definition semi2_data (bench : R) (row : R * R) : semi := mkSemi [[fst row; snd row]] bench 1.
Lemma semi2_ok : forall bench lo hi row, semi2 bench lo hi row = (two_world, Ok (semi2_ef lo hi, semi2_data bench row)).
Proof. reflexivity. Qed.
Lemma semi2_ready : forall bench lo hi row,
  open_ef two_world (semi2_ef lo hi) [] /\ semi_ready two_world (semi2_ef lo hi) [] (semi2_data bench row).
Proof.
  intros bench lo hi row.
  destruct (semi_init_ready (MIn (MuArray [1/5; 1/10])) 2 [[Some (fst row); Some (snd row)]] 1 bench (BPair (Some lo) (Some hi)) empty_world
    two_world (semi2_ef lo hi) (semi2_data bench row)) as [H1 [H2 _]]; [|reflexivity|auto].
  split; [repeat constructor|]. exists [Some (fst row); Some (snd row)], [fst row; snd row]. split; [left; reflexivity|reflexivity].
Qed.
Lemma semi_one : forall a c b x y, semivariance [[a; c]] b [x; y] = shortfall b (a * x + c * y) * shortfall b (a * x + c * y).
Proof. intros. unfold semivariance, period_returns. cbn [map total List.length]. rewrite qret_two. change (INR 1) with 1. field. Qed.
Lemma shortfall_0 : forall b y, b <= y -> shortfall b y = 0.
Proof. intros b y H. unfold shortfall. destruct (Rlt_dec y b); [lra|reflexivity]. Qed.
Lemma neutral_bounds : forall lb ub, bounds_in_force true (semi2_ef 0 1) lb ub ->
  lb = [Some (-1); Some (-1)] /\ ub = [Some 1; Some 1].
Proof.
  intros lb ub [[_ [_ [-> ->]]]|[[E|E] _]]; [split; reflexivity|discriminate E|]. exfalso. apply E.
  cbn. repeat (apply Forall_cons; [lra|]). apply Forall_nil.
Qed.

Lemma semi_neutral_risk : forall sv, exact_solver sv -> complete_solver sv ->
  let d := semi2_data (1/10) (1/10, 1/20) in
  exists w' o' dd, semi_efficient_risk sv d (1/100) true two_world (semi2_ef 0 1) = (w', o', Ok dd) /\
    exists ret dev sharpe, semi_performance d o' 0 = Ok (ret, dev, sharpe) /\ dev = 1/20 /\ 1/100 < dev.
Proof.
  intros sv Hsv Hcs d. destruct (semi2_ready (1/10) 0 1 (1/10, 1/20)) as [Hop Hr]. fold d in Hr.
  assert (Hf : fresh_name two_world (semi2_ef 0 1) "target_semivariance") by (intros q Hq; cbn in Hq; contradiction).
  assert (Hleast : exists lb ub s, bounds_in_force true (semi2_ef 0 1) lb ub /\
     least two_world (semi2_ef 0 1) [] lb ub 0 (fun x => sd_freq d * semivariance (sd_returns d) (sd_bench d * 0) x <= 1/100 * (1/100))
       (fun x => - inner [1/5; 1/10] x) s).
  { exists [Some (-1); Some (-1)], [Some 1; Some 1], (fun _ => [1; -1]). split.
    - left. split; [reflexivity|]. split; [|split; reflexivity]. cbn. repeat (apply Forall_cons; [lra|]). apply Forall_nil.
    - split; [|split].
      + apply admissible_two'; [reflexivity| |exists 1, (-1); split; [reflexivity|lra]].
        intros v Hv. cbn in Hv. replace v with 0%nat by lia. reflexivity.
      + cbn [d semi2_data sd_freq sd_returns sd_bench fst snd]. rewrite Rmult_0_r, semi_one, shortfall_0; lra.
      + intros s' Ha _. apply admissible_two in Ha; [|reflexivity|reflexivity]. destruct Ha as [x [y [E [Hx [Hy Hs]]]]].
        cbn [semi2_ef init_ef e_w e_add empty_world w_sizes List.length penalty map total]. rewrite E, !qret_two. lra. }
  destruct (semi_risk_answers two_world (semi2_ef 0 1) [] d Hop Hr sv true Hcs (1/100) [1/5; 1/10] eq_refl Hf ltac:(cbn; lra) Hleast)
    as [w' [o' [dd E]]].
  exists w', o', dd. split; [exact E|].
  destruct (semi_risk_best two_world (semi2_ef 0 1) [] d Hop Hr sv true Hsv (1/100) [1/5; 1/10] w' o' dd eq_refl Hf ltac:(cbn; lra) E)
    as [lb [ub [Hbf [[s [r [Er [Hround [_ [Hadm [Hok Hmin]]]]]]] Hmu]]]].
  destruct (neutral_bounds lb ub Hbf) as [-> ->].
  apply admissible_two in Hadm; [|reflexivity|reflexivity]. destruct Hadm as [x [y [Ex [Hx [Hy Hs]]]]].
  specialize (Hmin (fun _ => [1; -1])). cbn [semi2_ef init_ef e_w e_add empty_world w_sizes List.length penalty map total] in Hmin, Hround.
  rewrite Ex, !qret_two in Hmin. rewrite Ex in Hround.
  assert (Hx1 : x = 1 /\ y = -1).
  { assert (Hle : - (1/5 * x + 1/10 * y) + 0 <= - (1/5 * 1 + 1/10 * -1) + 0).
    { apply Hmin.
      - apply admissible_two'; [reflexivity| |exists 1, (-1); split; [reflexivity|lra]].
        intros v Hv. cbn in Hv. replace v with 0%nat by lia. reflexivity.
      - cbn [d semi2_data sd_freq sd_returns sd_bench fst snd]. rewrite Rmult_0_r, semi_one, shortfall_0; lra. }
    lra. }
  destruct Hx1 as [-> ->]. destruct r as [|r1 [|r2 [|]]]; try (inversion Hround as [|? ? ? ? ? Hq]; subst; inversion Hq; subst; fail).
  2: { inversion Hround as [|? ? ? ? ? Hq]; subst. inversion Hq as [|? ? ? ? ? Hq2]; subst. inversion Hq2. }
  rewrite Forall2_two in Hround. destruct Hround as [R1 R2]. apply (rounded_int 1) in R1. apply (rounded_int (-1)) in R2.
  rewrite R1, R2 in Er. rewrite (semi_perf_run d o' [1/5; 1/10] [1; -1] 0 Er Hmu).
  eexists _, _, _. split; [reflexivity|].
  assert (Ed : sqrt (sd_freq d * semivariance (sd_returns d) (sd_bench d) [1; -1]) = 1/20).
  { cbn [d semi2_data sd_freq sd_returns sd_bench fst snd]. rewrite semi_one. unfold shortfall.
    destruct (Rlt_dec (1/10 * 1 + 1/20 * -1) (1/10)) as [_|Hn]; [|lra]. rewrite Rmult_1_l.
    rewrite sqrt_square by lra. lra. }
  rewrite Ed. lra.
Qed.

(** ** C37 *)
Definition row2 : list (option R) := [Some (1/10); Some (1/20)].
Definition cvar2 : world * res (ef * cvar_data) :=
  cvar_init (MIn (MuArray [1/5; 1/10])) (RTable 2 [row2]) (1/2) (BPair (Some 0) (Some 1)) empty_world.
Definition cvar2_world : world := mkWorld [2; 1; 1]%nat (fun _ => None) [] 2.
Definition cvar2_data : cvar_data := mkCVaR [[1/10; 1/20]] (1/2) 1 2.
Lemma half_ok : validate_beta (1/2) = Ok (1/2).
Proof. unfold validate_beta. rewrite (proj2 (Rleb_true 0 (1/2))) by lra. rewrite (proj2 (Rltb_true (1/2) 1)) by lra. reflexivity. Qed.
Lemma cvar2_ok : cvar2 = (cvar2_world, Ok (semi2_ef 0 1, cvar2_data)).
Proof. unfold cvar2, cvar_init. cbn -[validate_beta]. rewrite half_ok. reflexivity. Qed.
Lemma worst_one : forall beta a, 0 <= beta < 1 -> worst_mean beta [a] = a.
Proof.
  intros beta a H. unfold worst_mean. cbn [List.length sort_desc insert_desc first]. change (INR 1) with 1.
  destruct (Rle_dec ((1 - beta) * 1) 1) as [_|Hn]; [|lra]. field. lra.
Qed.
Lemma cvar_one : forall beta a c x y, 0 <= beta < 1 -> cvar beta [[a; c]] [x; y] = - (a * x + c * y).
Proof. intros. unfold cvar, period_returns. cbn [map]. rewrite worst_one by assumption. rewrite qret_two. reflexivity. Qed.

Definition slack_env : env := fun v => match v with 0%nat => [1; 0] | 1%nat => [1/10] | _ => [0] end.
Lemma cvar_slack_report :
  exists w' o' dd rep, cvar_efficient_risk (prefer slack_env) cvar2_data (1/10) false cvar2_world (semi2_ef 0 1) = (w', o', Ok dd) /\
    e_weights o' = Some [1; 0] /\ cvar_performance cvar2_data w' o' = Ok (1/5, Some rep) /\
    rep = 1/10 /\ cvar (cv_beta cvar2_data) (cv_returns cvar2_data) [1; 0] = -1/10.
Proof.
  set (o := semi2_ef 0 1). set (m := [1/5; 1/10]).
  destruct (cvar_efficient_risk (prefer slack_env) cvar2_data (1/10) false cvar2_world o) as [[w' o'] rr] eqn:H.
  assert (Hf : fresh_name cvar2_world o "target_cvar") by (intros q Hq; cbn in Hq; contradiction).
  assert (Ho : e_opt o = None) by reflexivity.
  unfold cvar_efficient_risk in H. unfold bind at 1 in H. rewrite not_defined_run in H by exact Hf.
  unfold bind at 1 2, get in H. unfold bind at 1 in H. rewrite (need_mu_run cvar2_world o m eq_refl eq_refl) in H.
  unfold bind at 1 in H. rewrite set_objective_full_run in H. unfold bind at 1 in H.
  unfold new_param in H. cbn [andb w_sizes w_val w_params w_next] in H. rewrite (proj2 (Rltb_false (1/10) 0)) in H by lra.
  unfold bind at 1 in H. rewrite add_constraint_open in H by exact Ho. unfold bind at 1 in H.
  rewrite add_cvar_run in H by exact Ho. cbn [w_sizes w_val w_params w_next] in H.
  unfold make_weight_sum_constraint, sum_is in H. unfold bind at 1 in H. rewrite add_constraint_open in H by exact Ho.
  unfold modify in H. cbn [w_sizes w_val w_params w_next] in H.
  match type of H with solve_and_output _ ?w2 ?o2 = _ => set (w1 := w2) in H; set (o1 := o2) in H end.
  set (cs := [lower_con [Some 0; Some 0] 0; upper_con [Some 1; Some 1] 0;
     CIneq (cvar_e cvar2_data) (EPar 0); nonneg_var 2; cvar_shortfall cvar2_data 0; CEq (ESum (EVar 0)) (EScalar 1)]).
  assert (Hopt : optimal (w_sizes w1) (par_values w1) (portfolio_return_e (EVar 0) m true) (map snd (e_cons o1)) slack_env).
  { change (map snd (e_cons o1)) with cs. change (par_values w1) with [1/10]. change (w_sizes w1) with [2; 1; 1]%nat. split.
    - split; [intros v Hv; cbn in Hv; destruct v as [|[|[|v]]]; [reflexivity..|lia]|].
      unfold cs. rewrite !Forall_cons_iff'. rewrite sat_lower, sat_upper by reflexivity. cbn [slack_env]. rewrite !Forall2_two.
      split; [cbn; lra|]. split; [cbn; lra|]. split.
      + rewrite (sat_ineq1 _ _ _ _ (1/10 + 1 / (1 * (1 - 1/2)) * 0) (1/10)); [lra| |reflexivity].
        unfold cvar_e. rewrite (eval_tail _ _ _ _ _ _ (1/10)) by reflexivity. cbn. f_equal. f_equal. lra.
      + split; [apply sat_nonneg_var; cbn; repeat constructor; lra|]. split.
        * apply (sat_shortfall _ _ _ _ (1/10)); [reflexivity|reflexivity|]. cbn. constructor; [lra|constructor].
        * split; [apply sum_is_sat; cbn; lra|constructor].
    - intros s [Hw Hs]. unfold cs in Hs. rewrite !Forall_cons_iff' in Hs. destruct Hs as [S1 [S2 [_ [_ [_ [S6 _]]]]]].
      pose proof (Hw 0%nat ltac:(cbn; lia)) as L. cbn in L. destruct (s 0%nat) as [|x [|y [|]]] eqn:E; try discriminate L.
      rewrite sat_lower, E, Forall2_two in S1 by (rewrite E; reflexivity). rewrite sat_upper, E, Forall2_two in S2 by (rewrite E; reflexivity).
      rewrite sum_is_sat, E in S6. cbn in S1, S2, S6. rewrite !evals_ret, E. cbn [slack_env sign_of]. unfold m. rewrite !qret_two. lra. }
  destruct (solve_output_run (prefer slack_env) w1 o1 2%nat (portfolio_return_e (EVar 0) m true) (e_cons o1)) as [w2 [o2 [Er _]]];
    [reflexivity|reflexivity|left; reflexivity|].
  rewrite (prefer_answers _ _ _ _ _ Hopt) in Er. cbn [outcome] in Er.
  pose proof (eq_trans (eq_sym Er) H) as HH. inversion HH; subst w2 o2 rr; clear HH Er.
  destruct (solve_output_vals (prefer slack_env) w1 o1 2%nat (portfolio_return_e (EVar 0) m true) w' o' _ eq_refl eq_refl H)
    as [s [v [V1 [V2 [_ [V4 V5]]]]]].
  rewrite (prefer_answers _ _ _ _ _ Hopt) in V1. inversion V1; subst s v; clear V1.
  assert (Hrd : map round16 (slack_env (e_w o1)) = [1; 0]).
  { pose proof (round16_rounded [1; 0]) as Hr2. change (slack_env (e_w o1)) with [1; 0]. cbn [map] in *. rewrite Forall2_two in Hr2.
    destruct Hr2 as [R1 R2]. apply (rounded_int 1) in R1. apply (rounded_int 0) in R2. rewrite R1, R2. reflexivity. }
  rewrite Hrd in V2. exists w', o'. eexists. exists (1/10). split; [reflexivity|]. split; [exact V2|]. split; [|split; [reflexivity|]].
  - unfold cvar_performance, tail_performance. rewrite V2, V4. change (e_mu o1) with (Some m). cbv iota. rewrite dot_inner.
    unfold m. rewrite qret_two. f_equal. f_equal; [lra|]. unfold value_of.
    assert (Ev : evars (cvar_e cvar2_data) = [1%nat; 2%nat]) by reflexivity. rewrite Ev. cbn [forallb].
    assert (Va : w_val w' 1%nat = Some [1/10]) by (apply V5; cbn; auto 12).
    assert (Vu : w_val w' 2%nat = Some [0]) by (apply V5; cbn; auto 12).
    rewrite Va, Vu. cbn [andb]. f_equal.
    unfold evals, cvar_e. rewrite (eval_tail _ _ _ _ _ _ (1/10)) by (cbn; rewrite Va; reflexivity). cbn. rewrite Vu. cbn. lra.
  - cbn [cvar2_data cv_beta cv_returns]. rewrite cvar_one by lra. lra.
Qed.
