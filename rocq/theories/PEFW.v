(** * Concrete universes: an exact solver that answers whenever there is an optimum, and witnesses *)
From Coq Require Import ZArith List String Bool Reals Lra Lia ClassicalEpsilon.
From Verif Require Import Num Py RBase PyLemmas MBase MConvex MEF SLin SBase SConvex Sums Mat PBase PConvex PEF PEF2 PEF3 PEF4.
Import ListNotations.
Local Open Scope R_scope.

(** a solver that finds an optimum if there is one; it shows that exact solvers exist *)
Definition best_solver : solver_t := fun sizes ps obj cs =>
  match excluded_middle_informative (exists s, optimal sizes ps obj cs s) with
  | left H => let s := proj1_sig (constructive_indefinite_description _ H) in AOptimal s (evals s ps obj)
  | right _ => ABad (fun _ => None)
  end.
Lemma best_solver_exact : exact_solver best_solver.
Proof.
  intros sizes ps obj cs s v H. unfold best_solver in H.
  destruct (excluded_middle_informative _) as [Hx|Hx]; [|discriminate H].
  destruct (constructive_indefinite_description _ Hx) as [s0 Hs0]. cbn in H. inversion H; subst. split; [exact Hs0|reflexivity].
Qed.
Lemma best_solver_answers : forall sizes ps obj cs s, optimal sizes ps obj cs s ->
  exists s', best_solver sizes ps obj cs = AOptimal s' (evals s' ps obj) /\ optimal sizes ps obj cs s'.
Proof.
  intros sizes ps obj cs s H. unfold best_solver.
  destruct (excluded_middle_informative _) as [Hx|Hx]; [|exfalso; apply Hx; exists s; exact H].
  destruct (constructive_indefinite_description _ Hx) as [s0 Hs0]. cbn. exists s0. split; [reflexivity|exact Hs0].
Qed.

(** *** C27 *)
Lemma below_global_min_sound : forall n pinv cov t, (0 < n)%nat -> psd n cov -> symmetric n cov ->
  right_inverse n cov (pinv cov) -> below_global_min pinv cov t = true ->
  forall x, List.length x = n -> total x = 1 -> t < sqrt (qform cov x).
Proof.
  intros n pinv cov t Hn Hp Hs Hi Hb x Hx H1.
  destruct (min_variance_bound n cov (pinv cov) Hn Hp Hs Hi) as [Hpos Hmin].
  unfold below_global_min in Hb.
  assert (E : vsum (map vsum (pinv cov)) = total (map total (pinv cov))).
  { rewrite vsum_total. f_equal. apply map_ext. intros. apply vsum_total. }
  rewrite E in Hb. cbv zeta in Hmin. set (s := total (map total (pinv cov))) in *.
  assert (E0 : Reqb s 0 = false) by (apply Reqb_false; lra). rewrite E0 in Hb.
  assert (E1 : Rltb s 0 = false) by (apply Rltb_false; lra). rewrite E1 in Hb.
  apply Rltb_true in Hb. eapply Rlt_le_trans; [exact Hb|]. apply sqrt_le_1_alt. apply Hmin; assumption.
Qed.
Lemma risk_check : forall sv pinv tg t mn w o u m w' o' r, open_ef w o u -> e_mu o = Some m ->
  target_of tg = Some t -> 0 <= t -> (0 < e_n o)%nat ->
  psd (e_n o) (e_cov o) -> symmetric (e_n o) (e_cov o) -> right_inverse (e_n o) (e_cov o) (pinv (e_cov o)) ->
  t * t < 1 / total (map total (pinv (e_cov o))) ->
  efficient_risk sv pinv tg mn w o = (w', o', r) ->
  r = Err ValueError /\ w' = w /\ o' = o /\
  forall x, List.length x = e_n o -> total x = 1 -> t < sqrt (qform (e_cov o) x).
Proof.
  intros sv pinv tg t mn w o u m w' o' r Hop Em Et Ht Hn Hp Hs Hi Hlt H.
  destruct (min_variance_bound _ _ _ Hn Hp Hs Hi) as [Hpos Hmin].
  assert (Hb : below_global_min pinv (e_cov o) t = true).
  { unfold below_global_min. assert (E : vsum (map vsum (pinv (e_cov o))) = total (map total (pinv (e_cov o)))).
    { rewrite vsum_total. f_equal. apply map_ext. intros. apply vsum_total. }
    rewrite E. set (s := total (map total (pinv (e_cov o)))) in *.
    assert (E0 : Reqb s 0 = false) by (apply Reqb_false; lra). rewrite E0.
    assert (E1 : Rltb s 0 = false) by (apply Rltb_false; lra). rewrite E1.
    apply Rltb_true. rewrite <- (sqrt_square t Ht). apply sqrt_lt_1_alt. split; [nra|exact Hlt]. }
  unfold efficient_risk in H. rewrite Et in H.
  assert (E1 : Rltb t 0 = false) by (apply Rltb_false; lra). rewrite E1 in H.
  unfold bind at 1, get in H. rewrite Hb in H. inversion H; subst. split; [reflexivity|]. split; [reflexivity|]. split; [reflexivity|].
  apply (below_global_min_sound (e_n o') pinv (e_cov o') t Hn Hp Hs Hi Hb).
Qed.

(** *** concrete objects *)
Definition empty_world : world := mkWorld [] (fun _ => None) [] 0.
Definition two (mu : list R) (lo hi : R) : world * res ef :=
  ef_init (MIn (MuArray mu)) (CIn (CovArray [[1; 0]; [0; 1]])) (BPair (Some lo) (Some hi)) empty_world.
Definition two_world : world := mkWorld [2%nat] (fun _ => None) [] 2.
Definition two_ef (mu : list R) (lo hi : R) : ef :=
  mkEF (mkBase [LInt 0; LInt 1] None) None 0 None []
    [(0%nat, lower_con [Some lo; Some lo] 0); (1%nat, upper_con [Some hi; Some hi] 0)]
    [Some lo; Some lo] [Some hi; Some hi] None [[1; 0]; [0; 1]] (Some mu) None None.
Lemma two_ok : forall m0 m1 lo hi, two [m0; m1] lo hi = (two_world, Ok (two_ef [m0; m1] lo hi)).
Proof. intros. reflexivity. Qed.
Lemma two_open : forall m0 m1 lo hi, open_ef two_world (two_ef [m0; m1] lo hi) [].
Proof.
  intros. unfold open_ef, e_n. cbn [two_ef e_opt e_cons e_lb e_ub e_w e_base b_tickers e_cov e_mu e_add two_world w_sizes w_params].
  split; [reflexivity|]. split; [eexists; eexists; reflexivity|]. split; [reflexivity|]. split; [reflexivity|].
  split; [reflexivity|]. split; [split; [reflexivity|repeat constructor]|]. split; [intros m E; inversion E; reflexivity|].
  repeat constructor.
Qed.
Lemma id2_psd : psd 2 [[1; 0]; [0; 1]] /\ symmetric 2 [[1; 0]; [0; 1]] /\ forall x y, qform [[1;0];[0;1]] [x; y] = x * x + y * y.
Proof.
  assert (Hq : forall x y, qform [[1;0];[0;1]] [x; y] = x * x + y * y) by (intros; cbn; ring).
  split; [|split].
  - split; [split; [reflexivity|repeat constructor]|]. intros w Hw. destruct w as [|x [|y [|]]]; try discriminate Hw. rewrite Hq. nra.
  - intros i j Hi Hj. destruct i as [|[|i]], j as [|[|j]]; try lia; reflexivity.
  - exact Hq.
Qed.
Lemma two_pairs : forall s, well_sized (w_sizes two_world) s -> exists x y, s 0%nat = [x; y].
Proof.
  intros s H. specialize (H 0%nat ltac:(cbn; lia)). cbn in H. destruct (s 0%nat) as [|x [|y [|]]]; try discriminate H. eauto.
Qed.
Lemma Forall2_two : forall {X Y} (P : X -> Y -> Prop) a b x y, Forall2 P [a; b] [x; y] <-> P a x /\ P b y.
Proof.
  intros. split; intros H.
  - inversion H as [|? ? ? ? A B]; subst. inversion B; subst. auto.
  - destruct H. repeat constructor; assumption.
Qed.
Lemma two_admissible : forall m0 m1 lo hi sum s, 
  admissible two_world (two_ef [m0; m1] lo hi) [] [Some lo; Some lo] [Some hi; Some hi] sum s <->
  exists x y, s 0%nat = [x; y] /\ lo <= x <= hi /\ lo <= y <= hi /\ x + y = sum.
Proof.
  intros. unfold admissible. cbn [two_ef e_w]. split.
  - intros [Hw [[H1 H2] [H3 _]]]. destruct (two_pairs s Hw) as [x [y E]]. rewrite E in H1, H2, H3. exists x, y.
    rewrite Forall2_two in H1, H2. cbn in H1, H2, H3.
    split; [exact E|]. repeat split; lra.
  - intros [x [y [E [H1 [H2 H3]]]]]. split.
    { intros v Hv. cbn in Hv. replace v with 0%nat by lia. rewrite E. reflexivity. }
    rewrite E. split; [split; rewrite Forall2_two; cbn; lra|]. split; [cbn; lra|constructor].
Qed.

Lemma two_feasible : forall lo hi ps extra s,
  feasible [2%nat] ps (lower_con [Some lo; Some lo] 0 :: upper_con [Some hi; Some hi] 0 :: extra) s <->
  exists x y, s 0%nat = [x; y] /\ lo <= x <= hi /\ lo <= y <= hi /\ Forall (sat s ps) extra.
Proof.
  intros. unfold feasible. rewrite !Forall_cons_iff'. split.
  - intros [Hw [H1 [H2 H3]]]. destruct (two_pairs s Hw) as [x [y E]].
    rewrite sat_lower in H1 by (rewrite E; reflexivity). rewrite sat_upper in H2 by (rewrite E; reflexivity).
    rewrite E, Forall2_two in H1, H2. cbn in H1, H2. exists x, y. split; [exact E|]. split; [lra|]. split; [lra|exact H3].
  - intros [x [y [E [H1 [H2 H3]]]]]. split.
    { intros v Hv. cbn in Hv. replace v with 0%nat by lia. rewrite E. reflexivity. }
    rewrite sat_lower by (rewrite E; reflexivity). rewrite sat_upper by (rewrite E; reflexivity).
    rewrite E, !Forall2_two. cbn. split; [lra|]. split; [lra|exact H3].
Qed.

(** C27, market neutral *)
Lemma risk_check_neutral : forall sv pinv, right_inverse 2 [[1; 0]; [0; 1]] (pinv [[1; 0]; [0; 1]]) ->
  exists o, two [1/10; 1/5] (-1) 1 = (two_world, Ok o) /\
    efficient_risk sv pinv (NFloat (1/2)) true two_world o = (two_world, o, Err ValueError) /\
    exists s, admissible two_world o [] (e_lb o) (e_ub o) 0 s /\ s (e_w o) = [-1/4; 1/4] /\
      sqrt (qform (e_cov o) (s (e_w o))) <= 1/2.
Proof.
  intros sv pinv Hi. set (o := two_ef [1/10; 1/5] (-1) 1). exists o. split; [apply two_ok|].
  destruct id2_psd as [Hp [Hs Hq]].
  assert (Hsum : total (map total (pinv [[1; 0]; [0; 1]])) = 2).
  { destruct Hi as [[HP1 HP2] Hi]. set (P := pinv _) in *.
    pose proof (Hi [1; 1] eq_refl) as H.
    destruct P as [|[|a [|b [|]]] [|[|c [|e [|]]] [|]]]; try discriminate HP1;
      try (inversion HP2 as [|? ? A B]; subst; try discriminate A; inversion B as [|? ? A' B']; subst; discriminate A').
    cbn in H. injection H as H1 H2. cbn. lra. }
  split.
  - destruct (efficient_risk sv pinv (NFloat (1/2)) true two_world o) as [[w' o'] r] eqn:E.
    destruct (risk_check sv pinv (NFloat (1/2)) (1/2) true two_world o [] [1/10; 1/5] w' o' r
      (two_open _ _ _ _) eq_refl eq_refl ltac:(lra) ltac:(cbn; lia) Hp Hs Hi) as [-> [-> [-> _]]].
    + cbn [o two_ef e_cov]. rewrite Hsum. lra.
    + exact E.
    + reflexivity.
  - exists (fun _ => [-1/4; 1/4]). split; [|split].
    + apply two_admissible. exists (-1/4), (1/4). split; [reflexivity|]. lra.
    + reflexivity.
    + cbn [o two_ef e_cov]. rewrite Hq. rewrite <- (sqrt_square (1/2)) by lra. apply sqrt_le_1_alt. lra.
Qed.

(** *** C28, market neutral: the check of the target uses fully invested portfolios *)
Lemma qret_two : forall a b x y, inner [a; b] [x; y] = a * x + b * y. Proof. intros. cbn. ring. Qed.
Lemma two_max_return : forall sv m0 m1 lo hi, exact_solver sv -> 
  match sv [2%nat] [] (portfolio_return_e (EVar 0) [m0; m1] true)
        [lower_con [Some lo; Some lo] 0; upper_con [Some hi; Some hi] 0; CEq (ESum (EVar 0)) (EScalar 1)] with
  | AOptimal _ v => exists w1, on_copy (max_return sv) two_world (two_ef [m0; m1] lo hi) = (w1, two_ef [m0; m1] lo hi, Ok (- v))
  | _ => True
  end.
Proof.
  intros sv m0 m1 lo hi Hsv.
  destruct (max_return_pre sv two_world (two_ef [m0; m1] lo hi) [] [m0; m1] (two_open _ _ _ _) eq_refl two_world (two_ef [m0; m1] lo hi))
    as [w1 [E _]].
  { split; [reflexivity|]. split; [reflexivity|]. exists None. reflexivity. }
  unfold maxret_result, maxret_answer in E. cbn [two_world w_sizes par_values w_params map two_ef e_w e_cons snd app] in E.
  unfold par_values in E. cbn [two_world w_params map] in E.
  destruct (sv _ _ _ _); [|trivial|trivial]. exists w1. exact E.
Qed.
Lemma return_check_neutral : exists sv o, exact_solver sv /\ two [1/5; -3/10] (-1) 1 = (two_world, Ok o) /\
  (exists s, admissible two_world o [] (e_lb o) (e_ub o) 0 s /\ inner [1/5; -3/10] (s (e_w o)) = 1/2) /\
  exists w' o', efficient_return sv (NFloat (2/5)) true two_world o = (w', o', Err ValueError).
Proof.
  exists best_solver. set (o := two_ef [1/5; -3/10] (-1) 1). exists o. split; [apply best_solver_exact|]. split; [apply two_ok|].
  split.
  { exists (fun _ => [1; -1]). split; [apply two_admissible; exists 1, (-1); split; [reflexivity|lra]|]. cbn [o two_ef e_w]. rewrite qret_two. lra. }
  pose proof (two_max_return best_solver (1/5) (-3/10) (-1) 1 best_solver_exact) as Hm.
  assert (Hopt : optimal [2%nat] [] (portfolio_return_e (EVar 0) [1/5; -3/10] true)
        [lower_con [Some (-1); Some (-1)] 0; upper_con [Some 1; Some 1] 0; CEq (ESum (EVar 0)) (EScalar 1)] (fun _ => [1; 0])).
  { split.
    - apply two_feasible. exists 1, 0. split; [reflexivity|]. split; [lra|]. split; [lra|]. constructor; [|constructor].
      apply sum_is_sat. cbn. lra.
    - intros s Hs. apply two_feasible in Hs. destruct Hs as [x [y [E [H1 [H2 H3]]]]]. rewrite Forall_cons_iff', sum_is_sat, E in H3.
      cbn in H3. rewrite !evals_ret, E. cbn [sign_of]. rewrite !qret_two. lra. }
  destruct (best_solver_answers _ _ _ _ _ Hopt) as [s' [Es _]]. rewrite Es in Hm. destruct Hm as [w1 Hm].
  destruct (efficient_return best_solver (NFloat (2/5)) true two_world o) as [[w' o'] r] eqn:E.
  destruct (efficient_return_too_high best_solver two_world o [] [1/5; -3/10] (2/5) true w' o' r _ w1 _ best_solver_exact
    (two_open _ _ _ _) eq_refl eq_refl Hm) as [-> _].
  - intros s Ha. apply two_admissible in Ha. destruct Ha as [x [y [Ex [H1 [H2 H3]]]]]. cbn [o two_ef e_w]. rewrite Ex, qret_two. lra.
  - exact E.
  - exists w', o'. reflexivity.
Qed.

(** *** C22 *)
Lemma two_unused : forall m0 m1 lo hi name, unused_name two_world (two_ef [m0; m1] lo hi) name.
Proof. intros m0 m1 lo hi name p Hp. cbn in Hp. contradiction. Qed.
Lemma sat_par_ret : forall s ps p t m v x, nth p ps 0 = t -> s v = x ->
  (sat s ps (CIneq (EPar p) (portfolio_return_e (EVar v) m false)) <-> t <= inner m x).
Proof.
  intros s ps p t m v x Hp Hx. rewrite (sat_ineq1 s ps _ _ t (inner m x)); [reflexivity|cbn [eval]; rewrite Hp; reflexivity|].
  cbn [eval portfolio_return_e EScalar sign_of]. rewrite Hx, dot_inner. cbn. f_equal. ring.
Qed.
Lemma zero_return_example : exists sv o w1 o1 d, exact_solver sv /\ two [0; -1/10] 0 1 = (two_world, Ok o) /\
  efficient_return sv (NFloat (-1/20)) false two_world o = (w1, o1, Ok d) /\
  forall t mn, exists w2, efficient_return sv (NFloat t) mn w1 o1 = (w2, o1, Err InstantiationError).
Proof.
  exists best_solver. set (o := two_ef [0; -1/10] 0 1).
  assert (Hres : exists w1 o1 d, efficient_return best_solver (NFloat (-1/20)) false two_world o = (w1, o1, Ok d)).
  { assert (Hopt : optimal [2%nat] [] (portfolio_return_e (EVar 0) [0; -1/10] true)
        [lower_con [Some 0; Some 0] 0; upper_con [Some 1; Some 1] 0; CEq (ESum (EVar 0)) (EScalar 1)] (fun _ => [1; 0])).
    { split.
      - apply two_feasible. exists 1, 0. split; [reflexivity|]. split; [lra|]. split; [lra|]. constructor; [|constructor].
        apply sum_is_sat. cbn. lra.
      - intros s Hs. apply two_feasible in Hs. destruct Hs as [x [y [E [H1 [H2 H3]]]]]. rewrite Forall_cons_iff', sum_is_sat, E in H3.
        cbn in H3. rewrite !evals_ret, E. cbn [sign_of]. rewrite !qret_two. lra. }
    destruct (best_solver_answers _ _ _ _ _ Hopt) as [s' [Es [Hf Hb]]].
    set (v := evals s' [] (portfolio_return_e (EVar 0) [0; -1/10] true)) in *.
    assert (Hv : v = 0).
    { destruct Hopt as [Hf1 Hb1]. apply Rle_antisym.
      - eapply Rle_trans; [apply Hb; exact Hf1|]. rewrite evals_ret. cbn [sign_of]. rewrite qret_two. lra.
      - eapply Rle_trans; [|apply Hb1; exact Hf]. rewrite evals_ret. cbn [sign_of]. rewrite qret_two. lra. }
    destruct (return_first best_solver two_world o [] [0; -1/10] (two_open _ _ _ _) eq_refl false (-1/20) (- v)
      (two_unused _ _ _ _ _) eq_refl) as [w1 [o1 E]].
    { unfold maxret_result, maxret_answer. change (w_sizes two_world) with [2%nat]. change (par_values two_world) with (@nil R).
      change (map snd (e_cons o) ++ [CEq (ESum (EVar (e_w o))) (EScalar 1)]) with
        [lower_con [Some 0; Some 0] 0; upper_con [Some 1; Some 1] 0; CEq (ESum (EVar 0)) (EScalar 1)].
      change (e_w o) with 0%nat. rewrite Es. reflexivity. }
    { rewrite Hv. lra. }
    change (w_sizes two_world) with [2%nat] in E. change (par_values two_world ++ [-1/20]) with [-1/20] in E.
    unfold ret_e, add_all, ret_cs, wsum_cons, ret_con, pid, portfolio_variance_e in E. cbn [o two_ef e_w e_add e_cov fold_left andb map app two_world w_params List.length e_lb e_ub] in E.
    assert (Hopt2 : optimal [2%nat] [-1/20] (EQuad [[1; 0]; [0; 1]] (EVar 0))
       (lower_con [Some 0; Some 0] 0 :: upper_con [Some 1; Some 1] 0 ::
         [CIneq (EPar 0) (portfolio_return_e (EVar 0) [0; -1/10] false); CEq (ESum (EVar 0)) (EScalar 1)]) (fun _ => [1/2; 1/2])).
    { split.
      - apply two_feasible. exists (1/2), (1/2). split; [reflexivity|]. split; [lra|]. split; [lra|].
        constructor; [|constructor; [|constructor]].
        + apply (sat_par_ret _ _ _ (-1/20) _ _ [1/2; 1/2]); [reflexivity|reflexivity|]. rewrite qret_two. lra.
        + apply sum_is_sat. cbn. lra.
      - intros s Hs. apply two_feasible in Hs. destruct Hs as [x [y [Ex [H1 [H2 H3]]]]]. rewrite !Forall_cons_iff', sum_is_sat, Ex in H3.
        destruct H3 as [_ [H3 _]]. cbn in H3. rewrite !evals_quad, Ex. destruct id2_psd as [_ [_ Hq]]. rewrite !Hq.
        assert (y = 1 - x) by lra. subst y. pose proof (Rle_0_sqr (x - 1/2)) as Hsq. unfold Rsqr in Hsq. lra. }
    destruct (best_solver_answers _ _ _ _ _ Hopt2) as [s2 [Es2 _]]. rewrite Es2 in E.
    eexists _, _, _. exact E. }
  destruct Hres as [w1 [o1 [d H]]]. exists o, w1, o1, d. split; [apply best_solver_exact|]. split; [apply two_ok|]. split; [exact H|].
  intros t mn.
  refine (zero_max_return_stuck best_solver two_world o [] [0; -1/10] (two_open _ _ _ _) eq_refl false (-1/20) w1 o1 d
    best_solver_exact (two_unused _ _ _ _ _) eq_refl _ _ H [] w1 o1 eq_refl t mn).
  - exists (fun _ => [1; 0]). split; [apply two_admissible; exists 1, 0; split; [reflexivity|lra]|]. cbn [o two_ef e_w]. rewrite qret_two. lra.
  - intros s Ha. apply two_admissible in Ha. destruct Ha as [x [y [Ex [H1 [H2 H3]]]]]. cbn [o two_ef e_w]. rewrite Ex, qret_two. lra.
Qed.

(** *** C31 *)
Definition two_c (m0 m1 : R) (c : nat -> con) : ef :=
  set_cons (e_cons (two_ef [m0; m1] 0 1) ++ [(2%nat, c 0%nat)]) (two_ef [m0; m1] 0 1).
Definition two_c_world : world := mkWorld [2%nat] (fun _ => None) [] 3.
Lemma two_c_ok : forall m0 m1 c, add_constraint (CFun c) two_world (two_ef [m0; m1] 0 1) = (two_c_world, two_c m0 m1 c, Ok tt).
Proof. intros. reflexivity. Qed.
Lemma two_c_open : forall m0 m1 c, cpars (c 0%nat) = [] -> open_ef two_c_world (two_c m0 m1 c) [(2%nat, c 0%nat)].
Proof.
  intros m0 m1 c Hc. unfold open_ef, e_n.
  cbn [two_c two_ef set_cons app e_opt e_cons e_lb e_ub e_w e_base b_tickers e_cov e_mu e_add two_c_world w_sizes w_params].
  split; [reflexivity|]. split; [eexists; eexists; reflexivity|]. split; [reflexivity|]. split; [reflexivity|].
  split; [reflexivity|]. split; [split; [reflexivity|repeat constructor]|]. split; [intros m E; inversion E; reflexivity|].
  split; [constructor|]. split; [constructor|]. constructor; [|constructor]. unfold scoped_con. cbn [snd]. rewrite Hc. constructor.
Qed.
(** the scaled problem for two assets: y0, y1 and k *)
Definition scaled_cons (m0 m1 : R) (c : con) : list con :=
  [CEq (EDot [m0 - 0; m1 - 0] (EVar 0)) (EScalar 1); CEq (ESum (EVar 0)) (EVar 1); CIneq (EScalar 0) (EVar 1);
   CIneq (EMul (EConst [0; 0]) (EVar 1)) (EIndex [0; 1]%nat (EVar 0));
   CIneq (EIndex [0; 1]%nat (EVar 0)) (EMul (EConst [1; 1]) (EVar 1)); c].
Lemma scaled_feasible : forall m0 m1 c s, feasible [2%nat; 1%nat] [] (scaled_cons m0 m1 c) s <->
  exists x y k, s 0%nat = [x; y] /\ s 1%nat = [k] /\ m0 * x + m1 * y = 1 /\ x + y = k /\ 0 <= k /\
    0 <= x <= k /\ 0 <= y <= k /\ sat s [] c.
Proof.
  intros m0 m1 c s. unfold feasible, scaled_cons. rewrite !Forall_cons_iff'. split.
  - intros [Hw [H1 [H2 [H3 [H4 [H5 [H6 _]]]]]]].
    pose proof (Hw 0%nat ltac:(cbn; lia)) as L0. pose proof (Hw 1%nat ltac:(cbn; lia)) as L1. cbn in L0, L1.
    destruct (s 0%nat) as [|x [|y [|]]] eqn:E0; try discriminate L0. destruct (s 1%nat) as [|k [|]] eqn:E1; try discriminate L1.
    exists x, y, k. split; [reflexivity|]. split; [reflexivity|].
    rewrite (sat_eq1 s [] _ _ (inner [m0 - 0; m1 - 0] [x; y]) 1) in H1 by (cbn [eval EScalar]; rewrite ?E0, ?dot_inner; reflexivity).
    rewrite (sat_eq1 s [] _ _ (total [x; y]) k) in H2 by (cbn [eval EScalar]; rewrite ?E0, ?E1, ?vsum_total; reflexivity).
    rewrite (sat_ineq1 s [] _ _ 0 k) in H3 by (cbn [eval EScalar]; rewrite ?E1; reflexivity).
    unfold sat in H4, H5. cbn [eval map nth] in H4, H5. rewrite E0, E1 in H4, H5. cbn [bop map map2 nth] in H4, H5.
    rewrite !Forall_cons_iff' in H4, H5. cbn in H1, H2. repeat split; try lra. exact H6.
  - intros [x [y [k [E0 [E1 [H1 [H2 [H3 [H4 [H5 H6]]]]]]]]]]. split.
    { intros v Hv. cbn in Hv. destruct v as [|[|v]]; [rewrite E0; reflexivity|rewrite E1; reflexivity|lia]. }
    rewrite (sat_eq1 s [] (EDot _ _) _ (inner [m0 - 0; m1 - 0] [x; y]) 1) by (cbn [eval EScalar]; rewrite ?E0, ?dot_inner; reflexivity).
    rewrite (sat_eq1 s [] (ESum _) _ (total [x; y]) k) by (cbn [eval EScalar]; rewrite ?E0, ?E1, ?vsum_total; reflexivity).
    rewrite (sat_ineq1 s [] (EScalar 0) _ 0 k) by (cbn [eval EScalar]; rewrite ?E1; reflexivity).
    split; [cbn; lra|]. split; [cbn; lra|]. split; [exact H3|].
    split; [unfold sat; cbn [eval map nth]; rewrite E0, E1; cbn [bop map map2 nth]; repeat (apply Forall_cons; [lra|]); apply Forall_nil|].
    split; [unfold sat; cbn [eval map nth]; rewrite E0, E1; cbn [bop map map2 nth]; repeat (apply Forall_cons; [lra|]); apply Forall_nil|].
    split; [exact H6|constructor].
Qed.
Lemma two_sharpe : forall sv m0 m1 c c', 0 < m1 < m0 -> transform_con 1 (c 0%nat) = Ok c' -> cpars (c 0%nat) = [] ->
  exact_solver sv ->
  match sv [2%nat; 1%nat] [] (EQuad [[1; 0]; [0; 1]] (EVar 0)) (scaled_cons m0 m1 c') with
  | AOptimal s _ => s 1%nat <> [0] -> exists x y k w' o' d, s 0%nat = [x; y] /\ s 1%nat = [k] /\
      max_sharpe sv (NFloat 0) two_c_world (two_c m0 m1 c) = (w', o', Ok d) /\
      e_weights o' = Some [round16 (x / k); round16 (y / k)]
  | _ => True
  end.
Proof.
  intros sv m0 m1 c c' Hm Hc Hp Hsv.
  destruct (max_sharpe_run sv two_c_world (two_c m0 m1 c) [(2%nat, c 0%nat)] [m0; m1] (NFloat 0) 0 (Rmax m0 m1)
     (two_c_open m0 m1 c Hp) eq_refl eq_refl eq_refl)
    as [w1 [o1 [i [X [l1 [l2 [l3 [l4 [l5 [E [S1 [S2 [S3 [S4 [S5 [S6 [S7 [S8 S9]]]]]]]]]]]]]]]]]].
  { eapply Rlt_le_trans; [|apply Rmax_l]. lra. }
  { constructor; [|constructor]. exists c'. exact Hc. }
  inversion S9 as [|? [j c2] ? X' T T']; subst. inversion T'; subst. cbn [snd two_c_world w_sizes List.length] in T. rewrite Hc in T. inversion T; subst c2. clear T T' S9.
  destruct (sv [2%nat; 1%nat] [] (EQuad [[1; 0]; [0; 1]] (EVar 0)) (scaled_cons m0 m1 c')) as [s v| |] eqn:Esv; [|trivial|trivial].
  intros Hk. destruct (Hsv _ _ _ _ _ _ Esv) as [[Hf _] _]. apply scaled_feasible in Hf.
  destruct Hf as [x [y [k [E0 [E1 _]]]]]. exists x, y, k.
  destruct (solve_opt sv w1 o1) as [[w2 o2] r] eqn:Es.
  apply (solve_open sv w1 o1 i _ w2 o2 _ S3 S7) in Es. destruct Es as [_ Es].
  rewrite S1, S2, S8 in Es.
  assert (Esv' : sv (w_sizes two_c_world ++ [1%nat]) (par_values two_c_world) (add_all (EQuad (e_cov (two_c m0 m1 c)) (EVar (e_w (two_c m0 m1 c)))) (e_add (two_c m0 m1 c)))
     (map snd
      ((l1, CEq (EDot (map (fun x : R => x - 0) [m0; m1]) (EVar (e_w (two_c m0 m1 c)))) (EScalar 1))
        :: (l2, CEq (ESum (EVar (e_w (two_c m0 m1 c)))) (EVar (Datatypes.length (w_sizes two_c_world))))
          :: (l3, CIneq (EScalar 0) (EVar (Datatypes.length (w_sizes two_c_world))))
            :: (l4, CIneq (EMul (EConst (finite_vals (e_lb (two_c m0 m1 c)))) (EVar (Datatypes.length (w_sizes two_c_world)))) (EIndex (finite_ix (e_lb (two_c m0 m1 c))) (EVar (e_w (two_c m0 m1 c)))))
              :: (l5, CIneq (EIndex (finite_ix (e_ub (two_c m0 m1 c))) (EVar (e_w (two_c m0 m1 c)))) (EMul (EConst (finite_vals (e_ub (two_c m0 m1 c)))) (EVar (Datatypes.length (w_sizes two_c_world))))) :: [(j, c')])) = AOptimal s v) by exact Esv.
  rewrite Esv' in Es. destruct Es as [-> Eo2].
  assert (Hrun : exists w' o' d, max_sharpe sv (NFloat 0) two_c_world (two_c m0 m1 c) = (w', o', Ok d) /\
      e_weights o' = Some [round16 (x / k); round16 (y / k)]).
  { rewrite E. unfold bind at 1.
    assert (Es2 : exists w3, solve_opt sv w1 o1 = (w3, o2, Ok (s, v))).
    { destruct (solve_opt sv w1 o1) as [[w3 o3] r3] eqn:Es3. exists w3.
      pose proof Es3 as Es4. apply (solve_open sv w1 o1 i _ w3 o3 _ S3 S7) in Es4. destruct Es4 as [_ Es4].
      rewrite S1, S2, S8, Esv' in Es4. destruct Es4 as [-> ->]. subst o2. reflexivity. }
    destruct Es2 as [w3 Es2]. rewrite Es2. cbn [fst two_c_world w_sizes List.length]. rewrite E1. cbn [scalar hd].
    assert (Ek : Reqb k 0 = false) by (apply Reqb_false; intros ->; apply Hk; exact E1). cbv zeta. rewrite Ek.
    unfold bind, modify, output, get, lift_res. eexists _, _, _. split; [reflexivity|].
    subst o2. cbn [put_weights set_base set_opt e_base b_weights e_w]. unfold e_weights. cbn [e_base set_base b_weights].
    rewrite S4. change (e_w (two_c m0 m1 c)) with 0%nat. rewrite E0. reflexivity. }
  destruct Hrun as [w' [o' [d [R1 R2]]]]. exists w', o', d. auto.
Qed.
Lemma rounded_close : forall x y, rounded 16 x y -> Rabs (x - y) <= 1 / 1000000.
Proof.
  intros x y [k [H1 [H2 _]]]. change (10 ^ 16)%Z with 10000000000000000%Z in *.
  rewrite <- H1 in H2. replace (x * 10000000000000000 - y * 10000000000000000) with ((x - y) * 10000000000000000) in H2 by ring.
  rewrite Rabs_mult in H2. rewrite (Rabs_right 10000000000000000) in H2 by lra. lra.
Qed.
Lemma offset_example : exists sv o w' o' d x y,
  exact_solver sv /\ two [1/5; 1/10] 0 1 = (two_world, Ok (two_ef [1/5; 1/10] 0 1)) /\
  (* the user asks for w[0] + 0.1 <= 0.4 *)
  add_constraint (CFun (fun v => CIneq (EAdd (EIndex [0%nat] (EVar v)) (EConst [1/10])) (EConst [2/5])))
    two_world (two_ef [1/5; 1/10] 0 1) = (two_c_world, o, Ok tt) /\
  max_sharpe sv (NFloat 0) two_c_world o = (w', o', Ok d) /\
  e_weights o' = Some [x; y] /\ x + 1/10 > 2/5 + 1/20.
Proof.
  set (c := fun v => CIneq (EAdd (EIndex [0%nat] (EVar v)) (EConst [1/10])) (EConst [2/5])).
  set (c' := CIneq (EAdd (EIndex [0%nat] (EVar 0)) (EConst [1/10])) (EMul (EConst [2/5]) (EVar 1))).
  assert (Hsat : forall s x y k, s 0%nat = [x; y] -> s 1%nat = [k] -> (sat s [] c' <-> x + 1/10 <= 2/5 * k)).
  { intros s x y k E0 E1. unfold c'. rewrite (sat_ineq1 s [] _ _ (x + 1/10) (2/5 * k)); [reflexivity| |].
    - cbn. rewrite E0. reflexivity.
    - cbn. rewrite E1. reflexivity. }
  destruct id2_psd as [_ [_ Hq]].
  assert (Hval : forall s, feasible [2%nat; 1%nat] [] (scaled_cons (1/5) (1/10) c') s -> exists x, s 0%nat = [x; 10 - 2 * x] /\ s 1%nat = [10 - x] /\ 0 <= x <= 39/14).
  { intros s Hs. apply scaled_feasible in Hs. destruct Hs as [x [y [k [E0 [E1 [H1 [H2 [H3 [H4 [H5 H6]]]]]]]]]].
    apply (Hsat s x y k E0 E1) in H6. exists x. rewrite E0, E1. replace y with (10 - 2 * x) by lra. replace k with (10 - x) in * by lra. split; [reflexivity|]. split; [reflexivity|]. lra. }
  assert (Hopt : optimal [2%nat; 1%nat] [] (EQuad [[1; 0]; [0; 1]] (EVar 0)) (scaled_cons (1/5) (1/10) c')
     (fun i => match i with 0%nat => [39/14; 31/7] | _ => [101/14] end)).
  { split.
    - apply scaled_feasible. exists (39/14), (31/7), (101/14). repeat split; try lra. apply (Hsat _ (39/14) (31/7) (101/14) eq_refl eq_refl). lra.
    - intros s Hs. apply Hval in Hs. destruct Hs as [x [E0 [_ Hx]]]. rewrite !evals_quad, E0, !Hq. nra. }
  destruct (best_solver_answers _ _ _ _ _ Hopt) as [s [Es [Hf Hb]]].
  assert (Hx : exists x, s 0%nat = [x; 10 - 2 * x] /\ s 1%nat = [10 - x] /\ x = 39/14).
  { destruct (Hval s Hf) as [x [E0 [E1 Hx]]]. exists x. split; [exact E0|]. split; [exact E1|].
    specialize (Hb _ (proj1 Hopt)). rewrite !evals_quad, E0, !Hq in Hb. nra. }
  destruct Hx as [x [E0 [E1 Ex]]].
  pose proof (two_sharpe best_solver (1/5) (1/10) c c' ltac:(lra) eq_refl eq_refl best_solver_exact) as H. rewrite Es in H.
  destruct H as [x' [y' [k' [w' [o' [d [F0 [F1 [F2 F3]]]]]]]]].
  { rewrite E1. intros H. injection H as H. lra. }
  rewrite E0 in F0. injection F0 as F0 _. rewrite E1 in F1. injection F1 as F1. subst x' k'.
  exists best_solver, (two_c (1/5) (1/10) c), w', o', d, (round16 (x / (10 - x))), (round16 (y' / (10 - x))).
  split; [apply best_solver_exact|]. split; [apply two_ok|]. split; [reflexivity|]. split; [exact F2|]. split; [exact F3|].
  assert (Hr : Rabs (x / (10 - x) - round16 (x / (10 - x))) <= 1/1000000).
  { apply rounded_close. unfold round16. apply np_round_rounded. lia. }
  subst x. replace (39 / 14 / (10 - 39 / 14)) with (39/101) in * by field.
  apply Rabs_le_inv in Hr || (unfold Rabs in Hr; destruct (Rcase_abs _) in Hr); lra.
Qed.
(** the sum of squares is not homogeneous *)
Lemma squares_example : exists sv o w' o' d x y,
  exact_solver sv /\ two [2; 1] 0 1 = (two_world, Ok (two_ef [2; 1] 0 1)) /\
  (* the user asks for sum of squares <= 0.52 *)
  add_constraint (CFun (fun v => CIneq (ESumSq (EVar v)) (EConst [13/25]))) two_world (two_ef [2; 1] 0 1) = (two_c_world, o, Ok tt) /\
  max_sharpe sv (NFloat 0) two_c_world o = (w', o', Ok d) /\
  e_weights o' = Some [x; y] /\ x * x + y * y > 13/25 + 1/100.
Proof.
  set (c := fun v => CIneq (ESumSq (EVar v)) (EConst [13/25])).
  set (c' := CIneq (ESumSq (EVar 0)) (EMul (EConst [13/25]) (EVar 1))).
  assert (Hsat : forall s x y k, s 0%nat = [x; y] -> s 1%nat = [k] -> (sat s [] c' <-> x * x + y * y <= 13/25 * k)).
  { intros s x y k E0 E1. unfold c'. rewrite (sat_ineq1 s [] _ _ (x * x + y * y) (13/25 * k)); [reflexivity| |].
    - cbn [eval]. rewrite E0, vsum_total. cbn. f_equal. ring.
    - cbn. rewrite E1. reflexivity. }
  destruct id2_psd as [_ [_ Hq]].
  assert (Hval : forall s, feasible [2%nat; 1%nat] [] (scaled_cons 2 1 c') s -> exists x, s 0%nat = [x; 1 - 2 * x] /\ s 1%nat = [1 - x] /\ 0 <= x <= 1/2).
  { intros s Hs. apply scaled_feasible in Hs. destruct Hs as [x [y [k [E0 [E1 [H1 [H2 [H3 [H4 [H5 H6]]]]]]]]]].
    exists x. rewrite E0, E1. replace y with (1 - 2 * x) by lra. replace k with (1 - x) in * by lra. split; [reflexivity|]. split; [reflexivity|]. lra. }
  assert (Hopt : optimal [2%nat; 1%nat] [] (EQuad [[1; 0]; [0; 1]] (EVar 0)) (scaled_cons 2 1 c')
     (fun i => match i with 0%nat => [2/5; 1/5] | _ => [3/5] end)).
  { split.
    - apply scaled_feasible. exists (2/5), (1/5), (3/5). repeat split; try lra. apply (Hsat _ (2/5) (1/5) (3/5) eq_refl eq_refl). lra.
    - intros s Hs. apply Hval in Hs. destruct Hs as [x [E0 [_ Hx]]]. rewrite !evals_quad, E0, !Hq.
      pose proof (Rle_0_sqr (x - 2/5)) as Hsq. unfold Rsqr in Hsq. lra. }
  destruct (best_solver_answers _ _ _ _ _ Hopt) as [s [Es [Hf Hb]]].
  assert (Hx : exists x, s 0%nat = [x; 1 - 2 * x] /\ s 1%nat = [1 - x] /\ x = 2/5).
  { destruct (Hval s Hf) as [x [E0 [E1 Hx]]]. exists x. split; [exact E0|]. split; [exact E1|].
    specialize (Hb _ (proj1 Hopt)). rewrite !evals_quad, E0, !Hq in Hb.
    assert (Hsq : (x - 2/5) * (x - 2/5) <= 0) by lra. nra. }
  destruct Hx as [x [E0 [E1 Ex]]].
  pose proof (two_sharpe best_solver 2 1 c c' ltac:(lra) eq_refl eq_refl best_solver_exact) as H. rewrite Es in H.
  destruct H as [x' [y' [k' [w' [o' [d [F0 [F1 [F2 F3]]]]]]]]].
  { rewrite E1. intros H. injection H as H. lra. }
  rewrite E0 in F0. injection F0 as F0 Fy. rewrite E1 in F1. injection F1 as F1. subst x' y' k'.
  exists best_solver, (two_c 2 1 c), w', o', d, (round16 (x / (1 - x))), (round16 ((1 - 2 * x) / (1 - x))).
  split; [apply best_solver_exact|]. split; [apply two_ok|]. split; [reflexivity|]. split; [exact F2|]. split; [exact F3|].
  assert (Hr : forall z, Rabs (z - round16 z) <= 1/1000000).
  { intros z. apply rounded_close. unfold round16. apply np_round_rounded. lia. }
  pose proof (Hr (x / (1 - x))) as R1. pose proof (Hr ((1 - 2 * x) / (1 - x))) as R2.
  subst x. replace (2 / 5 / (1 - 2 / 5)) with (2/3) in * by field. replace ((1 - 2 * (2 / 5)) / (1 - 2 / 5)) with (1/3) in * by field.
  set (a := round16 (2/3)) in *. set (b := round16 (1/3)) in *.
  assert (Ha : 2/3 - 1/1000000 <= a) by (unfold Rabs in R1; destruct (Rcase_abs _) in R1; lra).
  assert (Hb' : 1/3 - 1/1000000 <= b) by (unfold Rabs in R2; destruct (Rcase_abs _) in R2; lra).
  nra.
Qed.

(** *** C33: what reaches scipy *)
Lemma Forall2_combine_bounds : forall lb ub x, List.length lb = List.length ub ->
  Forall2 (fun b a => above (fst b) a /\ below (snd b) a) (combine lb ub) x -> Forall2 above lb x /\ Forall2 below ub x.
Proof.
  induction lb as [|l lb IH]; intros ub x HL H; destruct ub as [|u ub]; try discriminate HL; cbn in H; inversion H; subst.
  - split; constructor.
  - destruct (IH ub l' ltac:(injection HL; auto) H4) as [A B]. cbn in H2. destruct H2. split; constructor; assumption.
Qed.
Lemma nonconvex_given : forall ns f b cs g w o u w' o' d, open_ef w o u ->
  (forall q, nlp_point_ok q (fst (ns q))) ->
  nonconvex_objective ns f b cs g w o = (w', o', Ok d) ->
  exists x, e_weights o' = Some x /\ d = dict_of_pairs (combine (b_tickers (e_base o)) x) /\
    within (e_lb o) (e_ub o) x /\ (b = true -> total x = 1) /\ Forall (fun P => P x) cs.
Proof.
  intros ns f b cs g w o u w' o' d [Ho [_ [Hl [Hu _]]]] Hns H.
  unfold nonconvex_objective, bind, get, modify, output, lift_res in H. 
  match type of H with context[ns ?q] => set (Q := q) in *; pose proof (Hns Q) as Hq end.
  inversion H; subst. eexists. split; [reflexivity|]. split; [reflexivity|].
  destruct Hq as [H1 [H2 H3]]. split; [|split; [exact H2|exact H3]].
  apply Forall2_combine_bounds; [congruence|exact H1].
Qed.
Lemma nonconvex_ignores : forall ns ns' f b cs g w o X, (forall q, fst (ns q) = fst (ns' q)) ->
  exists d x, nonconvex_objective ns f b cs g w o = (w, put_weights x o, Ok d) /\
    nonconvex_objective ns' f b cs g w (set_cons X o) = (w, put_weights x (set_cons X o), Ok d).
Proof.
  intros ns ns' f b cs g w o X H. unfold nonconvex_objective, bind, get, modify, output, lift_res.
  cbn [e_lb e_ub e_base set_cons]. change (e_n (set_cons X o)) with (e_n o). rewrite <- H. eexists _, _. split; reflexivity.
Qed.
Lemma nonconvex_example : exists ns o w' o' d,
  (forall q, nlp_bounds q = [(Some 0, Some 1); (Some 0, Some 1)] -> nlp_cons q = [] ->
     nlp_point_ok q (fst (ns q)) /\ snd (ns q) = false) /\
  two [1/5; 1/10] 0 1 = (two_world, Ok (two_ef [1/5; 1/10] 0 1)) /\
  (* the user asks for w[0] <= 0.3 *)
  add_constraint (CFun (fun v => CIneq (EIndex [0%nat] (EVar v)) (EConst [3/10])))
    two_world (two_ef [1/5; 1/10] 0 1) = (two_c_world, o, Ok tt) /\
  nonconvex_objective ns (fun x => - total x) true [] None two_c_world o = (w', o', Ok d) /\
  e_weights o' = Some [9/10; 1/10].
Proof.
  exists (fun _ => ([9/10; 1/10], false)), (two_c (1/5) (1/10) (fun v => CIneq (EIndex [0%nat] (EVar v)) (EConst [3/10]))).
  eexists _, _, _. split; [|split; [apply two_ok|split; [reflexivity|split; [|shelve]]]].
  - intros q H1 H2. split; [|reflexivity]. unfold nlp_point_ok. rewrite H1, H2. split; [|split; [|constructor]].
    + constructor; [cbn; lra|]. constructor; [cbn; lra|constructor].
    + intros _. cbn. lra.
  - unfold nonconvex_objective, bind, get, modify, output, lift_res. reflexivity.
  Unshelve. reflexivity.
Qed.

(** *** a first call of min_volatility *)
Lemma minvol_first : forall sv w o u, open_ef w o u ->
  exists w' o', min_volatility sv w o = (w', o', outcome (b_tickers (e_base o)) (e_w o)
    (sv (w_sizes w) (par_values w) (add_all (EQuad (e_cov o) (EVar (e_w o))) (e_add o))
        (map snd (e_cons o) ++ [CEq (ESum (EVar (e_w o))) (EScalar 1)]))).
Proof.
  intros sv w o u [Ho [[i [j Hc]] [Hl [Hu [Hn [Hq [Hm [Ha [Has Hus]]]]]]]]].
  unfold min_volatility. unfold bind at 1, get. unfold bind at 1. rewrite check_cov_run by exact Hq.
  unfold bind at 1. rewrite set_objective_full_run. unfold bind at 1, sum_is. rewrite add_constraint_open by exact Ho.
  set (w1 := mkWorld _ _ _ _). set (o1 := set_cons _ _).
  destruct (solve_output_run sv w1 o1 (w_next w) _ _ eq_refl eq_refl (or_introl Ho)) as [w' [o' [E _]]].
  exists w', o'. rewrite E. cbn [o1 e_cons set_cons set_obj]. rewrite map_app. reflexivity.
Qed.

(** *** rejected arguments *)
Lemma risk_bad_target : forall sv pinv tg mn w o,
  (target_of tg = None \/ exists t, target_of tg = Some t /\ t < 0) ->
  efficient_risk sv pinv tg mn w o = (w, o, Err ValueError).
Proof.
  intros sv pinv tg mn w o [E|[t [E Ht]]]; unfold efficient_risk; rewrite E; [reflexivity|].
  assert (E1 : Rltb t 0 = true) by (apply Rltb_true; exact Ht). rewrite E1. reflexivity.
Qed.
Lemma utility_bad_aversion : forall sv ra mn w o, ra <= 0 -> max_quadratic_utility sv ra mn w o = (w, o, Err ValueError).
Proof.
  intros sv ra mn w o H. unfold max_quadratic_utility. assert (E : Rleb ra 0 = true) by (apply Rleb_true; exact H). rewrite E. reflexivity.
Qed.
Lemma return_rejects_only : forall sv w o u m t mn w' o', exact_solver sv ->
  (forall a b c e, sv a b c e <> ARaise ValueError) -> open_ef w o u -> e_mu o = Some m -> e_maxret o = None ->
  unused_name w o "target_return" ->
  efficient_return sv (NFloat t) mn w o = (w', o', Err ValueError) ->
  forall s, admissible w o u (e_lb o) (e_ub o) 1 s -> inner m (s (e_w o)) < t.
Proof.
  intros sv w o u m t mn w' o' Hsv Hnr Hop Em Hmr Hun H s Hs.
  destruct (max_return_pre sv w o u m Hop Em w o (pre_self w o u m Hop Em)) as [w1 [E1 _]].
  assert (Ho : forall ts v a b c e, outcome ts v (sv a b c e) <> Err ValueError).
  { intros ts v a b c e. pose proof (Hnr a b c e) as N. unfold outcome. destruct (sv a b c e) as [| |x]; try discriminate.
    destruct x; try discriminate. congruence. }
  destruct (maxret_result sv w o m) as [v|x] eqn:Er.
  - destruct (Rlt_dec v t) as [Hlt|Hge].
    + destruct (max_return_copy sv w o u m w1 o v Hsv Hop Em E1) as [_ [_ [_ [_ A]]]]. specialize (A s Hs). lra.
    + exfalso. destruct (return_first sv w o u m Hop Em mn t v Hun Hmr Er) as [w2 [o2 E]]; [lra|]. rewrite E in H.
      inversion H. eapply Ho; eassumption.
  - exfalso. unfold efficient_return in H. unfold bind at 1, get in H. rewrite Hmr in H. cbn [falsy when] in H.
    unfold bind at 1 2 in H. rewrite E1 in H. inversion H; subst x. unfold maxret_result in Er.
    destruct (maxret_answer sv w o m) as [| |y] eqn:Ea; try discriminate Er. unfold maxret_answer in Ea.
    destruct y; try discriminate Er. exact (Hnr _ _ _ _ Ea).
Qed.
