(** * Exceptions of a first call: efficient_return, max_sharpe, and witnesses (C132) *)
From Coq Require Import ZArith List String Bool Reals Lra Lia.
From Verif Require Import Num Py RBase PyLemmas MBase MConvex MEF MDown SLin SBase SConvex SDown SErrors Sums PBase PConvex PEF PEF2 PEF3 PEF4 PEFW PDown PDown2 PDown3 PDown4 PDown5 PDown6 PDownW PErrors.
Import ListNotations.
Local Open Scope R_scope.

Section Two.
  Context (sv : solver_t) (Hsv : usual_solver sv) (w : world) (o : ef) (u : list (nat * con)) (m : list R).
  Context (Hopen : open_ef w o u) (Em : e_mu o = Some m).

  Lemma return_table : exact_solver sv -> complete_solver sv -> e_maxret o = None -> unused_name w o "target_return" ->
    forall t mn, rejects_exactly (forall x, t = NFloat x -> exists s, best_return w o u m s /\ inner m (s (e_w o)) < x)
      (snd (efficient_return sv t mn w o)).
  Proof.
    intros Hex Hco Hmr Hun t mn.
    destruct t as [x|z|]; try (apply rejected; [reflexivity|intros y Hy; discriminate Hy]).
    pose proof Hopen as [Ho [[i [j Hc]] [Hl [Hu [Hn [Hq [Hm [Ha [Has Hus]]]]]]]]].
    destruct (max_return_pre sv w o u m Hopen Em w o) as [w0 [Ecp [Es Ep]]].
    { split; [reflexivity|]. split; [reflexivity|]. exists None. rewrite <- Hmr. destruct o; reflexivity. }
    assert (Hopt : forall s1, best_return w o u m s1 <-> optimal (w_sizes w) (par_values w) (portfolio_return_e (EVar (e_w o)) m true) (map snd (e_cons o) ++ [CEq (ESum (EVar (e_w o))) (EScalar 1)]) s1).
    { intros s1. assert (Hcons : forall s, well_sized (w_sizes w) s -> (Forall (sat s (par_values w)) (map snd (e_cons o) ++ [CEq (ESum (EVar (e_w o))) (EScalar 1)]) <-> admissible w o u (e_lb o) (e_ub o) 1 s)).
      { intros s Hs. rewrite Hc. cbn [app map snd]. rewrite !Forall_cons_iff', Forall_app, Forall_map_snd, Forall_cons_iff'.
        rewrite (admissible_iff w o u (e_lb o) (e_ub o) 1 s Hl Hu Hn Hs). assert (Forall (sat s (par_values w)) []) by constructor. tauto. }
      split.
      - intros [Hs1 Hbest]. split; [split; [apply Hs1|apply Hcons; [apply Hs1|exact Hs1]]|]. intros s [Hs Hfe]. apply Hcons in Hfe; [|exact Hs].
        rewrite !evals_ret. cbn [sign_of]. specialize (Hbest s Hfe). lra.
      - intros [[Hs1 Hf1] Hbest]. split; [apply Hcons; assumption|]. intros s Hs.
        assert (Hfs : feasible (w_sizes w) (par_values w) (map snd (e_cons o) ++ [CEq (ESum (EVar (e_w o))) (EScalar 1)]) s).
        { split; [apply Hs|]. apply Hcons; [apply Hs|exact Hs]. }
        specialize (Hbest s Hfs). rewrite !evals_ret in Hbest. cbn [sign_of] in Hbest. lra. }
    assert (Hcase : (exists s, best_return w o u m s /\ maxret_result sv w o m = Ok (inner m (s (e_w o)))) \/
                    ((forall s, ~ best_return w o u m s) /\ maxret_result sv w o m = Err OptimizationError)).
    { unfold maxret_result. destruct (maxret_answer sv w o m) as [s v|upd|e] eqn:Ea; unfold maxret_answer in Ea.
      - left. destruct (Hex _ _ _ _ _ _ Ea) as [H1 ->]. exists s. split; [apply Hopt; exact H1|]. f_equal.
        rewrite evals_ret. cbn [sign_of]. ring.
      - right. split; [|reflexivity]. intros s Hs. apply Hopt in Hs. destruct (Hco _ _ _ _ _ Hs) as [s' [v' E]]. congruence.
      - right. split; [|destruct (Hsv _ _ _ _ _ Ea) as [->| ->]; reflexivity].
        intros s Hs. apply Hopt in Hs. destruct (Hco _ _ _ _ _ Hs) as [s' [v' E]]. congruence. }
    assert (Hrun : efficient_return sv (NFloat x) mn w o =
      match maxret_result sv w o m with
      | Err e => (w0, o, Err e)
      | Ok v => if Rltb v x then (w0, set_maxret (Some v) o, Err ValueError) else efficient_return sv (NFloat x) mn w o
      end).
    { destruct (maxret_result sv w o m) as [v|e]; [destruct (Rltb v x) eqn:Ev; [|reflexivity]|];
        unfold efficient_return; unfold bind at 1, get; rewrite Hmr; cbn [falsy when]; unfold bind at 1; unfold bind at 1; rewrite Ecp.
      - unfold modify. unfold bind at 1. cbn [e_maxret set_maxret]. rewrite Ev. reflexivity.
      - reflexivity. }
    destruct Hcase as [[s [Hb Er]]|[Hnb Er]].
    - rewrite Er in Hrun. destruct (Rltb (inner m (s (e_w o))) x) eqn:Ev.
      + rewrite Hrun. apply rejected; [reflexivity|]. intros y Hy. inversion Hy; subst y. exists s. split; [exact Hb|]. apply Rltb_true. exact Ev.
      + apply Rltb_false in Ev. destruct (return_first sv w o u m Hopen Em mn x _ Hun Hmr Er Ev) as [w' [o' E]].
        rewrite E. apply settled_not; [apply outcome_settled; exact Hsv|].
        intros H. destruct (H x eq_refl) as [s' [[Hs' _] Hlt]]. destruct Hb as [Hs Hge]. 
        destruct (H x eq_refl) as [s2 [[_ Hge2] Hlt2]]. specialize (Hge2 s Hs). lra.
    - rewrite Er in Hrun. rewrite Hrun. apply settled_not; [reflexivity|].
      intros H. destruct (H x eq_refl) as [s' [Hs' _]]. exact (Hnb s' Hs').
  Qed.

  Lemma ordinary_transformable : forall k c, ordinary c -> transformable k c.
  Proof. intros k [a b|a b|P a] H; [|eexists; reflexivity|destruct H]. unfold transformable. destruct a; eexists; reflexivity. Qed.
  Lemma transform_fails : forall k cs w1 (o1 : ef), ~ Forall (fun ic => ordinary (snd ic)) cs -> exists w' o', transform_all k cs w1 o1 = (w', o', Err TypeError).
  Proof.
    intros k cs. induction cs as [|[i c] cs IH]; intros w1 o1 H; [exfalso; apply H; constructor|].
    cbn [transform_all]. destruct c as [a b|a b|P a].
    - destruct (ordinary_transformable k (CIneq a b) I) as [c' Ec]. unfold bind at 1, lift_res. rewrite Ec.
      unfold bind at 1, with_id, bind at 1, new_id, ret at 1.
      destruct (IH (mkWorld (w_sizes w1) (w_val w1) (w_params w1) (S (w_next w1))) o1) as [w' [o' E]].
      { intros HF. apply H. constructor; [exact I|exact HF]. }
      unfold bind at 1. rewrite E. eauto.
    - unfold bind at 1, lift_res. cbn [transform_con].
      unfold bind at 1, with_id, bind at 1, new_id, ret at 1.
      destruct (IH (mkWorld (w_sizes w1) (w_val w1) (w_params w1) (S (w_next w1))) o1) as [w' [o' E]].
      { intros HF. apply H. constructor; [exact I|exact HF]. }
      unfold bind at 1. rewrite E. eauto.
    - unfold bind at 1, lift_res. cbn [transform_con]. eauto.
  Qed.

  Definition sharpe_bad (rf : num_arg) : Prop := forall x, is_number rf x -> all_at_most x m.
  Lemma sharpe_case : forall rf,
    (snd (max_sharpe sv rf w o) = Err ValueError /\ sharpe_bad rf) \/
    (exists r mx, target_of rf = Some r /\ list_max m = Some mx /\ r < mx /\ ~ sharpe_bad rf).
  Proof.
    intros rf. destruct (target_of rf) as [r|] eqn:Er.
    2:{ left. destruct rf as [a|z|]; try discriminate Er. split; [reflexivity|].
        intros x [H|[z [H _]]]; discriminate H. }
    pose proof (is_number_target rf r Er) as Hnum.
    destruct (list_max m) as [mx|] eqn:Emx.
    - destruct (list_max_ge _ _ Emx) as [Hin Hge]. destruct (Rleb mx r) eqn:Eb.
      + left. split.
        * unfold max_sharpe. destruct rf as [a|z|]; try discriminate Er; cbn [target_of] in Er; inversion Er; subst r;
            unfold bind at 1, get; rewrite Em, Emx, Eb; reflexivity.
        * intros x Hx a Ha. apply Hnum in Hx. subst x. apply Rleb_true in Eb. specialize (Hge a Ha). lra.
      + right. apply Rleb_false in Eb. exists r, mx. split; [reflexivity|]. split; [reflexivity|]. split; [exact Eb|].
        intros H. specialize (H r (proj2 (Hnum r) eq_refl) mx Hin). lra.
    - left. split.
      + unfold max_sharpe. destruct rf as [a|z|]; try discriminate Er; unfold bind at 1, get; rewrite Em, Emx; reflexivity.
      + intros x _ a Ha. destruct m; [destruct Ha|discriminate Emx].
  Qed.

  Lemma sharpe_table : forall rf r, r = snd (max_sharpe sv rf w o) -> Forall (fun ic => ordinary (snd ic)) u ->
    (r = Err ValueError <-> sharpe_bad rf) /\
    (forall e, r = Err e -> e = ValueError \/ e = OptimizationError \/ e = FloatSpecial).
  Proof.
    intros rf r -> Hu. destruct (sharpe_case rf) as [[E Hb]|[r [mx [Er [Emx [Hlt Hnb]]]]]].
    - rewrite E. split; [tauto|]. intros e He. inversion He. auto.
    - destruct (max_sharpe_run sv w o u m rf r mx Hopen Em Er Emx Hlt) as [w1 [o1 [i [X [l1 [l2 [l3 [l4 [l5 [E [E1 [E2 [E3 [E4 [E5 [E6 [E7 [E8 E9]]]]]]]]]]]]]]]]]].
      { eapply Forall_impl; [|exact Hu]. intros ic. apply ordinary_transformable. }
      assert (Hres : match snd (max_sharpe sv rf w o) with Ok _ => True | Err e => e = OptimizationError \/ e = FloatSpecial end).
      { rewrite E. unfold bind at 1. unfold solve_opt, bind, get. rewrite E7, E3. unfold modify, ret, world_get.
        pose proof (Hsv (w_sizes w1) (par_values w1) (add_all (EQuad (e_cov o) (EVar (e_w o))) (e_add o)) (map snd (e_cons o1))) as Hx.
        cbn [p_obj p_cons snd]. destruct (sv _ _ _ _) as [s v|upd|x].
        - match goal with |- context [Reqb ?a 0] => destruct (Reqb a 0) end; cbn; auto.
        - cbn. auto.
        - destruct (Hx x eq_refl) as [->| ->]; cbn; auto. }
      destruct (snd (max_sharpe sv rf w o)) as [d|e].
      + split; [split; [discriminate|tauto]|discriminate].
      + split.
        * split; [|tauto]. intros He. inversion He; subst. destruct Hres; discriminate.
        * intros e' He. inversion He; subst. tauto.
  Qed.

  Lemma sharpe_other : forall rf, ~ sharpe_bad rf -> ~ Forall (fun ic => ordinary (snd ic)) u ->
    snd (max_sharpe sv rf w o) = Err TypeError.
  Proof.
    intros rf Hnb Hu. destruct (sharpe_case rf) as [[E Hb]|[r [mx [Er [Emx [Hlt _]]]]]]; [contradiction|].
    pose proof Hopen as [Ho [[i [j Hc]] [Hl [Hu' [Hn [Hq [Hm [Ha [Has Hus]]]]]]]]].
    assert (Eb : Rleb mx r = false) by (apply Rleb_false; exact Hlt).
    assert (Hnf : ~ Forall (fun ic => ordinary (snd ic)) (e_cons o)).
    { rewrite Hc. intros HF. apply Hu. inversion HF as [|? ? _ HF1]; subst. inversion HF1; subst. assumption. }
    assert (forall X (k : list (nat * con) -> M ef X) kk w1 o1, snd (bind (transform_all kk (e_cons o)) k w1 o1) = Err TypeError) as Htr.
    { intros X k kk w1 o1. destruct (transform_fails kk (e_cons o) w1 o1 Hnf) as [w' [o' E]]. unfold bind. rewrite E. reflexivity. }
    unfold max_sharpe. destruct rf as [x|z|]; try discriminate Er; cbn [target_of] in Er; inversion Er; subst r;
      unfold bind at 1, get; rewrite Em, Emx, Eb; unfold bind at 1, modify at 1; unfold bind at 1;
      rewrite check_cov_run by exact Hq; unfold bind at 1, new_var; unfold bind at 1; rewrite set_objective_full_run;
      apply Htr.
  Qed.
End Two.

(** ** Witnesses *)
(** the target 25% is reached by a long-short portfolio, but no single expected return is that large *)
Lemma semi_reachable : forall sv, exists w o d, 
  semi_init (MIn (MuArray [1/5; 1/10])) (RTable 2 [[Some (1/10); Some (1/20)]]) 1 0 (BPair (Some (-1)) (Some 2)) empty_world = (w, Ok (o, d)) /\
  (exists s, admissible w o [] (e_lb o) (e_ub o) 1 s /\ 1/4 < inner [1/5; 1/10] (s (e_w o))) /\
  snd (semi_efficient_return sv d (NFloat (1/4)) false w o) = Err ValueError.
Proof.
  intros sv. exists two_world, (semi2_ef (-1) 2), (semi2_data 0 (1/10, 1/20)). split; [exact (semi2_ok 0 (-1) 2 (1/10, 1/20))|]. split.
  - exists (fun _ => [2; -1]). split.
    + apply admissible_two'; [reflexivity| |exists 2, (-1); split; [reflexivity|lra]].
      intros v Hv. cbn in Hv. replace v with 0%nat by lia. reflexivity.
    + rewrite qret_two. lra.
  - unfold semi_efficient_return. rewrite (proj2 (Rltb_false (1/4) 0)) by lra. unfold bind at 1, get.
    change (e_mu (semi2_ef (-1) 2)) with (Some [1/5; 1/10]). cbn [map list_max fold_left].
    rewrite (Rabs_right (1/5)), (Rabs_right (1/10)), Rmax_left by lra. rewrite (proj2 (Rltb_true (1/5) (1/4))) by lra. reflexivity.
Qed.

(** no long portfolio reaches 20%, but an asset that loses 30% is large enough *)
Definition loss_ef : ef := init_ef (MuArray [-3/10; 1/10]) (CovArray (zeros 2)) [Some 0; Some 0] [Some 1; Some 1] empty_world.
Lemma loss_ready : open_ef two_world loss_ef [] /\ semi_ready two_world loss_ef [] (semi2_data 0 (1/10, 1/20)).
Proof.
  destruct (semi_init_ready (MIn (MuArray [-3/10; 1/10])) 2 [[Some (1/10); Some (1/20)]] 1 0 (BPair (Some 0) (Some 1)) empty_world
    two_world loss_ef (semi2_data 0 (1/10, 1/20))) as [H1 [H2 _]]; [|reflexivity|auto].
  split; [repeat constructor|]. exists [Some (1/10); Some (1/20)], [1/10; 1/20]. split; [left; reflexivity|reflexivity].
Qed.
Lemma semi_unreachable : forall sv, usual_solver sv -> exact_solver sv -> exists w o d, 
  semi_init (MIn (MuArray [-3/10; 1/10])) (RTable 2 [[Some (1/10); Some (1/20)]]) 1 0 (BPair (Some 0) (Some 1)) empty_world = (w, Ok (o, d)) /\
  (forall s, admissible w o [] (e_lb o) (e_ub o) 1 s -> inner [-3/10; 1/10] (s (e_w o)) < 1/5) /\
  snd (semi_efficient_return sv d (NFloat (1/5)) false w o) = Err OptimizationError.
Proof.
  intros sv Hus Hex. exists two_world, loss_ef, (semi2_data 0 (1/10, 1/20)). split; [reflexivity|].
  destruct loss_ready as [Hop Hr].
  assert (Hno : forall s, admissible two_world loss_ef [] [Some 0; Some 0] [Some 1; Some 1] 1 s -> inner [-3/10; 1/10] (s (e_w loss_ef)) < 1/5).
  { intros s Ha. apply admissible_two in Ha; [|reflexivity|reflexivity]. destruct Ha as [x [y [E [Hx [Hy Hs]]]]].
    change (e_w loss_ef) with 0%nat. rewrite E, qret_two. lra. }
  split; [exact Hno|].
  assert (Hun : unused_name two_world loss_ef "target_return") by (intros q Hq; cbn in Hq; contradiction).
  destruct (semi_return_table sv Hus [-3/10; 1/10] two_world loss_ef [] Hop eq_refl (semi2_data 0 (1/10, 1/20)) (NFloat (1/5)) false Hun) as [H1 H2].
  destruct (semi_efficient_return sv (semi2_data 0 (1/10, 1/20)) (NFloat (1/5)) false two_world loss_ef) as [[w' o'] [dd|e]] eqn:E; cbn [snd] in *.
  - exfalso. assert (Hf : fresh_name two_world loss_ef "target_return") by (intros q Hq; cbn in Hq; contradiction).
    destruct (semi_return_best two_world loss_ef [] (semi2_data 0 (1/10, 1/20)) Hop Hr sv false Hex (1/5) [-3/10; 1/10] w' o' dd eq_refl Hf E)
      as [_ [lb [ub [Hb [[s Hs] _]]]]].
    assert (Hbb : lb = [Some 0; Some 0] /\ ub = [Some 1; Some 1]) by (destruct Hb as [[H _]|[_ [-> ->]]]; [discriminate H|split; reflexivity]).
    destruct Hbb as [-> ->]. destruct Hs as [r Hs]. 
    assert (Hadm : admissible two_world loss_ef [] [Some 0; Some 0] [Some 1; Some 1] 1 s /\ 1/5 <= inner [-3/10; 1/10] (s (e_w loss_ef))) by tauto.
    destruct Hadm as [Ha Hge]. specialize (Hno s Ha). lra.
  - destruct (H2 e eq_refl) as [->| ->]; [|reflexivity]. exfalso.
    destruct (proj1 H1 eq_refl (1/5) eq_refl) as [H|H]; [lra|]. specialize (H (Rabs (-3/10)) (or_introl eq_refl)).
    rewrite Rabs_left in H by lra. lra.
Qed.

(** a portfolio that gains 5% in every period has a CVaR of -5% *)
Lemma cvar_reachable : forall sv, exists w o d,
  cvar_init (MIn (MuArray [1/5; 1/10])) (RTable 2 [[Some (1/20); Some (1/20)]]) (1/2) (BPair (Some 0) (Some 1)) empty_world = (w, Ok (o, d)) /\
  (forall s, admissible w o [] (e_lb o) (e_ub o) 1 s -> cvar (cv_beta d) (cv_returns d) (s (e_w o)) < -1/25) /\
  snd (cvar_efficient_risk sv d (-1/25) false w o) = Err ValueError.
Proof.
  intros sv. eexists _, _, _. split; [unfold cvar_init; cbn -[validate_beta]; rewrite half_ok; reflexivity|]. split.
  - intros s Ha. apply admissible_two in Ha; [|reflexivity|reflexivity]. destruct Ha as [x [y [E [Hx [Hy Hs]]]]].
    change (cvar (1/2) [[1/20; 1/20]] (s 0%nat) < -1/25). rewrite E. unfold cvar, period_returns. cbn [map]. rewrite qret_two.
    unfold worst_mean. cbn [List.length sort_desc insert_desc]. change (INR 1) with 1. cbn [first].
    destruct (Rle_dec ((1 - 1/2) * 1) 1); lra.
  - unfold cvar_efficient_risk. rewrite fresh_step by (intros q Hq; cbn in Hq; contradiction). cbv iota.
    unfold bind at 2 3 4. cbn -[new_param bind]. unfold new_param, bind.
    cbn -[Rltb]. rewrite (proj2 (Rltb_true (-1/25) 0)) by lra. reflexivity.
Qed.

Lemma sharpe_type_error : forall sv w o u m rf, open_ef w o u -> e_mu o = Some m ->
  (exists x a, is_number rf x /\ In a m /\ x < a) -> (exists ic, In ic u /\ ~ ordinary (snd ic)) ->
  snd (max_sharpe sv rf w o) = Err TypeError.
Proof.
  intros sv w o u m rf Hop Em [x [a [Hx [Ha Hlt]]]] [ic [Hin Hno]]. apply (sharpe_other sv w o u m Hop Em).
  - intros H. specialize (H x Hx a Ha). lra.
  - intros HF. apply Hno. exact (proj1 (Forall_forall _ _) HF ic Hin).
Qed.
Lemma semi_tables : forall sv w o u m d mn, usual_solver sv -> open_ef w o u -> e_mu o = Some m ->
  rejects_exactly False (snd (min_semivariance sv d mn w o)) /\
  (forall ra, unused_name w o "risk_aversion" -> rejects_exactly (ra <= 0) (snd (semi_max_quadratic_utility sv d ra mn w o))) /\
  (forall t, unused_name w o "target_semivariance" -> rejects_exactly False (snd (semi_efficient_risk sv d t mn w o))) /\
  (forall t, unused_name w o "target_return" ->
     rejects_exactly (forall x, t = NFloat x -> x < 0 \/ all_smaller x (map Rabs m)) (snd (semi_efficient_return sv d t mn w o))).
Proof.
  intros sv w o u m d mn Hs Ho Em. split; [exact (semi_min_table sv Hs m w o u Ho Em d mn)|].
  split; [exact (fun ra => semi_utility_table sv Hs m w o u Ho Em d ra mn)|].
  split; [exact (fun t => semi_risk_table sv Hs m w o u Ho Em d t mn)|exact (fun t => semi_return_table sv Hs m w o u Ho Em d t mn)].
Qed.
Lemma cvar_tables : forall sv w o u m d mn, usual_solver sv -> open_ef w o u -> e_mu o = Some m ->
  rejects_exactly False (snd (min_cvar sv d mn w o)) /\
  (forall t, unused_name w o "target_return" -> rejects_exactly False (snd (cvar_efficient_return sv d t mn w o))) /\
  (forall t, unused_name w o "target_cvar" -> rejects_exactly (t < 0) (snd (cvar_efficient_risk sv d t mn w o))).
Proof.
  intros sv w o u m d mn Hs Ho Em. split; [exact (cvar_min_table sv Hs m w o u Ho Em d mn)|].
  split; [exact (fun t => cvar_return_table sv Hs m w o u Ho Em d t mn)|exact (fun t => cvar_risk_table sv Hs m w o u Ho Em d t mn)].
Qed.
Lemma cdar_tables : forall sv w o u m d mn, usual_solver sv -> open_ef w o u -> e_mu o = Some m ->
  rejects_exactly False (snd (min_cdar sv d mn w o)) /\
  (forall t, unused_name w o "target_return" -> rejects_exactly (t < 0) (snd (cdar_efficient_return sv d t mn w o))) /\
  (forall t, unused_name w o "target_cdar" -> rejects_exactly (t < 0) (snd (cdar_efficient_risk sv d t mn w o))).
Proof.
  intros sv w o u m d mn Hs Ho Em. split; [exact (cdar_min_table sv Hs m w o u Ho Em d mn)|].
  split; [exact (fun t => cdar_return_table sv Hs m w o u Ho Em d t mn)|exact (fun t => cdar_risk_table sv Hs m w o u Ho Em d t mn)].
Qed.
Lemma best_solver_usual : usual_solver best_solver.
Proof.
  intros sizes ps obj cs e H. unfold best_solver in H. destruct (ClassicalEpsilon.excluded_middle_informative _); [|discriminate H].
  cbv zeta in H. discriminate H.
Qed.
