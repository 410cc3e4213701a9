(** * If there is a best portfolio, a complete solver finds one (C25, C26, C28, C29, C33) *)
From Coq Require Import ZArith List String Bool Reals Lra Lia.
From Verif Require Import Num Py RBase PyLemmas MBase MConvex MEF SLin SBase SConvex SDown Sums PBase PConvex PEF PEF2 PEF3 PEF4 PEFW PDown PDown2.
Import ListNotations.
Local Open Scope R_scope.

Lemma solve_found : forall sv w o io e s, complete_solver sv -> e_opt o = None -> e_obj o = Some (io, e) ->
  optimal (w_sizes w) (par_values w) e (map snd (e_cons o)) s -> exists w' o' d, solve_and_output sv w o = (w', o', Ok d).
Proof.
  intros sv w o io e s Hsv Ho He Hopt. destruct (Hsv _ _ _ _ _ Hopt) as [s' [v V]].
  destruct (solve_output_run sv w o io e (e_cons o)) as [w' [o' [Er _]]]; [exact He|reflexivity|left; exact Ho|].
  rewrite V in Er. cbn [outcome] in Er. rewrite Er. eauto.
Qed.

Lemma min_volatility_found : forall sv w o u s, complete_solver sv -> open_ef w o u ->
  least w o u (e_lb o) (e_ub o) 1 (fun _ => True) (qform (e_cov o)) s ->
  exists w' o' d, min_volatility sv w o = (w', o', Ok d).
Proof.
  intros sv w o u s Hsv [Ho [[i [j Hc]] [Hl [Hu [Hn [Hq [Hm [Ha [Has Hus]]]]]]]]] [Hadm [_ Hmin]].
  unfold min_volatility, bind, get. rewrite check_cov_run by exact Hq. rewrite set_objective_full_run.
  unfold sum_is. rewrite add_constraint_open by exact Ho.
  match goal with |- context [solve_and_output sv ?a ?b] => set (w1 := a); set (o1 := b) end.
  assert (Hpv : par_values w1 = par_values w) by reflexivity.
  assert (Hcons : forall s, well_sized (w_sizes w) s -> (Forall (sat s (par_values w)) (map snd (e_cons o1)) <-> admissible w o u (e_lb o) (e_ub o) 1 s)).
  { intros s' Hs'. unfold o1. cbn [e_cons set_cons set_obj e_w]. rewrite Hc. cbn [app].
    rewrite map_cons, map_cons, map_app, !Forall_cons_iff', Forall_app. cbn [map snd]. rewrite Forall_map_snd, Forall_cons_iff'.
    rewrite (admissible_iff w o u (e_lb o) (e_ub o) 1 s' Hl Hu Hn Hs'). assert (Forall (sat s' (par_values w)) []) by constructor. tauto. }
  apply (solve_found sv w1 o1 _ _ s Hsv Ho eq_refl). rewrite Hpv. change (w_sizes w1) with (w_sizes w). split.
  - split; [apply Hadm|]. apply Hcons; [apply Hadm|exact Hadm].
  - intros s' [Hs' Hf]. apply Hcons in Hf; [|exact Hs']. rewrite !evals_add_all by (auto; apply scalar_quad).
    unfold portfolio_variance_e. rewrite !evals_quad. apply (Hmin s' Hf I).
Qed.

Section Found.
  Context (sv : solver_t) (w : world) (o : ef) (u : list (nat * con)) (mn : bool) (m : list R).
  Context (Hsv : complete_solver sv) (Hop : open_ef w o u) (Em : e_mu o = Some m).
  Let sum := if mn then 0 else 1.

  Lemma utility_found : forall ra, 0 < ra -> fresh_name w o "risk_aversion" ->
    (exists lb ub s, bounds_in_force mn o lb ub /\ least w o u lb ub sum (fun _ => True) (fun x => - (inner m x - ra / 2 * qform (e_cov o) x)) s) ->
    exists w' o' d, max_quadratic_utility sv ra mn w o = (w', o', Ok d).
  Proof.
    intros ra Hra Hf [lb0 [ub0 [s0 [Hb0 Hls]]]]. pose proof Hop as [Ho [[i [j Hc]] [Hl [Hu [Hn [Hq [Hm [Ha [Has Hus]]]]]]]]].
    unfold max_quadratic_utility. rewrite (proj2 (Rleb_false ra 0)) by lra.
    unfold bind at 1. rewrite not_defined_run by exact Hf.
    unfold bind at 1 2. unfold get. unfold bind at 1. rewrite (need_mu_run w o m Em (Hm m Em)).
    unfold bind at 1. rewrite check_cov_run by exact Hq.
    unfold bind at 1. rewrite new_param_run by (intros; lra).
    unfold bind at 1. rewrite set_objective_full_run. cbn [w_sizes w_val w_params w_next].
    match goal with |- context [make_weight_sum_constraint mn ?a ?b] => set (w1 := a); set (o1 := b) end.
    assert (Hpv : par_values w1 = par_values w ++ [ra]) by (unfold w1, par_values; cbn [w_params]; rewrite map_app; reflexivity).
    apply (weight_sum_answers sv mn w w1 o o1 u [] i j (w_next w) (add_all (quadratic_utility_e (EVar (e_w o)) m (e_cov o) (List.length (w_params w)) true) (e_add o)) (fun _ => True)
      (fun x => - (inner m x - ra / 2 * qform (e_cov o) x)) (fun s => - (inner m (s (e_w o)) - ra / 2 * qform (e_cov o) (s (e_w o)))) [ra] []
      Hsv Hop Ho eq_refl eq_refl eq_refl eq_refl eq_refl) with (lb0 := lb0) (ub0 := ub0) (s0 := s0).
    - unfold o1. cbn [e_cons set_cons set_obj e_w]. rewrite Hc, app_nil_r. reflexivity.
    - unfold w1. cbn [w_sizes]. symmetry; apply app_nil_r.
    - exact Hpv.
    - intros s Hs. rewrite evals_add_all by (auto; apply scalar_utility). rewrite evals_utility. cbn [sign_of].
      rewrite (penalty_world w w1 s (e_add o) [ra] Hpv Has). rewrite Hpv, par_new. lra.
    - intros s Hs Ht _. split; [exact I|lra].
    - intros s Hs Ht _. exists s. split; [exact Hs|]. split; [auto|]. split; [constructor|lra].
    - exact Hb0.
    - exact Hls.
  Qed.

  Lemma risk_found : forall pinv tg t, target_of tg = Some t -> 0 <= t -> below_global_min pinv (e_cov o) t = false -> fresh_name w o "target_variance" ->
    (exists lb ub s, bounds_in_force mn o lb ub /\ least w o u lb ub sum (fun x => qform (e_cov o) x <= t * t) (fun x => - inner m x) s) ->
    exists w' o' d, efficient_risk sv pinv tg mn w o = (w', o', Ok d).
  Proof.
    intros pinv tg t Et Ht Hbg Hf [lb0 [ub0 [s0 [Hb0 Hls]]]]. pose proof Hop as [Ho [[i [j Hc]] [Hl [Hu [Hn [Hq [Hm [Ha [Has Hus]]]]]]]]].
    unfold efficient_risk. rewrite Et. rewrite (proj2 (Rltb_false t 0)) by lra.
    unfold bind at 1, get. rewrite Hbg. unfold bind at 1. rewrite not_defined_run by exact Hf.
    rewrite (need_mu_run w o m Em (Hm m Em)) || (unfold bind at 1 2; rewrite (need_mu_run w o m Em (Hm m Em))).
    unfold bind at 1. rewrite set_objective_run. unfold bind at 1. rewrite check_cov_run by exact Hq.
    unfold bind at 1. rewrite set_objective_full_run. unfold bind at 1. rewrite new_param_run by (intros; nra).
    unfold bind at 1. rewrite add_constraint_open by exact Ho. cbn [w_sizes w_val w_params w_next].
    match goal with |- context [make_weight_sum_constraint mn ?a ?b] => set (w1 := a); set (o1 := b) end.
    assert (Hpv : par_values w1 = par_values w ++ [t * t]) by (unfold w1, par_values; cbn [w_params]; rewrite map_app; reflexivity).
    assert (HX : forall s, Forall (fun ic : nat * con => sat s (par_values w1) (snd ic)) (skipn (List.length (e_cons o)) (e_cons o1)) <-> qform (e_cov o) (s (e_w o)) <= t * t).
    { intros s. unfold o1. cbn [e_cons set_cons set_obj]. rewrite skipn_app, skipn_all, Nat.sub_diag. cbn [skipn app].
      rewrite Forall_cons_iff'. cbn [snd]. rewrite (sat_ineq1 s _ _ _ (qform (e_cov o) (s (e_w o))) (t * t)).
      - split; [tauto|intros; split; [assumption|constructor]].
      - unfold portfolio_variance_e. cbn [eval]. rewrite quad_qform. reflexivity.
      - cbn [eval]. rewrite Hpv, par_new. reflexivity. }
    eapply (weight_sum_answers sv mn w w1 o o1 u (skipn (List.length (e_cons o)) (e_cons o1)) i j _ _ (fun x => qform (e_cov o) x <= t * t)
      (fun x => - inner m x) (fun s => - inner m (s (e_w o))) [t * t] []
      Hsv Hop Ho eq_refl eq_refl eq_refl eq_refl eq_refl) with (lb0 := lb0) (ub0 := ub0) (s0 := s0).
    - unfold o1. cbn [e_cons set_cons set_obj]. rewrite skipn_app, skipn_all, Nat.sub_diag. cbn [skipn app]. rewrite Hc at 1. reflexivity.
    - unfold w1. cbn [w_sizes]. symmetry; apply app_nil_r.
    - exact Hpv.
    - intros s Hs. rewrite evals_add_all by (auto; apply scalar_ret). rewrite evals_ret. cbn [sign_of]. cbn [e_add e_w set_obj set_cons].
      rewrite (penalty_world w w1 s (e_add o) [t * t] Hpv Has). lra.
    - intros s Hs Htt HXs. split; [apply HX; exact HXs|lra].
    - intros s Hs Htt Hok. exists s. split; [exact Hs|]. split; [auto|]. split; [apply HX; exact Hok|lra].
    - exact Hb0.
    - exact Hls.
  Qed.
  (** with an exact pseudo-inverse the check lets every reachable target pass *)
  Lemma risk_check_passes : forall pinv t, (0 < e_n o)%nat -> psd (e_n o) (e_cov o) -> symmetric (e_n o) (e_cov o) ->
    right_inverse (e_n o) (e_cov o) (pinv (e_cov o)) -> 0 <= t ->
    (exists x, List.length x = e_n o /\ total x = 1 /\ qform (e_cov o) x <= t * t) -> below_global_min pinv (e_cov o) t = false.
  Proof.
    intros pinv t Hn Hp Hs Hi Ht [x [Lx [Tx Qx]]]. destruct (below_global_min pinv (e_cov o) t) eqn:E; [exfalso|reflexivity].
    pose proof (below_global_min_sound (e_n o) pinv (e_cov o) t Hn Hp Hs Hi E x Lx Tx) as Hlt.
    apply sqrt_le_1_alt in Qx. rewrite sqrt_square in Qx by exact Ht. lra.
  Qed.

  Lemma return_found : forall t s1, e_maxret o = None -> fresh_name w o "target_return" ->
    admissible w o u (e_lb o) (e_ub o) 1 s1 -> (forall s, admissible w o u (e_lb o) (e_ub o) 1 s -> inner m (s (e_w o)) <= inner m (s1 (e_w o))) ->
    t <= inner m (s1 (e_w o)) -> exact_solver sv ->
    (exists lb ub s, bounds_in_force mn o lb ub /\ least w o u lb ub sum (fun x => t <= inner m x) (qform (e_cov o)) s) ->
    exists w' o' d, efficient_return sv (NFloat t) mn w o = (w', o', Ok d).
  Proof.
    intros t s1 Hmr Hf Hs1 Hbest Ht Hex [lb0 [ub0 [s0 [Hb0 Hls]]]]. pose proof Hop as [Ho [[i [j Hc]] [Hl [Hu [Hn [Hq [Hm [Ha [Has Hus]]]]]]]]].
    destruct (max_return_pre sv w o u m Hop Em w o) as [w0 [Ecp [Es Ep]]].
    { split; [reflexivity|]. split; [reflexivity|]. exists None. rewrite <- Hmr. destruct o; reflexivity. }
    assert (Hopt : optimal (w_sizes w) (par_values w) (portfolio_return_e (EVar (e_w o)) m true) (map snd (e_cons o) ++ [CEq (ESum (EVar (e_w o))) (EScalar 1)]) s1).
    { assert (Hcons : forall s, well_sized (w_sizes w) s -> (Forall (sat s (par_values w)) (map snd (e_cons o) ++ [CEq (ESum (EVar (e_w o))) (EScalar 1)]) <-> admissible w o u (e_lb o) (e_ub o) 1 s)).
      { intros s Hs. rewrite Hc. cbn [app map snd]. rewrite !Forall_cons_iff', Forall_app, Forall_map_snd, Forall_cons_iff'.
        rewrite (admissible_iff w o u (e_lb o) (e_ub o) 1 s Hl Hu Hn Hs). assert (Forall (sat s (par_values w)) []) by constructor. tauto. }
      split; [split; [apply Hs1|apply Hcons; [apply Hs1|exact Hs1]]|]. intros s [Hs Hfe]. apply Hcons in Hfe; [|exact Hs].
      rewrite !evals_ret. cbn [sign_of]. specialize (Hbest s Hfe). lra. }
    destruct (Hsv _ _ _ _ _ Hopt) as [s' [v V]]. unfold maxret_result, maxret_answer in Ecp. rewrite V in Ecp.
    destruct (max_return_copy sv w o u m w0 o (- v) Hex Hop Em Ecp) as [_ [_ [_ [_ Hge]]]]. specialize (Hge s1 Hs1).
    unfold efficient_return. unfold bind at 1, get. rewrite Hmr. cbn [falsy when]. unfold bind at 1. unfold bind at 1. rewrite Ecp. unfold modify.
    unfold bind at 1. cbn [e_maxret set_maxret]. rewrite (proj2 (Rltb_false (- v) t)) by lra.
    set (oo := set_maxret (Some (- v)) o).
    assert (Hf0 : fresh_name w0 oo "target_return") by (intros p Hp; unfold named; rewrite Ep; apply Hf; exact Hp).
    unfold bind at 1. rewrite not_defined_run by exact Hf0.
    unfold bind at 1 2. rewrite check_cov_run by exact Hq.
    unfold bind at 1. rewrite set_objective_run.
    unfold bind at 1. rewrite (need_mu_run _ _ m) by (try exact Em; apply Hm; exact Em).
    unfold bind at 1. rewrite set_objective_full_run. unfold bind at 1. rewrite new_param_run by discriminate.
    unfold bind at 1. rewrite add_constraint_open by exact Ho. cbn [w_sizes w_val w_params w_next]. rewrite Es, Ep.
    match goal with |- context [make_weight_sum_constraint mn ?a ?b] => set (w1 := a); set (o1 := b) end.
    assert (Hpv : par_values w1 = par_values w ++ [t]) by (unfold w1, par_values; cbn [w_params]; rewrite map_app; reflexivity).
    assert (HX : forall s, Forall (fun ic : nat * con => sat s (par_values w1) (snd ic)) (skipn (List.length (e_cons o)) (e_cons o1)) <-> t <= inner m (s (e_w o))).
    { intros s. unfold o1, oo. cbn [e_cons set_cons set_obj set_maxret]. rewrite skipn_app, skipn_all, Nat.sub_diag. cbn [skipn app].
      rewrite Forall_cons_iff'. cbn [snd]. rewrite (sat_ineq1 s _ _ _ t (inner m (s (e_w o)))).
      - split; [tauto|intros; split; [assumption|constructor]].
      - cbn [eval]. rewrite Hpv, par_new. reflexivity.
      - unfold portfolio_return_e, EScalar. cbn [eval bop map sign_of]. rewrite dot_inner. f_equal. cbn [e_w set_maxret set_obj]. lra. }
    eapply (weight_sum_answers sv mn w w1 o o1 u (skipn (List.length (e_cons o)) (e_cons o1)) i j _ _ (fun x => t <= inner m x)
      (qform (e_cov o)) (fun s => qform (e_cov o) (s (e_w o))) [t] []
      Hsv Hop Ho eq_refl eq_refl eq_refl eq_refl eq_refl) with (lb0 := lb0) (ub0 := ub0) (s0 := s0).
    - unfold o1, oo. cbn [e_cons set_cons set_obj set_maxret]. rewrite skipn_app, skipn_all, Nat.sub_diag. cbn [skipn app]. rewrite Hc at 1. reflexivity.
    - unfold w1. cbn [w_sizes]. symmetry; apply app_nil_r.
    - exact Hpv.
    - intros s Hs. rewrite evals_add_all by (auto; apply scalar_quad). unfold portfolio_variance_e. rewrite evals_quad.
      unfold oo. cbn [e_cov e_w e_add set_maxret set_obj]. rewrite (penalty_world w w1 s (e_add o) [t] Hpv Has). reflexivity.
    - intros s Hs Htt HXs. split; [apply HX; exact HXs|lra].
    - intros s Hs Htt Hok. exists s. split; [exact Hs|]. split; [auto|]. split; [apply HX; exact Hok|lra].
    - exact Hb0.
    - exact Hls.
  Qed.
End Found.
