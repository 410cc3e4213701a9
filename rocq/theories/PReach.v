(** * efficient_risk and reachable targets (C21, C26, C27), in terms of portfolios only *)
From Coq Require Import List String Bool Reals Lra Lia Arith.
From Verif Require Import Num Py RBase SLin SBase MBase MConvex MEF SConvex PConvex PEF PEFW PEF5 PPrep SPrep.
Import ListNotations.
Local Open Scope R_scope.

(** with its data in order and the check passed, a call fails only in the solver *)
Lemma risk_past_check : forall sv pinv tg t mn w o u m w' o' e, open_ef w o u -> e_mu o = Some m -> fresh_name w o "target_variance" ->
  target_of tg = Some t -> 0 <= t -> below_global_min pinv (e_cov o) t = false ->
  efficient_risk sv pinv tg mn w o = (w', o', Err e) -> e = OptimizationError \/ exists a b c d, sv a b c d = ARaise e.
Proof.
  intros sv pinv tg t mn w o u m w' o' e Hop Em Hf Et Ht Hbg H. pose proof Hop as [Ho [[i [j Hc]] [Hl [Hu [Hn [Hq [Hm [Ha [Has Hus]]]]]]]]].
  unfold efficient_risk in H. rewrite Et in H. rewrite (proj2 (Rltb_false t 0)) in H by lra.
  unfold bind at 1, get in H. rewrite Hbg in H. unfold bind at 1 in H. rewrite not_defined_run in H by exact Hf.
  rewrite (need_mu_run w o m Em (Hm m Em)) in H || (unfold bind at 1 2 in H; rewrite (need_mu_run w o m Em (Hm m Em)) in H).
  unfold bind at 1 in H. rewrite set_objective_run in H. unfold bind at 1 in H. rewrite check_cov_run in H by exact Hq.
  unfold bind at 1 in H. rewrite set_objective_full_run in H. unfold bind at 1 in H. rewrite new_param_run in H by (intros; nra).
  unfold bind at 1 in H. rewrite add_constraint_open in H by exact Ho. cbn [w_sizes w_val w_params w_next] in H.
  match type of H with context [make_weight_sum_constraint mn ?a ?b] => set (w1 := a) in H; set (o1 := b) in H end.
  destruct (weight_sum_run mn w1 o1 (skipn 2 (e_cons o1)) i j) as [w2 [o2 [lb [ub [E [E1 [E2 [[B1 [B2 [B3 [B4 [B5 [B6 _]]]]]] _]]]]]]]];
    [exact Ho|unfold o1; cbn [e_cons set_cons set_obj e_lb e_ub e_w]; rewrite Hc; reflexivity|exact Hl|exact Hu|].
  rewrite E in H. unfold solve_and_output, solve_opt, bind, get in H. rewrite B4, B6 in H.
  unfold o1 in H at 1. cbn [e_obj set_cons set_obj] in H. cbn [e_opt] in H.
  assert (Hno : e_opt o1 = None) by exact Ho. rewrite Hno in H. unfold modify, ret, world_get in H.
  match type of H with context [sv ?a ?b ?c ?d] => destruct (sv a b c d) as [s v|upd|ex] eqn:V end.
  - unfold output, bind, get, lift_res in H. cbn in H. discriminate H.
  - inversion H; subst. left; reflexivity.
  - destruct ex; inversion H; subst; auto; right; eexists _, _, _, _; exact V.
Qed.

Section Target.
  Context (sv : solver_t) (pinv : list (list R) -> list (list R)) (mn : bool) (w : world) (o : ef) (u : list (nat * con)) (m : list R).
  Context (Hop : open_ef w o u) (Em : e_mu o = Some m).
  Context (Hn : (0 < e_n o)%nat) (Hp : psd (e_n o) (e_cov o)) (Hs : symmetric (e_n o) (e_cov o)) (Hi : right_inverse (e_n o) (e_cov o) (pinv (e_cov o))).

  Theorem risk_reachable : forall tg t w' o' e, target_of tg = Some t -> 0 <= t -> fresh_name w o "target_variance" ->
    (exists x, List.length x = e_n o /\ total x = 1 /\ qform (e_cov o) x <= t * t) ->
    efficient_risk sv pinv tg mn w o = (w', o', Err e) -> e = OptimizationError \/ exists a b c d, sv a b c d = ARaise e.
  Proof using Hop Em Hn Hp Hs Hi.
    intros tg t w' o' e Et Ht Hf Hx H. eapply risk_past_check; try eassumption. apply risk_check_passes; assumption.
  Qed.
  Theorem risk_rejected : forall tg t w' o', target_of tg = Some t -> 0 <= t -> fresh_name w o "target_variance" ->
    (forall a b c d, sv a b c d <> ARaise ValueError) ->
    efficient_risk sv pinv tg mn w o = (w', o', Err ValueError) ->
    forall x, List.length x = e_n o -> total x = 1 -> t < sqrt (qform (e_cov o) x).
  Proof using Hop Em Hn Hp Hs Hi.
    intros tg t w' o' Et Ht Hf Hsv H. destruct (below_global_min pinv (e_cov o) t) eqn:E.
    - apply (below_global_min_sound (e_n o) pinv (e_cov o) t Hn Hp Hs Hi E).
    - exfalso. destruct (risk_past_check _ _ _ _ _ _ _ _ _ _ _ _ Hop Em Hf Et Ht E H) as [F|[a [b [c [d F]]]]]; [discriminate F|exact (Hsv _ _ _ _ F)].
  Qed.
  Theorem risk_found_reachable : forall tg t, complete_solver sv -> target_of tg = Some t -> 0 <= t -> fresh_name w o "target_variance" ->
    (exists x, List.length x = e_n o /\ total x = 1 /\ qform (e_cov o) x <= t * t) ->
    (exists lb ub s, bounds_in_force mn o lb ub /\
       least w o u lb ub (if mn then 0 else 1) (fun x => qform (e_cov o) x <= t * t) (fun x => - inner m x) s) ->
    exists w' o' d, efficient_risk sv pinv tg mn w o = (w', o', Ok d).
  Proof using Hop Em Hn Hp Hs Hi.
    intros tg t Hc Et Ht Hf Hx Hl. eapply risk_found; try eassumption. apply risk_check_passes; assumption.
  Qed.
End Target.
Theorem clash_risk_reachable : forall sv pinv tg t mn w o, target_of tg = Some t -> 0 <= t ->
  (0 < e_n o)%nat -> psd (e_n o) (e_cov o) -> symmetric (e_n o) (e_cov o) -> right_inverse (e_n o) (e_cov o) (pinv (e_cov o)) ->
  (exists x, List.length x = e_n o /\ total x = 1 /\ qform (e_cov o) x <= t * t) -> clashes w o "target_variance" ->
  efficient_risk sv pinv tg mn w o = (w, o, Err InstantiationError).
Proof. intros. eapply clash_risk; try eassumption. apply risk_check_passes; assumption. Qed.
