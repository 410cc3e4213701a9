(** * Solvers of limited accuracy: the methods of the mean-variance optimizer *)
From Coq Require Import ZArith List String Bool Reals Lra Lia.
From Verif Require Import Num Py RBase PyLemmas MBase MConvex MEF SLin SBase SConvex SNear Sums PBase PConvex PEF PNear1.
Import ListNotations.
Local Open Scope R_scope.

Lemma par_last : forall w x, nth (List.length (w_params w)) (par_values w ++ [x]) 0 = x.
Proof.
  intros w x. rewrite app_nth2 by (unfold par_values; rewrite map_length; lia).
  unfold par_values. rewrite map_length, Nat.sub_diag. reflexivity.
Qed.

Lemma min_volatility_near : forall t g sv w o u w' o' d, accurate_solver t g sv -> open_ef w o u ->
  min_volatility sv w o = (w', o', Ok d) ->
  near_best t g w o u (e_lb o) (e_ub o) 1 (fun _ => True) (fun _ => True) (qform (e_cov o)) (e_weights o') d.
Proof.
  intros t g sv w o u w' o' d Hsv Hop H. pose proof Hop as [Ho [_ [Hl [Hu [Hn [Hq [Hm [Ha [Has Hus]]]]]]]]].
  apply (min_volatility_posed sv w o u) in H; [|exact Hop].
  eapply posed_near; [exact Hsv|exact Hl|exact Hu|exact Hn|exact Hus| | |exact H]; cbv beta; intros; [exact I|constructor].
Qed.

Lemma efficient_risk_near : forall t g sv pinv w o u m tg mn w' o' d, accurate_solver t g sv -> open_ef w o u ->
  e_mu o = Some m -> fresh_name w o "target_variance" ->
  efficient_risk sv pinv tg mn w o = (w', o', Ok d) ->
  exists k lb ub, target_of tg = Some k /\ 0 <= k /\ bounds_in_force mn o lb ub /\
    near_best t g w o u lb ub (if mn then 0 else 1)
      (fun x => qform (e_cov o) x <= k * k + t) (fun x => qform (e_cov o) x <= k * k)
      (fun x => - inner m x) (e_weights o') d.
Proof.
  intros t g sv pinv w o u m tg mn w' o' d Hsv Hop Em Hf H.
  pose proof Hop as [Ho [_ [Hl [Hu [Hn [Hq [Hm [Ha [Has Hus]]]]]]]]].
  apply (efficient_risk_posed sv pinv w o u m) in H; [|exact Hop|exact Em|exact Hf].
  destruct H as [k [lb [ub [E1 [E2 [Hbf [L1 [L2 H]]]]]]]]. exists k, lb, ub.
  split; [exact E1|]. split; [exact E2|]. split; [exact Hbf|].
  eapply posed_near with (cost := fun x => - inner m x); [exact Hsv|exact L1|exact L2|exact Hn|exact Hus| | |exact H]; cbv beta; intros s Hs Hx.
  - rewrite Forall_cons_iff' in Hx. destruct Hx as [Hx _]. eapply meets_ineq1 in Hx; [exact Hx| |].
    + cbn [eval]. rewrite quad_qform. reflexivity.
    + cbn [eval]. rewrite par_last. reflexivity.
  - constructor; [|constructor]. eapply sat_ineq1; [| |exact Hx].
    + cbn [eval]. rewrite quad_qform. reflexivity.
    + cbn [eval]. rewrite par_last. reflexivity.
Qed.

Lemma utility_near : forall t g sv w o u m ra mn w' o' d, accurate_solver t g sv -> open_ef w o u ->
  e_mu o = Some m -> fresh_name w o "risk_aversion" ->
  max_quadratic_utility sv ra mn w o = (w', o', Ok d) ->
  0 < ra /\ exists lb ub, bounds_in_force mn o lb ub /\
    near_best t g w o u lb ub (if mn then 0 else 1) (fun _ => True) (fun _ => True)
      (fun x => - (inner m x - ra / 2 * qform (e_cov o) x)) (e_weights o') d.
Proof.
  intros t g sv w o u m ra mn w' o' d Hsv Hop Em Hf H.
  pose proof Hop as [Ho [_ [Hl [Hu [Hn [Hq [Hm [Ha [Has Hus]]]]]]]]].
  apply (utility_posed sv w o u m) in H; [|exact Hop|exact Em|exact Hf].
  destruct H as [E1 [lb [ub [Hbf [L1 [L2 H]]]]]]. split; [exact E1|]. exists lb, ub. split; [exact Hbf|].
  eapply posed_near with (cost := fun x => - (inner m x - ra / 2 * qform (e_cov o) x));
    [exact Hsv|exact L1|exact L2|exact Hn|exact Hus| | |exact H]; cbv beta; intros; [exact I|constructor].
Qed.

Lemma efficient_return_near : forall t g sv w o u m tg mn w' o' d, accurate_solver t g sv -> open_ef w o u ->
  e_mu o = Some m -> fresh_name w o "target_return" ->
  efficient_return sv tg mn w o = (w', o', Ok d) ->
  exists k lb ub, tg = NFloat k /\ bounds_in_force mn o lb ub /\
    near_best t g w o u lb ub (if mn then 0 else 1)
      (fun x => k - t <= inner m x) (fun x => k <= inner m x)
      (qform (e_cov o)) (e_weights o') d.
Proof.
  intros t g sv w o u m tg mn w' o' d Hsv Hop Em Hf H.
  pose proof Hop as [Ho [_ [Hl [Hu [Hn [Hq [Hm [Ha [Has Hus]]]]]]]]].
  apply (efficient_return_posed sv w o u m) in H; [|exact Hop|exact Em|exact Hf].
  destruct H as [k [lb [ub [E1 [Hbf [L1 [L2 H]]]]]]]. exists k, lb, ub.
  split; [exact E1|]. split; [exact Hbf|].
  assert (He : forall s ps, eval s ps (portfolio_return_e (EVar (e_w o)) m false) = [inner m (s (e_w o))]).
  { intros s ps. unfold portfolio_return_e, EScalar. cbn [eval bop map sign_of]. rewrite dot_inner. f_equal. lra. }
  eapply posed_near with (cost := qform (e_cov o)); [exact Hsv|exact L1|exact L2|exact Hn|exact Hus| | |exact H]; cbv beta; intros s Hs Hx.
  - rewrite Forall_cons_iff' in Hx. destruct Hx as [Hx _]. eapply meets_ineq1 in Hx; [|cbn [eval]; rewrite par_last; reflexivity|apply He]. lra.
  - constructor; [|constructor]. eapply sat_ineq1; [cbn [eval]; rewrite par_last; reflexivity|apply He|exact Hx].
Qed.

(** the highest return that [efficient_return] compares its target with *)
Lemma max_return_near : forall t g sv w o u m w' o' v, accurate_solver t g sv -> open_ef w o u -> e_mu o = Some m ->
  on_copy (max_return sv) w o = (w', o', Ok v) ->
  (exists s, nearly_admissible t w o u (e_lb o) (e_ub o) 1 s /\ v <= inner m (s (e_w o)) + g) /\
  (forall s, admissible w o u (e_lb o) (e_ub o) 1 s -> inner m (s (e_w o)) <= v + 2 * g).
Proof.
  intros t g sv w o u m w' o' v Hsv Hop Em H.
  pose proof Hop as [Ho [_ [Hl [Hu [Hn [Hq [Hm [Ha [Has Hus]]]]]]]]].
  destruct (max_return_copy_run sv w o u m w' o' v Hop Em H) as [_ [_ [_ [s [val [cs [E [Ev Hcs]]]]]]]].
  destruct (Hsv _ _ _ _ _ _ E) as [H1 [H2 [H3 H4]]]. rewrite evals_ret in H4. cbn [sign_of] in H4.
  assert (H5 : - g <= val - -1 * inner m (s (e_w o)) <= g) by (split; [apply Ropp_le_cancel; rewrite Ropp_involutive; eapply Rle_trans; [|exact H4]; rewrite <- Rabs_Ropp; apply RRle_abs|eapply Rle_trans; [apply RRle_abs|exact H4]]).
  pose proof (well_sized_w w o s H1 Hn) as Hx. split.
  - exists s. split; [|lra]. apply Hcs in H2. destruct H2 as [B1 [B2 [B3 B4]]].
    split; [exact H1|]. split; [split|split; [|exact B4]].
    + apply meets_lower in B1; [exact B1|congruence].
    + apply meets_upper in B2; [exact B2|congruence].
    + apply sum_is_meets in B3. exact B3.
  - intros s' [A1 [[A2 A3] [A4 A5]]]. pose proof (well_sized_w w o s' A1 Hn) as Hx'.
    assert (Hf : feasible (w_sizes w) (par_values w) cs s').
    { split; [exact A1|]. apply Hcs. split; [apply sat_lower; congruence|]. split; [apply sat_upper; congruence|].
      split; [apply sum_is_sat; exact A4|exact A5]. }
    specialize (H3 s' Hf). rewrite !evals_ret in H3. cbn [sign_of] in H3. lra.
Qed.

Lemma efficient_return_refusal : forall t g sv w o u m k mn w' o' r v w1 o1,
  accurate_solver t g sv -> open_ef w o u -> e_mu o = Some m -> e_maxret o = None ->
  on_copy (max_return sv) w o = (w1, o1, Ok v) ->
  efficient_return sv (NFloat k) mn w o = (w', o', r) ->
  (v < k -> (forall s, admissible w o u (e_lb o) (e_ub o) 1 s -> inner m (s (e_w o)) < k + 2 * g) /\
            r = Err ValueError /\ e_weights o' = e_weights o) /\
  (k <= v -> exists s, nearly_admissible t w o u (e_lb o) (e_ub o) 1 s /\ k - g <= inner m (s (e_w o))).
Proof.
  intros t g sv w o u m k mn w' o' r v w1 o1 Hsv Hop Em Hmr Hcp H.
  destruct (max_return_near t g sv w o u m w1 o1 v Hsv Hop Em Hcp) as [[s [Hs1 Hs2]] Hall].
  destruct (max_return_copy_run sv w o u m w1 o1 v Hop Em Hcp) as [-> _]. split.
  - intros Hlt. split; [intros s' Hs'; specialize (Hall s' Hs'); lra|].
    unfold efficient_return, bind, get, when in H. rewrite Hmr in H. cbn [falsy] in H. rewrite Hcp in H.
    unfold modify in H. cbn [e_maxret set_maxret] in H.
    assert (E : Rltb v k = true) by (apply Rltb_true; exact Hlt). rewrite E in H.
    inversion H; subst. split; reflexivity.
  - intros Hle. exists s. split; [exact Hs1|lra].
Qed.

(** any convex objective *)
Lemma convex_objective_near : forall t g sv w o u f b w' o' d, accurate_solver t g sv -> open_ef w o u ->
  (forall v, scalar_expr (f v)) ->
  convex_objective sv f b w o = (w', o', Ok d) ->
  exists s r, e_weights o' = Some r /\ Forall2 (rounded 16) (s (e_w o)) r /\
    d = dict_of_pairs (combine (b_tickers (e_base o)) r) /\
    well_sized (w_sizes w) s /\ nearly_within t (e_lb o) (e_ub o) (s (e_w o)) /\
    (b = true -> Rabs (total (s (e_w o)) - 1) <= t) /\
    Forall (fun ic => meets t s (par_values w) (snd ic)) u /\
    forall s', well_sized (w_sizes w) s' -> within (e_lb o) (e_ub o) (s' (e_w o)) ->
      (b = true -> total (s' (e_w o)) = 1) -> Forall (fun ic => sat s' (par_values w) (snd ic)) u ->
      evals s (par_values w) (f (e_w o)) + penalty s (par_values w) (e_add o)
      <= evals s' (par_values w) (f (e_w o)) + penalty s' (par_values w) (e_add o) + g.
Proof.
  intros t g sv w o u f b w' o' d Hsv [Ho [[i [j Hc]] [Hl [Hu [Hn [Hq [Hm [Ha [Has Hus]]]]]]]]] Hsc H.
  unfold convex_objective, bind, get in H. rewrite set_objective_full_run in H.
  set (e := add_all (f (e_w o)) (e_add o)) in *.
  assert (Hgen : exists w1 o1 io, e_opt o1 = None /\ e_obj o1 = Some (io, e) /\ e_w o1 = e_w o /\ e_base o1 = e_base o /\
     w_sizes w1 = w_sizes w /\ par_values w1 = par_values w /\
     e_cons o1 = (i, lower_con (e_lb o) (e_w o)) :: (j, upper_con (e_ub o) (e_w o)) :: u ++
        (if b then [(S (w_next w), CEq (ESum (EVar (e_w o))) (EScalar 1))] else []) /\
     solve_and_output sv w1 o1 = (w', o', Ok d)).
  { destruct b; cbn [when] in H.
    - unfold sum_is in H. rewrite add_constraint_open in H by exact Ho.
      eexists _, _, _. split; [|split; [|split; [|split; [|split; [|split; [|split; [|exact H]]]]]]]; try reflexivity; try exact Ho.
      cbn [e_cons set_cons set_obj e_w w_next]. rewrite Hc. reflexivity.
    - eexists _, _, _. split; [|split; [|split; [|split; [|split; [|split; [|split; [|exact H]]]]]]]; try reflexivity; try exact Ho.
      cbn [e_cons set_cons set_obj e_w w_next]. rewrite Hc, app_nil_r. reflexivity. }
  destruct Hgen as [w1 [o1 [io [G1 [G2 [G3 [G4 [G5 [G6 [G7 G8]]]]]]]]]].
  destruct (solve_output_open sv w1 o1 io e w' o' d G1 G2 G8) as [s [v [E1 [E2 [E3 _]]]]].
  rewrite G3 in *. rewrite G4 in E3. exists s, (map round16 (s (e_w o))). split; [exact E2|].
  split; [apply round16_rounded|]. split; [exact E3|].
  destruct (Hsv _ _ _ _ _ _ E1) as [Hs1 [Hs2 [Hopt _]]]. rewrite G5, G6 in *.
  assert (Hall : forall P : con -> Prop, Forall P (map snd (e_cons o1)) <->
     P (lower_con (e_lb o) (e_w o)) /\ P (upper_con (e_ub o) (e_w o)) /\
     (b = true -> P (sum_con o 1)) /\ Forall (fun ic => P (snd ic)) u).
  { intros P. rewrite G7. rewrite map_cons, map_cons, map_app, !Forall_cons_iff', Forall_app. cbn [map snd].
    rewrite !Forall_map_snd.
    assert (Hsum : Forall (fun ic : nat * con => P (snd ic)) (if b then [(S (w_next w), CEq (ESum (EVar (e_w o))) (EScalar 1))] else [])
      <-> (b = true -> P (sum_con o 1))).
    { destruct b.
      - rewrite Forall_cons_iff'. cbn [snd]. split; [tauto|intros Hb; split; [apply Hb; reflexivity|constructor]].
      - split; [discriminate|constructor]. }
    rewrite Hsum. tauto. }
  pose proof (well_sized_w w o s Hs1 Hn) as Hx.
  apply Hall in Hs2. destruct Hs2 as [B1 [B2 [B3 B4]]].
  split; [exact Hs1|]. split; [split; [apply meets_lower in B1; [exact B1|congruence]|apply meets_upper in B2; [exact B2|congruence]]|].
  split; [intros Hb; apply B3 in Hb; apply sum_is_meets in Hb; exact Hb|]. split; [exact B4|].
  intros s' Hs' [A1 A2] A3 A4. pose proof (well_sized_w w o s' Hs' Hn) as Hx'.
  rewrite <- !evals_add_all by auto. apply Hopt. split; [exact Hs'|]. apply Hall.
  split; [apply sat_lower; congruence|]. split; [apply sat_upper; congruence|].
  split; [intros Hb; apply sum_is_sat; apply A3; exact Hb|exact A4].
Qed.
