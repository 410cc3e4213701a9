(** * Solvers of limited accuracy: conditional drawdown *)
From Coq Require Import ZArith List String Bool Reals Lra Lia.
From Verif Require Import Num Py RBase PyLemmas MBase MConvex MEF MDown SLin SBase SConvex SDown SNear Sums PBase PConvex PEF PEF2 PEF3 PEF4 PRisk PDown PDown2 PDown3 PNear1 PNear4.
Import ListNotations.
Local Open Scope R_scope.

(** the chain of drawdowns, every link off by at most [t] *)
Fixpoint near_chain (t u0 : R) (rs us : list R) : Prop :=
  match rs, us with
  | r :: rs', v :: us' => u0 - r <= v + t /\ 0 <= v + t /\ near_chain t v rs' us'
  | [], [] => True
  | _, _ => False
  end.
Lemma near_chain_dd : forall t rs us u0 c e, 0 <= t -> 0 <= e -> c <= u0 + e -> near_chain t u0 rs us ->
  Forall2 Rle (dd c rs) (map (fun v => v + (e + INR (List.length rs) * t)) us).
Proof.
  intros t rs. induction rs as [|r rs IH]; intros [|v us] u0 c e Ht He Hc H; cbn [near_chain dd map] in *; try contradiction; [constructor|].
  destruct H as [H1 [H2 H3]]. assert (Hm : Rmax (c - r) 0 <= v + (e + t)) by (apply Rmax_lub; lra).
  cbn [List.length]. rewrite S_INR. pose proof (pos_INR (List.length rs)) as HI.
  constructor; [nra|]. specialize (IH us v (Rmax (c - r) 0) (e + t) Ht ltac:(lra) Hm H3).
  replace (e + (INR (List.length rs) + 1) * t) with (e + t + INR (List.length rs) * t) by ring. exact IH.
Qed.
Lemma near_chain_of : forall t rs us a, List.length us = List.length rs ->
  Forall2 (fun x y => x - y <= t) (map2 Rplus (removelast (a :: us)) (map Ropp rs)) us -> Forall (fun y => 0 <= y + t) us ->
  near_chain t a rs us.
Proof.
  intros t. induction rs as [|r rs IH]; intros [|v us] a H H1 H2; try discriminate H; [exact I|].
  injection H as H. change (removelast (a :: v :: us)) with (a :: removelast (v :: us)) in H1. cbn [map map2 near_chain] in *.
  inversion H1; inversion H2; subst. split; [lra|]. split; [assumption|]. apply IH; assumption.
Qed.

Section NearCDaR.
  Context (w : world) (o : ef) (u : list (nat * con)) (d : cdar_data) (Hop : open_ef w o u) (Hr : cdar_ready w o u d).
  Let rets := cd_returns d.
  Let tail (s : env) : R := hd 0 (s (cd_alpha d)) + 1 / (INR (List.length rets) * (1 - cd_beta d)) * total (s (cd_z d)).
  Let slack (t : R) : R := cdar_slack (List.length rets) (cd_beta d) t.

  Definition near5 (t : R) (s : env) (ps : list R) : Prop :=
    meets t s ps (cdar_con1 d) /\ meets t s ps (cdar_con2 d (e_w o)) /\ meets t s ps (cdar_con3 d) /\ meets t s ps (nonneg_var (cd_z d)) /\
     meets t s ps (CIneq (EScalar 0) (u_tail d)).
  Lemma cdar_near : forall t s ps, well_sized (w_sizes w) s -> near5 t s ps -> cdar (cd_beta d) rets (s (e_w o)) <= tail s + slack t.
  Proof.
    intros t s ps Hs [N1 [N2 [N3 [N4 N5]]]]. pose proof (d_alpha w o u d Hr s Hs) as Ea.
    destruct (split_u w o u d Hr s Hs) as [u0 [us [Eu Lu]]].
    destruct Hr as [[HT _] [Hb [_ [_ [Ez _]]]]]. pose proof (sized_nth _ _ _ _ Hs Ez) as Lz.
    set (a := hd 0 (s (cd_alpha d))) in *. fold rets in Lu, Lz, HT.
    assert (Et : eval s ps (u_tail d) = us).
    { unfold u_tail, cd_T. cbn [eval]. rewrite Eu. unfold rets in Lu. rewrite <- Lu. apply index_tail. }
    assert (Ei : eval s ps (u_init d) = removelast (u0 :: us)).
    { unfold u_init, cd_T. cbn [eval]. rewrite Eu. unfold rets in Lu. rewrite <- Lu. apply index_init. }
    assert (S1 : Forall2 (fun l v => l - a <= v + t) us (s (cd_z d))).
    { revert N1. unfold cdar_con1, ESub. cbn [meets eval]. rewrite Et, Ea. cbn [map]. rewrite bop_scalar_r.
      rewrite bop_eq_length by (rewrite map_length; congruence). rewrite map2_map_l, map2_Forall by congruence.
      apply Forall2_iff. intros; lra. }
    assert (S2 : Forall2 (fun x y => x - y <= t) (map2 Rplus (removelast (u0 :: us)) (map Ropp (period_returns rets (s (e_w o))))) us).
    { revert N2. unfold cdar_con2, ESub. cbn [meets eval].
      change (matvec (cd_returns d) (s (e_w o))) with (eval s ps (ELin (cd_returns d) (EVar (e_w o)))). rewrite lin_returns.
      change (cd_returns d) with rets. fold (eval s ps (u_init d)). rewrite Ei, Et.
      assert (L0 : List.length (removelast (u0 :: us)) = List.length (map Ropp (period_returns rets (s (e_w o))))).
      { rewrite removelast_length, map_length, period_returns_length. exact Lu. }
      rewrite (bop_eq_length Rplus) by exact L0.
      assert (L1 : List.length (map2 Rplus (removelast (u0 :: us)) (map Ropp (period_returns rets (s (e_w o))))) = List.length us).
      { rewrite map2_length_eq by exact L0. apply removelast_length. }
      rewrite bop_eq_length, map2_Forall by exact L1. auto. }
    assert (S3 : Rabs u0 <= t).
    { revert N3. unfold cdar_con3. rewrite (meets_eq1 t s ps _ _ u0 0); [|cbn [eval map]; rewrite Eu; reflexivity|reflexivity].
      rewrite Rminus_0_r. auto. }
    assert (S5 : Forall (fun y => 0 <= y + t) us).
    { revert N5. unfold meets, EScalar. rewrite Et. cbn [eval]. rewrite bop_scalar_l, Forall_map.
      intros H; eapply Forall_impl; try exact H; cbn; intros; lra. }
    apply meets_nonneg_var in N4.
    assert (Ht : 0 <= t) by (pose proof (Rabs_pos u0); lra).
    assert (Hu0 : 0 <= u0 + t) by (pose proof (Rle_abs (- u0)); rewrite Rabs_Ropp in *; lra).
    set (rs := period_returns rets (s (e_w o))) in *.
    assert (Lr : List.length rs = List.length rets) by apply period_returns_length.
    pose proof (near_chain_of t rs us u0 ltac:(congruence) S2 S5) as Hch.
    pose proof (near_chain_dd t rs us u0 0 t Ht Ht Hu0 Hch) as Hdd. rewrite Lr in Hdd.
    set (K := t + INR (List.length rets) * t) in *.
    assert (Hld : List.length (map (fun v => v + K) us) = List.length rets) by (rewrite map_length; exact Lu).
    assert (Hdl : List.length (dd 0 rs) = List.length rets).
    { rewrite <- Hld. clear -Hdd. induction Hdd; cbn [List.length]; congruence. }
    unfold cdar. fold rs. rewrite dd_from, Rminus_0_r. eapply Rle_trans.
    - apply (worst_mono (cd_beta d) _ (map (fun v => v + K) us)); [exact Hb|exact Hdd|]. rewrite Hdl. exact HT.
    - pose proof (tail_near (cd_beta d) (map (fun v => v + K) us) (a + K) (s (cd_z d)) t Hb) as G. rewrite Hld in G.
      specialize (G HT N4). eapply Rle_trans; [apply G|].
      + clear -S1. induction S1; cbn [map]; constructor; [lra|assumption].
      + unfold tail, slack, cdar_slack. fold a. unfold K. lra.
  Qed.
  Lemma cons5_near : forall t k s ps, Forall (fun ic => meets t s ps (snd ic)) (cons5 o d k) <-> near5 t s ps.
  Proof.
    intros. unfold cons5, near5. rewrite !Forall_cons_iff'. cbn [snd].
    pose proof (Forall_nil (fun ic : nat * con => meets t s ps (snd ic))). tauto.
  Qed.

  Lemma cdar_near_gen : forall tol g sv mn (near ok : list R -> Prop) pe o1 w1 X w' o' dd, accurate_solver tol g sv ->
    e_opt o1 = None -> e_w o1 = e_w o -> e_base o1 = e_base o -> e_add o1 = e_add o -> e_lb o1 = e_lb o -> e_ub o1 = e_ub o ->
    e_mu o1 = e_mu o -> e_cons o1 = e_cons o ++ X -> w_sizes w1 = w_sizes w -> par_values w1 = par_values w ++ pe ->
    (forall s, Forall (fun ic => meets tol s (par_values w1) (snd ic)) X -> near (s (e_w o))) ->
    (forall s, ok (s (e_w o)) -> Forall (fun ic => sat s (par_values w1) (snd ic)) X) ->
    min_cdar sv d mn w1 o1 = (w', o', Ok dd) ->
    exists lb ub s, bounds_in_force mn o lb ub /\
      near_at tol (g + slack tol) w o u lb ub (if mn then 0 else 1) near ok (cdar (cd_beta d) rets) (cdar (cd_beta d) rets) (e_weights o') dd s /\
      forall m, e_mu o = Some m -> exists r rep, e_weights o' = Some r /\
        cdar_performance d w' o' = Ok (inner m r, Some rep) /\
        cdar (cd_beta d) rets (s (e_w o)) <= rep + slack tol /\
        forall s', admissible w o u lb ub (if mn then 0 else 1) s' -> ok (s' (e_w o)) ->
          rep + penalty s (par_values w) (e_add o) <= cdar (cd_beta d) rets (s' (e_w o)) + penalty s' (par_values w) (e_add o) + g.
  Proof.
    intros tol g sv mn near ok pe o1 w1 X w' o' dd Hsv Ho1 Ew Eb Ea El Eu Em Ec Es Ep Hnear Hok H.
    pose proof Hop as [Ho [[i [j Hc]] [Hl [Hu [Hn [Hq [Hm [Ha [Has Hus]]]]]]]]].
    unfold min_cdar in H. unfold bind at 1 in H. rewrite set_objective_full_run in H. unfold bind at 1 in H.
    rewrite add_cdar_run in H by exact Ho1. cbn [w_sizes w_val w_params w_next] in H.
    set (w2 := mkWorld _ _ _ _) in H at 1. set (o2 := set_cons _ _) in H.
    assert (Ep2 : par_values w2 = par_values w1) by reflexivity.
    destruct (near_aux tol g sv mn w w2 o o2 u (X ++ cons5 o d (S (w_next w1)))
      i j (w_next w1) (add_all (cdar_e d) (e_add o1)) near ok (fun x => cdar (cd_beta d) rets x - slack tol) (cdar (cd_beta d) rets) tail pe []
      Hsv Hop Ho1 eq_refl Ew Eb El Eu) with (w' := w') (o' := o') (d := dd)
      as [lb [ub [s [H1 [H2 [H3 [H4 [H5 [H6 H7]]]]]]]]].
    - unfold o2. cbn [e_cons set_cons set_obj e_w]. rewrite Ec, Hc, Ew. cbn [app]. rewrite <- app_assoc. reflexivity.
    - unfold w2. cbn [w_sizes]. rewrite app_nil_r. exact Es.
    - exact Ep.
    - intros s Hs. change (w_sizes w2) with (w_sizes w1) in Hs. rewrite Es in Hs.
      rewrite (evals_add_all' s _ _ _ (tail s)); [|apply (d_tail_eval w o u d Hr); exact Hs|rewrite Ea; exact Ha].
      rewrite Ep2, Ea, (penalty_world w w1 s (e_add o) pe Ep Has). reflexivity.
    - intros s Hs Ht HX. change (w_sizes w2) with (w_sizes w1) in Hs. rewrite Es in Hs. rewrite Ep2 in HX.
      apply Forall_app in HX. destruct HX as [HX1 HX2]. apply cons5_near in HX2. split; [apply Hnear; exact HX1|].
      pose proof (cdar_near tol s _ Hs HX2). lra.
    - intros s Hs Ht Hk. destruct (cdar_complete w o u d Hr s (par_values w2) Hs) as [s' [C1 [C2 [C3 C4]]]].
      exists s'. change (w_sizes w2) with (w_sizes w1). rewrite Es. split; [exact C1|]. split; [exact C2|]. split; [|right; exact C4].
      apply Forall_app. split; [rewrite Ep2; apply Hok; rewrite C2 by (left; reflexivity); exact Hk|apply cons5_all; exact C3].
    - exact H.
    - change (w_sizes w2) with (w_sizes w1) in H3. rewrite Es in H3.
      exists lb, ub, s. split; [exact H1|]. split; [eapply near_at_best; [|exact H2]; reflexivity|]. intros m Emm.
      destruct H2 as [r [Er _]]. exists r, (tail s). split; [exact Er|].
      assert (Hv : forall x, In x (flat_map cvars (map snd (cons5 o d (S (w_next w1))))) -> w_val w' x = Some (s x)).
      { intros x Hx. apply H7. rewrite map_app, flat_map_app. apply in_or_app. right. exact Hx. }
      split; [|split; [|exact H4]].
      + apply (cdar_report w o u d Hr); [exact H3|exact Er|
        rewrite H6; cbn [e_mu o2 set_cons set_obj]; unfold o2; cbn [e_mu set_cons set_obj]; congruence| |];
        apply Hv; apply cons5_vars.
      + apply Forall_app in H5. destruct H5 as [_ H5]. apply cons5_near in H5. apply (cdar_near tol s _ H3 H5).
  Qed.

  Lemma min_cdar_near : forall tol g sv mn w' o' dd, accurate_solver tol g sv -> min_cdar sv d mn w o = (w', o', Ok dd) ->
    exists lb ub s, bounds_in_force mn o lb ub /\
      near_at tol (g + slack tol) w o u lb ub (if mn then 0 else 1) (fun _ => True) (fun _ => True)
        (cdar (cd_beta d) rets) (cdar (cd_beta d) rets) (e_weights o') dd s /\
      forall m, e_mu o = Some m -> exists r rep, e_weights o' = Some r /\
        cdar_performance d w' o' = Ok (inner m r, Some rep) /\
        cdar (cd_beta d) rets (s (e_w o)) <= rep + slack tol /\
        forall s', admissible w o u lb ub (if mn then 0 else 1) s' ->
          rep + penalty s (par_values w) (e_add o) <= cdar (cd_beta d) rets (s' (e_w o)) + penalty s' (par_values w) (e_add o) + g.
  Proof.
    intros tol g sv mn w' o' dd Hsv H. pose proof Hop as [Ho _].
    apply (cdar_near_gen tol g sv mn (fun _ => True) (fun _ => True) [] o w []) in H; try reflexivity; try assumption.
    - destruct H as [lb [ub [s [H1 [H2 H3]]]]]. exists lb, ub, s. split; [exact H1|]. split; [exact H2|].
      intros m Em. destruct (H3 m Em) as [r [rep [G1 [G2 [G3 G4]]]]]. exists r, rep. repeat split; auto.
    - rewrite app_nil_r; reflexivity.
    - rewrite app_nil_r; reflexivity.
    - intros; constructor.
  Qed.
  Lemma cdar_return_near : forall tol g sv mn t m w' o' dd, accurate_solver tol g sv -> e_mu o = Some m -> fresh_name w o "target_return" ->
    cdar_efficient_return sv d t mn w o = (w', o', Ok dd) ->
    0 <= t /\ exists lb ub s, bounds_in_force mn o lb ub /\
      near_at tol (g + slack tol) w o u lb ub (if mn then 0 else 1) (fun x => t <= inner m x + tol) (fun x => t <= inner m x)
        (cdar (cd_beta d) rets) (cdar (cd_beta d) rets) (e_weights o') dd s /\
      exists r rep, e_weights o' = Some r /\
        cdar_performance d w' o' = Ok (inner m r, Some rep) /\
        cdar (cd_beta d) rets (s (e_w o)) <= rep + slack tol /\
        forall s', admissible w o u lb ub (if mn then 0 else 1) s' -> t <= inner m (s' (e_w o)) ->
          rep + penalty s (par_values w) (e_add o) <= cdar (cd_beta d) rets (s' (e_w o)) + penalty s' (par_values w) (e_add o) + g.
  Proof.
    intros tol g sv mn t m w' o' dd Hsv Em Hf H. pose proof Hop as [Ho [[i [j Hc]] [Hl [Hu [Hn [Hq [Hm [Ha [Has Hus]]]]]]]]].
    unfold cdar_efficient_return in H. unfold bind at 1 in H. rewrite not_defined_run in H by exact Hf.
    unfold bind at 1 in H. rewrite (need_mu_T_run w o m Em (Hm m Em)) in H.
    unfold bind at 1 in H. unfold new_param in H. cbn [andb] in H. destruct (Rltb t 0) eqn:Et; [discriminate H|].
    apply Rltb_false in Et. split; [exact Et|].
    unfold bind at 1 in H. rewrite add_constraint_open in H by exact Ho. cbn [w_sizes w_val w_params w_next] in H.
    set (w1 := mkWorld _ _ _ _) in H at 1. set (o1 := set_cons _ _) in H.
    assert (Hpv : par_values w1 = par_values w ++ [t]) by (unfold w1, par_values; cbn [w_params]; rewrite map_app; reflexivity).
    apply (cdar_near_gen tol g sv mn (fun x => t <= inner m x + tol) (fun x => t <= inner m x) [t] o1 w1
      [(w_next w, CIneq (EPar (List.length (w_params w))) (EDot m (EVar (e_w o))))]) in H; try reflexivity; try assumption.
    - destruct H as [lb [ub [s [H1 [H2 H3]]]]]. exists lb, ub, s. split; [exact H1|]. split; [exact H2|]. apply H3. exact Em.
    - intros s. rewrite Forall_cons_iff'. cbn [snd].
      rewrite (meets_ineq1 tol s _ _ _ t (inner m (s (e_w o)))); [intros [Hx _]; exact Hx|
        cbn [eval]; rewrite Hpv, par_new; reflexivity|cbn [eval]; rewrite dot_inner; reflexivity].
    - intros s. rewrite Forall_cons_iff'. cbn [snd].
      rewrite (sat_ineq1 s _ _ _ t (inner m (s (e_w o)))); [intros Hx; split; [exact Hx|constructor]|
        cbn [eval]; rewrite Hpv, par_new; reflexivity|cbn [eval]; rewrite dot_inner; reflexivity].
  Qed.

  Lemma cdar_risk_near : forall tol g sv mn t m w' o' dd, accurate_solver tol g sv -> e_mu o = Some m -> fresh_name w o "target_cdar" ->
    cdar_efficient_risk sv d t mn w o = (w', o', Ok dd) ->
    0 <= t /\ exists lb ub s, bounds_in_force mn o lb ub /\
      near_at tol g w o u lb ub (if mn then 0 else 1) (fun x => cdar (cd_beta d) rets x <= t + (tol + slack tol))
        (fun x => cdar (cd_beta d) rets x <= t) (fun x => - inner m x) (fun x => - inner m x) (e_weights o') dd s /\
      exists r rep, e_weights o' = Some r /\ cdar_performance d w' o' = Ok (inner m r, Some rep) /\
        cdar (cd_beta d) rets (s (e_w o)) <= rep + slack tol /\ rep <= t + tol.
  Proof.
    intros tol g sv mn t m w' o' dd Hsv Em Hf H. pose proof Hop as [Ho [[i [j Hc]] [Hl [Hu [Hn [Hq [Hm [Ha [Has Hus]]]]]]]]].
    unfold cdar_efficient_risk in H. unfold bind at 1 in H. rewrite not_defined_run in H by exact Hf.
    unfold bind at 1 2, get in H. unfold bind at 1 in H. rewrite (need_mu_run w o m Em (Hm m Em)) in H.
    unfold bind at 1 in H. rewrite set_objective_full_run in H. unfold bind at 1 in H.
    unfold new_param in H. cbn [andb w_sizes w_val w_params w_next] in H. destruct (Rltb t 0) eqn:Et; [discriminate H|].
    apply Rltb_false in Et. split; [exact Et|].
    unfold bind at 1 in H. rewrite add_constraint_open in H by exact Ho. unfold bind at 1 in H.
    rewrite add_cdar_run in H by exact Ho. cbn [w_sizes w_val w_params w_next] in H.
    set (w1 := mkWorld _ _ _ _) in H at 1. set (o1 := set_cons _ _) in H.
    assert (Hpv : par_values w1 = par_values w ++ [t]) by (unfold w1, par_values; cbn [w_params]; rewrite map_app; reflexivity).
    assert (Htgt : forall s, well_sized (w_sizes w) s ->
      (sat s (par_values w1) (CIneq (cdar_e d) (EPar (List.length (w_params w)))) <-> tail s <= t)).
    { intros s Hs. apply sat_ineq1; [apply (d_tail_eval w o u d Hr); exact Hs|]. cbn [eval]. rewrite Hpv, par_new. reflexivity. }
    assert (Htgt' : forall s, well_sized (w_sizes w) s ->
      (meets tol s (par_values w1) (CIneq (cdar_e d) (EPar (List.length (w_params w)))) <-> tail s <= t + tol)).
    { intros s Hs. apply meets_ineq1; [apply (d_tail_eval w o u d Hr); exact Hs|]. cbn [eval]. rewrite Hpv, par_new. reflexivity. }
    destruct (near_aux tol g sv mn w w1 o o1 u ((S (w_next w), CIneq (cdar_e d) (EPar (List.length (w_params w)))) :: cons5 o d (S (S (w_next w))))
      i j (w_next w) (add_all (portfolio_return_e (EVar (e_w o)) m true) (e_add o)) (fun x => cdar (cd_beta d) rets x <= t + (tol + slack tol))
      (fun x => cdar (cd_beta d) rets x <= t)
      (fun x => - inner m x) (fun x => - inner m x) (fun s => - inner m (s (e_w o))) [t] []
      Hsv Hop Ho eq_refl eq_refl eq_refl eq_refl eq_refl) with (w' := w') (o' := o') (d := dd)
      as [lb [ub [s [H1 [H2 [H3 [H4 [H5 [H6 H7]]]]]]]]].
    - unfold o1. cbn [e_cons set_cons set_obj e_w]. rewrite Hc. cbn [app]. rewrite <- app_assoc. reflexivity.
    - unfold w1. cbn [w_sizes]. symmetry; apply app_nil_r.
    - exact Hpv.
    - intros s Hs. rewrite evals_add_all by (auto; apply scalar_ret). rewrite evals_ret. cbn [sign_of].
      rewrite (penalty_world w w1 s (e_add o) [t] Hpv Has). lra.
    - intros s Hs Ht HX. apply Forall_cons_iff' in HX. destruct HX as [HX0 HX]. apply cons5_near in HX. apply Htgt' in HX0; [|exact Hs].
      split; [|lra]. pose proof (cdar_near tol s _ Hs HX). lra.
    - intros s Hs Ht Hok. destruct (cdar_complete w o u d Hr s (par_values w1) Hs) as [s' [C1 [C2 [C3 C4]]]].
      exists s'. split; [exact C1|]. split; [exact C2|]. split; [|rewrite C2 by (left; reflexivity); lra].
      constructor; [|apply cons5_all; exact C3]. apply Htgt; [exact C1|]. unfold tail, rets. rewrite C4. exact Hok.
    - exact H.
    - exists lb, ub, s. split; [exact H1|]. split; [exact H2|].
      destruct H2 as [r [Er _]]. exists r, (tail s). split; [exact Er|]. apply Forall_cons_iff' in H5. destruct H5 as [HX0 HX].
      apply cons5_near in HX. apply Htgt' in HX0; [|exact H3]. split.
      + apply (cdar_report w o u d Hr); try assumption; [rewrite H6; exact Em| |]; apply H7; cbn [map flat_map snd]; apply in_or_app; right; apply cons5_vars.
      + split; [apply (cdar_near tol s _ H3 HX)|exact HX0].
  Qed.
End NearCDaR.
