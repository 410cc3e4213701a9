(** * Solvers of limited accuracy: optimisation with auxiliary variables, CVaR and CDaR *)
From Coq Require Import ZArith List String Bool Reals Lra Lia.
From Verif Require Import Num Py RBase PyLemmas MBase MConvex MEF MDown SLin SBase SConvex SDown SNear Sums PBase PConvex PEF PEF2 PEF3 PEF4 PRisk PDown PDown2 PDown3 PNear1.
Import ListNotations.
Local Open Scope R_scope.

Section NearAux.
  Context (tol g : R) (sv : solver_t) (mn : bool) (w w1 : world) (o o1 : ef) (u X : list (nat * con)) (i0 j0 io : nat) (e : expr)
    (near ok : list R -> Prop) (low cost : list R -> R) (aux : env -> R) (pe : list R) (more : list nat).
  Context (Hsv : accurate_solver tol g sv) (Hop : open_ef w o u).
  Context (Ho1 : e_opt o1 = None) (He1 : e_obj o1 = Some (io, e)) (Hw1 : e_w o1 = e_w o) (Hb1 : e_base o1 = e_base o)
    (Hl1 : e_lb o1 = e_lb o) (Hu1 : e_ub o1 = e_ub o).
  Context (Hc1 : e_cons o1 = (i0, lower_con (e_lb o) (e_w o)) :: (j0, upper_con (e_ub o) (e_w o)) :: u ++ X).
  Context (Hs1 : w_sizes w1 = w_sizes w ++ more) (Hp1 : par_values w1 = par_values w ++ pe).
  Context (Hobj : forall s, well_sized (w_sizes w1) s ->
     evals s (par_values w1) e = aux s + penalty s (par_values w) (e_add o)).
  Let sum := if mn then 0 else 1.
  Context (Hsound : forall s, well_sized (w_sizes w1) s -> Rabs (total (s (e_w o)) - sum) <= tol ->
     Forall (fun ic => meets tol s (par_values w1) (snd ic)) X -> near (s (e_w o)) /\ low (s (e_w o)) <= aux s).
  Context (Hcompl : forall s, well_sized (w_sizes w) s -> total (s (e_w o)) = sum -> ok (s (e_w o)) ->
     exists s', well_sized (w_sizes w1) s' /\ (forall v, uses o u v -> s' v = s v) /\
       Forall (fun ic => sat s' (par_values w1) (snd ic)) X /\ aux s' <= cost (s (e_w o))).

  Lemma near_aux : forall w' o' d,
    bind (make_weight_sum_constraint mn) (fun _ => solve_and_output sv) w1 o1 = (w', o', Ok d) ->
    exists lb ub s, bounds_in_force mn o lb ub /\ near_at tol g w o u lb ub sum near ok low cost (e_weights o') d s /\
      well_sized (w_sizes w1) s /\
      (forall s', admissible w o u lb ub sum s' -> ok (s' (e_w o)) ->
         aux s + penalty s (par_values w) (e_add o) <= cost (s' (e_w o)) + penalty s' (par_values w) (e_add o) + g) /\
      Forall (fun ic => meets tol s (par_values w1) (snd ic)) X /\ e_mu o' = e_mu o1 /\
      forall x, In x (flat_map cvars (map snd X)) -> w_val w' x = Some (s x).
  Proof.
    intros w' o' d H. destruct Hop as [Ho [_ [Hl [Hu [Hn [Hq [Hm [Ha [Has Hus]]]]]]]]].
    assert (En : e_n o1 = e_n o) by (unfold e_n; rewrite Hb1; reflexivity).
    destruct (weight_sum_run mn w1 o1 (u ++ X) i0 j0 Ho1) as
      [w2 [o2 [lb [ub [E [Es [Ep [Hsame [Hmn [Elb [Eub [Hbf [Hll [Hlu Hall]]]]]]]]]]]]]];
      [rewrite Hc1, Hl1, Hu1, Hw1; reflexivity|rewrite Hl1, En; exact Hl|rewrite Hu1, En; exact Hu|].
    unfold bind in H. rewrite E in H. destruct Hsame as [S1 [S2 [S3 [S4 [S5 [S6 [S7 [S8 S9]]]]]]]].
    assert (Epv : par_values w2 = par_values w ++ pe) by (unfold par_values at 1; rewrite Ep; exact Hp1).
    destruct (solve_output_vals sv w2 o2 io e w' o' d) as [s [v [V1 [V2 [V3 [V4 V5]]]]]]; [congruence|congruence|exact H|].
    destruct (Hsv _ _ _ _ _ _ V1) as [Hs2 [Hs3 [Hopt _]]].
    exists lb, ub, s. rewrite En in Hll, Hlu. rewrite Hw1 in Hall.
    assert (Hbf' : bounds_in_force mn o lb ub).
    { unfold bounds_in_force in *. rewrite Hl1, Hu1, En in Hbf. exact Hbf. }
    split; [exact Hbf'|].
    assert (Hpl : List.length (par_values w) = List.length (w_params w)) by (unfold par_values; apply map_length).
    assert (Hcons : forall s, well_sized (w_sizes w1) s ->
      (Forall (sat s (par_values w2)) (map snd (e_cons o2)) <->
       admissible w o u lb ub sum s /\ Forall (fun ic => sat s (par_values w1) (snd ic)) X)).
    { intros t Ht. rewrite Hall, Forall_app, Epv. pose proof Ht as Ht'. rewrite Hs1 in Ht'. apply well_sized_app in Ht'.
      rewrite (admissible_iff w o u lb ub sum t Hll Hlu Hn Ht').
      assert (Hsc : forall c, scoped_con (List.length (w_params w)) c -> (sat t (par_values w ++ pe) c <-> sat t (par_values w) c)).
      { intros c Hc. apply sat_scope. rewrite Hpl. exact Hc. }
      rewrite (Hsc (lower_con lb (e_w o))) by constructor. rewrite (Hsc (upper_con ub (e_w o))) by constructor.
      rewrite (Hsc (CEq _ _)) by constructor. rewrite <- Hp1.
      assert (Hiff : Forall (fun ic => sat t (par_values w1) (snd ic)) u <-> Forall (fun ic => sat t (par_values w) (snd ic)) u).
      { rewrite !Forall_forall. rewrite Forall_forall in Hus. split; intros G ic Hin; specialize (G ic Hin); specialize (Hus ic Hin);
          rewrite Hp1 in *; apply Hsc in Hus; apply Hus; exact G. }
      unfold sum in *. tauto. }
    rewrite Es in Hs2. pose proof Hs2 as Hs2'. rewrite Hs1 in Hs2'. apply well_sized_app in Hs2'.
    pose proof (sized_nth _ _ _ _ Hs2' Hn) as Lw.
    apply Hall in Hs3. destruct Hs3 as [B1 [B2 [B3 B4]]]. apply Forall_app in B4. destruct B4 as [B4 B5].
    apply meets_lower in B1; [|congruence]. apply meets_upper in B2; [|congruence]. apply sum_is_meets in B3.
    assert (Hadm : nearly_admissible tol w o u lb ub sum s).
    { split; [exact Hs2'|]. split; [split; assumption|]. split; [exact B3|]. rewrite Forall_forall in *. intros ic Hic.
      specialize (B4 ic Hic). rewrite Epv in B4. apply meets_scope in B4; [exact B4|]. rewrite Hpl. apply Hus. exact Hic. }
    rewrite Epv, <- Hp1 in B5.
    destruct (Hsound s Hs2 B3 B5) as [Hok Hle].
    assert (Hall' : forall s', admissible w o u lb ub sum s' -> ok (s' (e_w o)) ->
      aux s + penalty s (par_values w) (e_add o) <= cost (s' (e_w o)) + penalty s' (par_values w) (e_add o) + g).
    { intros s' Hadm' Hok'. destruct (Hcompl s' (proj1 Hadm') (proj1 (proj2 (proj2 Hadm'))) Hok') as [s'' [W [Hag [HX'' Hc'']]]].
      assert (Hpen : penalty s'' (par_values w) (e_add o) = penalty s' (par_values w) (e_add o)).
      { apply penalty_agree. intros x Hx. apply Hag. right. right. exact Hx. }
      assert (Hadm'' : admissible w o u lb ub sum s'').
      { destruct Hadm' as [A1 [A2 [A3 A4]]]. unfold admissible. rewrite Hag by (left; reflexivity).
        split; [rewrite Hs1 in W; apply well_sized_app in W; exact W|]. split; [exact A2|]. split; [exact A3|].
        rewrite Forall_forall in *. intros ic Hin. apply (sat_agree s''  s'); [|apply A4; exact Hin].
        intros x Hx. apply Hag. right. left. apply in_flat_map. exists ic. split; assumption. }
      assert (Hf : feasible (w_sizes w2) (par_values w2) (map snd (e_cons o2)) s'').
      { split; [rewrite Es; exact W|]. apply Hcons; [exact W|]. split; assumption. }
      specialize (Hopt s'' Hf). rewrite Epv, <- Hp1 in Hopt. rewrite !Hobj in Hopt by assumption. rewrite Hpen in Hopt. lra. }
    split.
    { exists (map round16 (s (e_w o2))). rewrite S3, Hw1 in *. split; [exact V2|]. split; [apply round16_rounded|].
      split; [rewrite V3; unfold make_output_of; rewrite S1, Hb1; reflexivity|].
      split; [exact Hadm|]. split; [exact Hok|]. intros s' Ha' Hk'. specialize (Hall' s' Ha' Hk'). lra. }
    split; [exact Hs2|]. split; [exact Hall'|]. split; [exact B5|].
    split; [congruence|]. intros x Hx. apply V5. apply in_or_app. right.
    apply in_flat_map in Hx. destruct Hx as [c [Hc1' Hc2']]. apply in_flat_map. exists c. split; [|exact Hc2'].
    assert (Hin : Forall (fun c => In c (map snd (e_cons o2))) (map snd (e_cons o2))) by (apply Forall_forall; auto).
    apply Hall in Hin. destruct Hin as [_ [_ [_ Hin]]]. apply Forall_app in Hin. destruct Hin as [_ Hin].
    rewrite Forall_forall in Hin. apply in_map_iff in Hc1'. destruct Hc1' as [ic [<- Hic]]. apply Hin. exact Hic.
  Qed.
End NearAux.

Lemma near_at_best : forall t g h w o u lb ub sum (near ok : list R -> Prop) low cost ws d s,
  (forall x, low x = cost x - h) ->
  near_at t g w o u lb ub sum near ok low cost ws d s -> near_at t (g + h) w o u lb ub sum near ok cost cost ws d s.
Proof.
  intros t g h w o u lb ub sum near ok low cost ws d s E [r [H1 [H2 [H3 [H4 [H5 H6]]]]]].
  exists r. split; [exact H1|]. split; [exact H2|]. split; [exact H3|]. split; [exact H4|]. split; [exact H5|].
  intros s' Hs' Hk. specialize (H6 s' Hs' Hk). rewrite E in H6. lra.
Qed.

(** ** The losses beyond a threshold, with slack *)
Lemma total_shift : forall l t, total (map (fun y => y + t) l) = total l + INR (List.length l) * t.
Proof. intros l t. induction l as [|y l IH]; [cbn; lra|]. cbn [map total List.length]. rewrite S_INR, IH. ring. Qed.
Lemma tail_near : forall beta L a us t, 0 <= beta < 1 -> (0 < List.length L)%nat ->
  Forall (fun y => 0 <= y + t) us -> Forall2 (fun l v => l - a <= v + t) L us ->
  worst_mean beta L <= a + 1 / (INR (List.length L) * (1 - beta)) * total us + t / (1 - beta).
Proof.
  intros beta L a us t Hb Hl Hn Hu.
  assert (HT : 0 < INR (List.length L)) by (apply lt_0_INR; exact Hl).
  assert (Hlen : List.length us = List.length L) by (clear -Hu; induction Hu; cbn [List.length]; congruence).
  pose proof (tail_sound beta L a (map (fun y => y + t) us) Hb Hl) as H.
  rewrite total_shift, Hlen in H. eapply Rle_trans; [apply H|].
  - apply Forall_map. exact Hn.
  - clear -Hu. induction Hu; cbn [map]; constructor; assumption.
  - apply Req_le. field. lra.
Qed.
Lemma meets_nonneg_var : forall t s ps v, meets t s ps (nonneg_var v) <-> Forall (fun y => 0 <= y + t) (s v).
Proof.
  intros t s ps v. unfold nonneg_var, meets, EScalar. cbn [eval]. rewrite bop_scalar_l, Forall_map.
  split; intros H; eapply Forall_impl; try exact H; cbn; intros; lra.
Qed.
Lemma meets_shortfall : forall t s ps d v a, s (cv_alpha d) = [a] -> List.length (s (cv_u d)) = List.length (cv_returns d) ->
  meets t s ps (cvar_shortfall d v) ->
  Forall2 (fun l x => l - a <= x + t) (map Ropp (period_returns (cv_returns d) (s v))) (s (cv_u d)).
Proof.
  intros t s ps d v a Ha Hu. unfold cvar_shortfall, meets, EScalar. cbn [eval].
  change (matvec (cv_returns d) (s v)) with (eval s ps (ELin (cv_returns d) (EVar v))). rewrite lin_returns.
  rewrite Ha, bop_scalar_r, bop_scalar_l, Forall_map.
  rewrite bop_eq_length by (rewrite map_length, period_returns_length; congruence).
  rewrite map2_map_l, map2_Forall by (rewrite period_returns_length; congruence).
  rewrite <- (period_returns_length (cv_returns d) (s v)) in Hu. revert Hu.
  generalize (period_returns (cv_returns d) (s v)) as l. generalize (s (cv_u d)) as us. clear.
  induction us as [|x us IH]; intros [|y l] H; try discriminate; cbn [map]; [constructor|].
  injection H as H. specialize (IH l H). intros F; inversion F; subst; constructor; try lra; apply IH; assumption.
Qed.

Section NearCVaR.
  Context (w : world) (o : ef) (u : list (nat * con)) (d : cvar_data) (Hop : open_ef w o u) (Hr : cvar_ready w o u d).
  Let rets := cv_returns d.
  Let tail (s : env) : R := hd 0 (s (cv_alpha d)) + 1 / (INR (List.length rets) * (1 - cv_beta d)) * total (s (cv_u d)).

  Lemma cvar_near : forall t s ps, well_sized (w_sizes w) s -> meets t s ps (nonneg_var (cv_u d)) ->
    meets t s ps (cvar_shortfall d (e_w o)) -> cvar (cv_beta d) rets (s (e_w o)) <= tail s + cvar_slack (cv_beta d) t.
  Proof.
    intros t s ps Hs H1 H2. pose proof (alpha_scalar w o u d Hr s Hs) as Ea. destruct Hr as [[Ht _] [Hb [_ [Eu _]]]].
    apply meets_nonneg_var in H1. apply (meets_shortfall t s ps d _ _ Ea (sized_nth _ _ _ _ Hs Eu)) in H2.
    assert (L : List.length (map Ropp (period_returns rets (s (e_w o)))) = List.length rets) by (rewrite map_length; apply period_returns_length).
    unfold cvar, tail. rewrite <- L.
    apply tail_near; [exact Hb|rewrite L; exact Ht|exact H1|exact H2].
  Qed.

  Lemma min_cvar_near : forall tol g sv mn w' o' dd, accurate_solver tol g sv -> min_cvar sv d mn w o = (w', o', Ok dd) ->
    exists lb ub s, bounds_in_force mn o lb ub /\
      near_at tol (g + cvar_slack (cv_beta d) tol) w o u lb ub (if mn then 0 else 1) (fun _ => True) (fun _ => True)
        (cvar (cv_beta d) rets) (cvar (cv_beta d) rets) (e_weights o') dd s /\
      forall m, e_mu o = Some m -> exists r rep, e_weights o' = Some r /\
        cvar_performance d w' o' = Ok (inner m r, Some rep) /\
        cvar (cv_beta d) rets (s (e_w o)) <= rep + cvar_slack (cv_beta d) tol /\
        forall s', admissible w o u lb ub (if mn then 0 else 1) s' ->
          rep + penalty s (par_values w) (e_add o) <= cvar (cv_beta d) rets (s' (e_w o)) + penalty s' (par_values w) (e_add o) + g.
  Proof.
    intros tol g sv mn w' o' dd Hsv H. pose proof Hop as [Ho [[i [j Hc]] [Hl [Hu [Hn [Hq [Hm [Ha [Has Hus]]]]]]]]].
    unfold min_cvar in H. unfold bind at 1 in H. rewrite set_objective_full_run in H. unfold bind at 1 in H.
    rewrite add_cvar_run in H by exact Ho. cbn [w_sizes w_val w_params w_next] in H.
    set (w1 := mkWorld _ _ _ _) in H at 1. set (o1 := set_cons _ _) in H.
    destruct (near_aux tol g sv mn w w1 o o1 u [(S (w_next w), nonneg_var (cv_u d)); (S (S (w_next w)), cvar_shortfall d (e_w o))]
      i j (w_next w) (add_all (cvar_e d) (e_add o)) (fun _ => True) (fun _ => True)
      (fun x => cvar (cv_beta d) rets x - cvar_slack (cv_beta d) tol) (cvar (cv_beta d) rets) tail [] []
      Hsv Hop Ho eq_refl eq_refl eq_refl eq_refl eq_refl) with (w' := w') (o' := o') (d := dd)
      as [lb [ub [s [H1 [H2 [H3 [H4 [H5 [H6 H7]]]]]]]]].
    - unfold o1. cbn [e_cons set_cons set_obj e_w]. rewrite Hc. reflexivity.
    - unfold w1. cbn [w_sizes]. symmetry; apply app_nil_r.
    - unfold w1, par_values. cbn [w_params]. symmetry; apply app_nil_r.
    - intros s Hs. rewrite (evals_add_all' s _ _ _ (tail s)); [reflexivity|apply (tail_eval w o u d Hr); exact Hs|exact Ha].
    - intros s Hs Ht HX. split; [exact I|]. rewrite !Forall_cons_iff' in HX. cbn [snd] in HX.
      destruct HX as [HX1 [HX2 _]]. pose proof (cvar_near tol s (par_values w1) Hs HX1 HX2). lra.
    - intros s Hs Ht _. destruct (cvar_complete w o u d Hr s (par_values w1) Hs) as [s' [C1 [C2 [C3 [C4 C5]]]]].
      exists s'. split; [exact C1|]. split; [exact C2|]. split; [|right; exact C5].
      constructor; [exact C3|]. constructor; [exact C4|constructor].
    - exact H.
    - exists lb, ub, s. split; [exact H1|]. split; [eapply near_at_best; [|exact H2]; reflexivity|]. intros m Em.
      destruct H2 as [r [Er _]]. exists r, (tail s). split; [exact Er|]. split; [|split].
      + apply (cvar_report w o u d Hr); try assumption; [rewrite H6; exact Em| |]; apply H7; cbn; auto 10.
      + rewrite !Forall_cons_iff' in H5. cbn [snd] in H5. destruct H5 as [HX1 [HX2 _]]. apply (cvar_near tol s _ H3 HX1 HX2).
      + intros s' Hs'. apply (H4 s' Hs' I).
  Qed.

  Lemma cvar_risk_near : forall tol g sv mn t m w' o' dd, accurate_solver tol g sv -> e_mu o = Some m -> fresh_name w o "target_cvar" ->
    cvar_efficient_risk sv d t mn w o = (w', o', Ok dd) ->
    0 <= t /\ exists lb ub s, bounds_in_force mn o lb ub /\
      near_at tol g w o u lb ub (if mn then 0 else 1) (fun x => cvar (cv_beta d) rets x <= t + (tol + cvar_slack (cv_beta d) tol))
        (fun x => cvar (cv_beta d) rets x <= t) (fun x => - inner m x) (fun x => - inner m x) (e_weights o') dd s /\
      exists r rep, e_weights o' = Some r /\ cvar_performance d w' o' = Ok (inner m r, Some rep) /\
        cvar (cv_beta d) rets (s (e_w o)) <= rep + cvar_slack (cv_beta d) tol /\ rep <= t + tol.
  Proof.
    intros tol g sv mn t m w' o' dd Hsv Em Hf H. pose proof Hop as [Ho [[i [j Hc]] [Hl [Hu [Hn [Hq [Hm [Ha [Has Hus]]]]]]]]].
    unfold cvar_efficient_risk in H. unfold bind at 1 in H. rewrite not_defined_run in H by exact Hf.
    unfold bind at 1 2, get in H. unfold bind at 1 in H. rewrite (need_mu_run w o m Em (Hm m Em)) in H.
    unfold bind at 1 in H. rewrite set_objective_full_run in H. unfold bind at 1 in H.
    unfold new_param in H. cbn [andb w_sizes w_val w_params w_next] in H. destruct (Rltb t 0) eqn:Et; [discriminate H|].
    apply Rltb_false in Et. split; [exact Et|].
    unfold bind at 1 in H. rewrite add_constraint_open in H by exact Ho. unfold bind at 1 in H.
    rewrite add_cvar_run in H by exact Ho. cbn [w_sizes w_val w_params w_next] in H.
    set (w1 := mkWorld _ _ _ _) in H at 1. set (o1 := set_cons _ _) in H.
    assert (Hpv : par_values w1 = par_values w ++ [t]) by (unfold w1, par_values; cbn [w_params]; rewrite map_app; reflexivity).
    assert (Htgt : forall s, well_sized (w_sizes w) s ->
      (meets tol s (par_values w1) (CIneq (cvar_e d) (EPar (List.length (w_params w)))) <-> tail s <= t + tol)).
    { intros s Hs. apply meets_ineq1; [apply (tail_eval w o u d Hr); exact Hs|]. cbn [eval]. rewrite Hpv, par_new. reflexivity. }
    destruct (near_aux tol g sv mn w w1 o o1 u [(S (w_next w), CIneq (cvar_e d) (EPar (List.length (w_params w))));
        (S (S (w_next w)), nonneg_var (cv_u d)); (S (S (S (w_next w))), cvar_shortfall d (e_w o))]
      i j (w_next w) (add_all (portfolio_return_e (EVar (e_w o)) m true) (e_add o))
      (fun x => cvar (cv_beta d) rets x <= t + (tol + cvar_slack (cv_beta d) tol)) (fun x => cvar (cv_beta d) rets x <= t)
      (fun x => - inner m x) (fun x => - inner m x) (fun s => - inner m (s (e_w o))) [t] []
      Hsv Hop Ho eq_refl eq_refl eq_refl eq_refl eq_refl) with (w' := w') (o' := o') (d := dd)
      as [lb [ub [s [H1 [H2 [H3 [H4 [H5 [H6 H7]]]]]]]]].
    - unfold o1. cbn [e_cons set_cons set_obj e_w]. rewrite Hc. cbn [app]. rewrite <- app_assoc. reflexivity.
    - unfold w1. cbn [w_sizes]. symmetry; apply app_nil_r.
    - exact Hpv.
    - intros s Hs. rewrite evals_add_all by (auto; apply scalar_ret). rewrite evals_ret. cbn [sign_of].
      rewrite (penalty_world w w1 s (e_add o) [t] Hpv Has). lra.
    - intros s Hs Ht HX. rewrite !Forall_cons_iff' in HX. cbn [snd] in HX. destruct HX as [HX0 [HX1 [HX2 _]]].
      split; [|lra]. pose proof (cvar_near tol s _ Hs HX1 HX2). apply Htgt in HX0; [lra|exact Hs].
    - intros s Hs Ht Hok. destruct (cvar_complete w o u d Hr s (par_values w1) Hs) as [s' [C1 [C2 [C3 [C4 C5]]]]].
      exists s'. split; [exact C1|]. split; [exact C2|]. split; [|rewrite C2 by (left; reflexivity); lra].
      constructor; [|constructor; [exact C3|]; constructor; [exact C4|constructor]]. cbn [snd].
      rewrite (sat_ineq1 s' _ _ _ (tail s') t); [unfold tail, rets; rewrite C5; exact Hok|apply (tail_eval w o u d Hr); exact C1|].
      cbn [eval]. rewrite Hpv, par_new. reflexivity.
    - exact H.
    - exists lb, ub, s. split; [exact H1|]. split; [exact H2|].
      destruct H2 as [r [Er _]]. exists r, (tail s). split; [exact Er|]. split.
      + apply (cvar_report w o u d Hr); try assumption; [rewrite H6; exact Em| |]; apply H7; cbn; auto 10.
      + rewrite !Forall_cons_iff' in H5. cbn [snd] in H5. destruct H5 as [HX0 [HX1 [HX2 _]]].
        split; [apply (cvar_near tol s _ H3 HX1 HX2)|]. apply Htgt in HX0; [exact HX0|exact H3].
  Qed.

  Lemma cvar_return_near : forall tol g sv mn t m w' o' dd, accurate_solver tol g sv -> e_mu o = Some m -> fresh_name w o "target_return" ->
    cvar_efficient_return sv d t mn w o = (w', o', Ok dd) ->
    exists lb ub s, bounds_in_force mn o lb ub /\
      near_at tol (g + cvar_slack (cv_beta d) tol) w o u lb ub (if mn then 0 else 1) (fun x => t <= inner m x + tol) (fun x => t <= inner m x)
        (cvar (cv_beta d) rets) (cvar (cv_beta d) rets) (e_weights o') dd s /\
      exists r rep, e_weights o' = Some r /\
        cvar_performance d w' o' = Ok (inner m r, Some rep) /\
        cvar (cv_beta d) rets (s (e_w o)) <= rep + cvar_slack (cv_beta d) tol /\
        forall s', admissible w o u lb ub (if mn then 0 else 1) s' -> t <= inner m (s' (e_w o)) ->
          rep + penalty s (par_values w) (e_add o) <= cvar (cv_beta d) rets (s' (e_w o)) + penalty s' (par_values w) (e_add o) + g.
  Proof.
    intros tol g sv mn t m w' o' dd Hsv Em Hf H. pose proof Hop as [Ho [[i [j Hc]] [Hl [Hu [Hn [Hq [Hm [Ha [Has Hus]]]]]]]]].
    unfold cvar_efficient_return in H. unfold bind at 1 in H. rewrite not_defined_run in H by exact Hf.
    unfold bind at 1 2 in H. rewrite set_objective_full_run in H. unfold bind at 1 in H.
    rewrite add_cvar_run in H by exact Ho. cbn [w_sizes w_val w_params w_next] in H.
    unfold bind at 1 in H. erewrite (need_mu_T_run _ _ m) in H; [|exact Em|exact (Hm m Em)].
    unfold bind at 1 in H. rewrite new_param_run in H by discriminate. cbn [w_sizes w_val w_params w_next] in H.
    unfold bind at 1 in H. rewrite add_constraint_open in H by exact Ho. cbn [w_sizes w_val w_params w_next] in H.
    set (w1 := mkWorld _ _ _ _) in H at 1. set (o1 := set_cons _ _) in H.
    assert (Hpv : par_values w1 = par_values w ++ [t]) by (unfold w1, par_values; cbn [w_params]; rewrite map_app; reflexivity).
    assert (Hret : forall s, sat s (par_values w1) (CIneq (EPar (List.length (w_params w))) (EDot m (EVar (e_w o)))) <-> t <= inner m (s (e_w o))).
    { intros s. rewrite (sat_ineq1 s _ _ _ t (inner m (s (e_w o)))); [reflexivity|cbn [eval]; rewrite Hpv, par_new; reflexivity|].
      cbn [eval]. rewrite dot_inner. reflexivity. }
    assert (Hret' : forall s, meets tol s (par_values w1) (CIneq (EPar (List.length (w_params w))) (EDot m (EVar (e_w o)))) <-> t <= inner m (s (e_w o)) + tol).
    { intros s. rewrite (meets_ineq1 tol s _ _ _ t (inner m (s (e_w o)))); [reflexivity|cbn [eval]; rewrite Hpv, par_new; reflexivity|].
      cbn [eval]. rewrite dot_inner. reflexivity. }
    destruct (near_aux tol g sv mn w w1 o o1 u [(S (w_next w), nonneg_var (cv_u d)); (S (S (w_next w)), cvar_shortfall d (e_w o));
        (S (S (S (w_next w))), CIneq (EPar (List.length (w_params w))) (EDot m (EVar (e_w o))))]
      i j (w_next w) (add_all (cvar_e d) (e_add o)) (fun x => t <= inner m x + tol) (fun x => t <= inner m x)
      (fun x => cvar (cv_beta d) rets x - cvar_slack (cv_beta d) tol) (cvar (cv_beta d) rets) tail [t] []
      Hsv Hop Ho eq_refl eq_refl eq_refl eq_refl eq_refl) with (w' := w') (o' := o') (d := dd)
      as [lb [ub [s [H1 [H2 [H3 [H4 [H5 [H6 H7]]]]]]]]].
    - unfold o1. cbn [e_cons set_cons set_obj e_w]. rewrite Hc. cbn [app]. rewrite <- app_assoc. reflexivity.
    - unfold w1. cbn [w_sizes]. symmetry; apply app_nil_r.
    - exact Hpv.
    - intros s Hs. rewrite (evals_add_all' s _ _ _ (tail s)); [|apply (tail_eval w o u d Hr); exact Hs|exact Ha].
      rewrite (penalty_world w w1 s (e_add o) [t] Hpv Has). reflexivity.
    - intros s Hs Ht HX. rewrite !Forall_cons_iff' in HX. cbn [snd] in HX.
      destruct HX as [HX1 [HX2 [HX3 _]]]. split; [apply Hret'; exact HX3|]. pose proof (cvar_near tol s (par_values w1) Hs HX1 HX2). lra.
    - intros s Hs Ht Hok. destruct (cvar_complete w o u d Hr s (par_values w1) Hs) as [s' [C1 [C2 [C3 [C4 C5]]]]].
      exists s'. split; [exact C1|]. split; [exact C2|]. split; [|right; exact C5].
      constructor; [exact C3|]. constructor; [exact C4|]. constructor; [|constructor]. cbn [snd]. apply Hret.
      rewrite C2 by (left; reflexivity). exact Hok.
    - exact H.
    - exists lb, ub, s. split; [exact H1|]. split; [eapply near_at_best; [|exact H2]; reflexivity|].
      destruct H2 as [r [Er _]]. exists r, (tail s). split; [exact Er|]. split; [|split].
      + apply (cvar_report w o u d Hr); try assumption; [rewrite H6; exact Em| |]; apply H7; cbn; auto 10.
      + rewrite !Forall_cons_iff' in H5. cbn [snd] in H5. destruct H5 as [HX1 [HX2 _]]. apply (cvar_near tol s _ H3 HX1 HX2).
      + exact H4.
  Qed.
End NearCVaR.
