(** * CDaR (C38) *)
From Coq Require Import ZArith List String Bool Reals Lra Lia.
From Verif Require Import Num Py RBase PyLemmas MBase MConvex MEF MDown SLin SBase SConvex SDown Sums PBase PConvex PEF PEF2 PEF4 PRisk PDown PDown2.
Import ListNotations.
Local Open Scope R_scope.

(** [us] are at least the drawdowns from level [u0] *)
Fixpoint chain (u0 : R) (rs us : list R) : Prop :=
  match rs, us with
  | r :: rs', v :: us' => u0 - r <= v /\ 0 <= v /\ chain v rs' us'
  | [], [] => True
  | _, _ => False
  end.
Lemma chain_dd : forall rs us u0 c, c <= u0 -> chain u0 rs us -> Forall2 Rle (dd c rs) us.
Proof.
  induction rs as [|r rs IH]; intros [|v us] u0 c Hc H; cbn [chain dd] in *; try contradiction; [constructor|].
  destruct H as [H1 [H2 H3]]. assert (Hm : Rmax (c - r) 0 <= v) by (apply Rmax_lub; lra).
  constructor; [exact Hm|]. apply (IH us v); assumption.
Qed.
Lemma dd_chain : forall rs u0, chain u0 rs (dd u0 rs).
Proof.
  induction rs as [|r rs IH]; intros u0; cbn [chain dd]; [exact I|].
  split; [apply Rmax_l|]. split; [apply Rmax_r|apply IH].
Qed.

Lemma index_tail : forall a (l : list R), map (fun i => nth i (a :: l) 0) (seq 1 (List.length l)) = l.
Proof. intros a l. rewrite <- seq_shift, map_map. cbn [nth]. apply map_nth_seq. Qed.
Lemma index_init : forall (l : list R) a, map (fun i => nth i (a :: l) 0) (seq 0 (List.length l)) = removelast (a :: l).
Proof.
  induction l as [|b l IH]; intros a; [reflexivity|]. cbn [List.length seq map nth].
  change (removelast (a :: b :: l)) with (a :: removelast (b :: l)). f_equal.
  rewrite <- seq_shift, map_map. cbn [nth]. apply IH.
Qed.
Lemma removelast_length : forall (l : list R) a, List.length (removelast (a :: l)) = List.length l.
Proof. induction l as [|b l IH]; intros a; [reflexivity|]. cbn [removelast List.length]. f_equal. apply IH. Qed.

Lemma chain_iff : forall rs us a, List.length us = List.length rs ->
  (chain a rs us <->
   Forall2 Rle (map2 Rplus (removelast (a :: us)) (map Ropp rs)) us /\ Forall (fun y => 0 <= y) us).
Proof.
  induction rs as [|r rs IH]; intros [|v us] a H; try discriminate H.
  - cbn. split; [intros _; split; constructor|auto].
  - injection H as H. change (removelast (a :: v :: us)) with (a :: removelast (v :: us)). cbn [map map2 chain].
    rewrite (IH us v H). split.
    + intros [H1 [H2 [H3 H4]]]. split; constructor; auto; lra.
    + intros [H1 H2]. inversion H1; inversion H2; subst. repeat split; auto; lra.
Qed.

Lemma add_cdar_run : forall d w o, e_opt o = None ->
  add_cdar d w o = (mkWorld (w_sizes w) (w_val w) (w_params w) (S (S (S (S (S (w_next w)))))),
    set_cons (e_cons o ++ [(w_next w, cdar_con1 d); (S (w_next w), cdar_con2 d (e_w o)); (S (S (w_next w)), cdar_con3 d);
      (S (S (S (w_next w))), nonneg_var (cd_z d)); (S (S (S (S (w_next w)))), CIneq (EScalar 0) (u_tail d))]) o, Ok tt).
Proof.
  intros d w o H. unfold add_cdar. do 4 (unfold bind at 1; rewrite add_constraint_open by exact H).
  rewrite add_constraint_open by exact H. cbn [w_sizes w_val w_params w_next]. rewrite !set_cons_cons.
  cbn [e_cons set_cons e_w]. rewrite <- !app_assoc. reflexivity.
Qed.

Section CDaR.
  Context (w : world) (o : ef) (u : list (nat * con)) (d : cdar_data) (Hop : open_ef w o u) (Hr : cdar_ready w o u d).
  Let rets := cd_returns d.
  Let losses (x : list R) := drawdowns_from 0 0 (period_returns rets x).
  Let tail (s : env) : R := hd 0 (s (cd_alpha d)) + 1 / (INR (List.length rets) * (1 - cd_beta d)) * total (s (cd_z d)).

  Lemma losses_length : forall x, List.length (losses x) = List.length rets.
  Proof. intros. unfold losses. rewrite drawdowns_length. apply period_returns_length. Qed.
  Lemma d_alpha : forall s, well_sized (w_sizes w) s -> s (cd_alpha d) = [hd 0 (s (cd_alpha d))].
  Proof.
    intros s Hs. destruct Hr as [_ [_ [Ea _]]]. pose proof (sized_nth _ _ _ _ Hs Ea) as H.
    destruct (s (cd_alpha d)) as [|a [|]]; try discriminate H. reflexivity.
  Qed.
  Lemma d_tail_eval : forall s ps, well_sized (w_sizes w) s -> eval s ps (cdar_e d) = [tail s].
  Proof. intros s ps Hs. unfold cdar_e. rewrite (eval_tail s ps _ _ _ _ _ (d_alpha s Hs)). reflexivity. Qed.

  (** the five constraints *)
  Definition cdar_ok (a u0 : R) (us zs x : list R) : Prop :=
    Forall2 (fun l v => l - a <= v) us zs /\ u0 = 0 /\ Forall (fun y => 0 <= y) zs /\ chain u0 (period_returns rets x) us.
  Lemma sat_cdar : forall s ps a u0 us, s (cd_alpha d) = [a] -> s (cd_u d) = u0 :: us -> List.length us = List.length rets ->
    List.length (s (cd_z d)) = List.length rets ->
    (sat s ps (cdar_con1 d) /\ sat s ps (cdar_con2 d (e_w o)) /\ sat s ps (cdar_con3 d) /\ sat s ps (nonneg_var (cd_z d)) /\
     sat s ps (CIneq (EScalar 0) (u_tail d)) <-> cdar_ok a u0 us (s (cd_z d)) (s (e_w o))).
  Proof.
    intros s ps a u0 us Ea Eu Lu Lz.
    assert (Et : eval s ps (u_tail d) = us).
    { unfold u_tail, cd_T. cbn [eval]. rewrite Eu. unfold rets in Lu. rewrite <- Lu. apply index_tail. }
    assert (Ei : eval s ps (u_init d) = removelast (u0 :: us)).
    { unfold u_init, cd_T. cbn [eval]. rewrite Eu. unfold rets in Lu. rewrite <- Lu. apply index_init. }
    assert (S1 : sat s ps (cdar_con1 d) <-> Forall2 (fun l v => l - a <= v) us (s (cd_z d))).
    { unfold cdar_con1, ESub. cbn [sat eval]. rewrite Et, Ea. cbn [map]. rewrite bop_scalar_r.
      rewrite bop_eq_length by (rewrite map_length; congruence). rewrite map2_map_l, map2_Forall by congruence.
      apply Forall2_iff. intros; lra. }
    assert (S2 : sat s ps (cdar_con2 d (e_w o)) <->
      Forall2 Rle (map2 Rplus (removelast (u0 :: us)) (map Ropp (period_returns rets (s (e_w o))))) us).
    { unfold cdar_con2, ESub. cbn [sat eval].
      change (matvec (cd_returns d) (s (e_w o))) with (eval s ps (ELin (cd_returns d) (EVar (e_w o)))). rewrite lin_returns.
      change (cd_returns d) with rets. fold (eval s ps (u_init d)). rewrite Ei, Et.
      assert (L0 : List.length (removelast (u0 :: us)) = List.length (map Ropp (period_returns rets (s (e_w o))))).
      { rewrite removelast_length, map_length, period_returns_length. exact Lu. }
      rewrite (bop_eq_length Rplus) by exact L0.
      assert (L1 : List.length (map2 Rplus (removelast (u0 :: us)) (map Ropp (period_returns rets (s (e_w o))))) = List.length us).
      { rewrite map2_length_eq by exact L0. apply removelast_length. }
      rewrite bop_eq_length, map2_Forall by exact L1. apply Forall2_iff. intros; lra. }
    assert (S3 : sat s ps (cdar_con3 d) <-> u0 = 0).
    { unfold cdar_con3. rewrite (sat_eq1 s ps _ _ u0 0); [reflexivity| |reflexivity]. cbn [eval map]. rewrite Eu. reflexivity. }
    assert (S5 : sat s ps (CIneq (EScalar 0) (u_tail d)) <-> Forall (fun y => 0 <= y) us).
    { unfold sat, EScalar. rewrite Et. cbn [eval]. rewrite bop_scalar_l, Forall_map.
      split; intros H; eapply Forall_impl; try exact H; cbn; intros; lra. }
    rewrite S1, S2, S3, S5, sat_nonneg_var. unfold cdar_ok.
    rewrite chain_iff by (rewrite period_returns_length; exact Lu). tauto.
  Qed.
  Lemma split_u : forall s, well_sized (w_sizes w) s -> exists u0 us, s (cd_u d) = u0 :: us /\ List.length us = List.length rets.
  Proof.
    intros s Hs. destruct Hr as [_ [_ [_ [Eu _]]]]. pose proof (sized_nth _ _ _ _ Hs Eu) as H.
    destruct (s (cd_u d)) as [|u0 us]; [discriminate H|]. exists u0, us. split; [reflexivity|]. injection H as H. exact H.
  Qed.
  Definition all5 (s : env) (ps : list R) : Prop :=
    sat s ps (cdar_con1 d) /\ sat s ps (cdar_con2 d (e_w o)) /\ sat s ps (cdar_con3 d) /\ sat s ps (nonneg_var (cd_z d)) /\
     sat s ps (CIneq (EScalar 0) (u_tail d)).
  Lemma cdar_sound : forall s ps, well_sized (w_sizes w) s -> all5 s ps -> cdar (cd_beta d) rets (s (e_w o)) <= tail s.
  Proof.
    intros s ps Hs H. pose proof (d_alpha s Hs) as Ea. destruct (split_u s Hs) as [u0 [us [Eu Lu]]].
    destruct Hr as [[Ht _] [Hb [_ [_ [Ez _]]]]]. pose proof (sized_nth _ _ _ _ Hs Ez) as Lz.
    apply (sat_cdar s ps _ _ _ Ea Eu Lu Lz) in H. destruct H as [H1 [-> [H3 H4]]].
    unfold cdar. fold (losses (s (e_w o))). eapply Rle_trans.
    - apply (worst_mono (cd_beta d) _ us); [exact Hb| |rewrite losses_length; exact Ht].
      unfold losses. rewrite dd_from, Rminus_0_r. apply (chain_dd _ _ 0); [lra|exact H4].
    - unfold tail. rewrite <- Lu. apply tail_sound; [exact Hb|rewrite Lu; exact Ht|exact H3|exact H1].
  Qed.
  Lemma cdar_complete : forall s ps, well_sized (w_sizes w) s -> exists s', well_sized (w_sizes w) s' /\
    (forall v, uses o u v -> s' v = s v) /\ all5 s' ps /\ tail s' = cdar (cd_beta d) rets (s (e_w o)).
  Proof.
    intros s ps Hs. destruct Hr as [[Ht _] [Hb [Ea [Eu [Ez [Hau [Haz [Huz [Na [Nu Nz]]]]]]]]]].
    set (us := losses (s (e_w o))). assert (Lu : List.length us = List.length rets) by apply losses_length.
    destruct (tail_reached (cd_beta d) us Hb) as [a [H1 [H2 H3]]]; [rewrite Lu; exact Ht|].
    set (zs := map (fun l => Rmax (l - a) 0) us) in *.
    set (s' := upd (upd (upd s (cd_alpha d) [a]) (cd_u d) (0 :: us)) (cd_z d) zs).
    assert (Lz : List.length zs = List.length rets) by (unfold zs; rewrite map_length; exact Lu).
    assert (Va : s' (cd_alpha d) = [a]) by (unfold s'; rewrite !upd_other by assumption; apply upd_same).
    assert (Vu : s' (cd_u d) = 0 :: us) by (unfold s'; rewrite upd_other by exact Huz; apply upd_same).
    assert (Vz : s' (cd_z d) = zs) by (unfold s'; apply upd_same).
    assert (Vs : forall v, uses o u v -> s' v = s v).
    { intros v Hv. unfold s'. rewrite !upd_other; [reflexivity|intros ->; exact (Na Hv)|intros ->; exact (Nu Hv)|intros ->; exact (Nz Hv)]. }
    exists s'. split; [|split; [exact Vs|split]].
    - apply upd_sized; [apply upd_sized; [apply upd_sized; [exact Hs|]|]|].
      + rewrite (nth_error_nth' _ _ _ Ea). reflexivity.
      + rewrite (nth_error_nth' _ _ _ Eu). cbn [List.length]. f_equal. exact Lu.
      + rewrite (nth_error_nth' _ _ _ Ez). exact Lz.
    - unfold all5. apply (sat_cdar s' ps a 0 us Va Vu Lu); [rewrite Vz; exact Lz|]. rewrite Vz, Vs by (left; reflexivity).
      split; [exact H2|]. split; [reflexivity|]. split; [exact H1|]. unfold us, losses. rewrite dd_from, Rminus_0_r. apply dd_chain.
    - unfold tail. rewrite Va, Vz. cbn [hd]. rewrite <- Lu. exact H3.
  Qed.
  Lemma cdar_report : forall (w' : world) (o' : ef) m r s, well_sized (w_sizes w) s -> e_weights o' = Some r -> e_mu o' = Some m ->
    w_val w' (cd_alpha d) = Some (s (cd_alpha d)) -> w_val w' (cd_z d) = Some (s (cd_z d)) ->
    cdar_performance d w' o' = Ok (inner m r, Some (tail s)).
  Proof.
    intros w' o' m r s Hs Er Em Va Vu. unfold cdar_performance, tail_performance. rewrite Er, Em, dot_inner. f_equal. f_equal.
    unfold value_of. assert (Ev : evars (cdar_e d) = [cd_alpha d; cd_z d]) by reflexivity. rewrite Ev. cbn [forallb].
    rewrite Va, Vu. cbn [andb]. f_equal. transitivity (evals s (par_values w') (cdar_e d)).
    - unfold evals. f_equal. apply eval_agree. rewrite Ev. intros v [<-|[<-|[]]]; [rewrite Va|rewrite Vu]; reflexivity.
    - unfold evals. rewrite d_tail_eval by exact Hs. reflexivity.
  Qed.
  Definition cons5 (k : nat) : list (nat * con) :=
    [(k, cdar_con1 d); (S k, cdar_con2 d (e_w o)); (S (S k), cdar_con3 d);
      (S (S (S k)), nonneg_var (cd_z d)); (S (S (S (S k))), CIneq (EScalar 0) (u_tail d))].
  Lemma cons5_all : forall k s ps, Forall (fun ic => sat s ps (snd ic)) (cons5 k) <-> all5 s ps.
  Proof.
    intros. unfold cons5, all5. rewrite !Forall_cons_iff'. cbn [snd].
    pose proof (Forall_nil (fun ic : nat * con => sat s ps (snd ic))). tauto.
  Qed.
  Lemma cons5_vars : forall k, In (cd_alpha d) (flat_map cvars (map snd (cons5 k))) /\ In (cd_z d) (flat_map cvars (map snd (cons5 k))).
  Proof. intros k. cbn. auto 12. Qed.

  Lemma min_cdar_gen : forall sv mn ok pe o1 w1 X w' o' dd, exact_solver sv ->
    e_opt o1 = None -> e_w o1 = e_w o -> e_base o1 = e_base o -> e_add o1 = e_add o -> e_lb o1 = e_lb o -> e_ub o1 = e_ub o ->
    e_mu o1 = e_mu o -> e_cons o1 = e_cons o ++ X -> w_sizes w1 = w_sizes w -> par_values w1 = par_values w ++ pe ->
    (forall s, Forall (fun ic => sat s (par_values w1) (snd ic)) X <-> ok (s (e_w o))) ->
    min_cdar sv d mn w1 o1 = (w', o', Ok dd) ->
    exists lb ub s, bounds_in_force mn o lb ub /\
      best_at w o u lb ub (if mn then 0 else 1) ok (cdar (cd_beta d) rets) (e_weights o') dd s /\
      forall m, e_mu o = Some m -> exists r, e_weights o' = Some r /\
        cdar_performance d w' o' = Ok (inner m r, Some (cdar (cd_beta d) rets (s (e_w o)))).
  Proof.
    intros sv mn ok pe o1 w1 X w' o' dd Hsv Ho1 Ew Eb Ea El Eu Em Ec Es Ep Hok H.
    pose proof Hop as [Ho [[i [j Hc]] [Hl [Hu [Hn [Hq [Hm [Ha [Has Hus]]]]]]]]].
    unfold min_cdar in H. unfold bind at 1 in H. rewrite set_objective_full_run in H. unfold bind at 1 in H.
    rewrite add_cdar_run in H by exact Ho1. cbn [w_sizes w_val w_params w_next] in H.
    set (w2 := mkWorld _ _ _ _) in H at 1. set (o2 := set_cons _ _) in H.
    assert (Ep2 : par_values w2 = par_values w1) by reflexivity.
    destruct (weight_sum_aux sv mn w w2 o o2 u (X ++ cons5 (S (w_next w1)))
      i j (w_next w1) (add_all (cdar_e d) (e_add o1)) ok (cdar (cd_beta d) rets) tail pe []
      Hsv Hop Ho1 eq_refl Ew Eb El Eu) with (w' := w') (o' := o') (d := dd)
      as [lb [ub [s [H1 [H2 [H3 [H4 [H5 [H6 H7]]]]]]]]].
    - unfold o2. cbn [e_cons set_cons set_obj e_w]. rewrite Ec, Hc, Ew. cbn [app]. rewrite <- app_assoc. reflexivity.
    - unfold w2. cbn [w_sizes]. rewrite app_nil_r. exact Es.
    - exact Ep.
    - intros s Hs. change (w_sizes w2) with (w_sizes w1) in Hs. rewrite Es in Hs.
      rewrite (evals_add_all' s _ _ _ (tail s)); [|apply d_tail_eval; exact Hs|rewrite Ea; exact Ha].
      rewrite Ep2, Ea, (penalty_world w w1 s (e_add o) pe Ep Has). reflexivity.
    - intros s Hs Ht HX. change (w_sizes w2) with (w_sizes w1) in Hs. rewrite Es in Hs. rewrite Ep2 in HX.
      apply Forall_app in HX. destruct HX as [HX1 HX2]. apply cons5_all in HX2. split; [apply Hok; exact HX1|].
      apply (cdar_sound s _ Hs HX2).
    - intros s Hs Ht Hk. destruct (cdar_complete s (par_values w2) Hs) as [s' [C1 [C2 [C3 C4]]]].
      exists s'. change (w_sizes w2) with (w_sizes w1). rewrite Es. split; [exact C1|]. split; [exact C2|]. split; [|right; exact C4].
      apply Forall_app. split; [rewrite Ep2; apply Hok; rewrite C2 by (left; reflexivity); exact Hk|apply cons5_all; exact C3].
    - exact H.
    - exists lb, ub, s. split; [exact H1|]. split; [exact H2|]. intros m Emm.
      destruct H2 as [r [Er _]]. exists r. split; [exact Er|]. rewrite <- H3.
      assert (Hv : forall x, In x (flat_map cvars (map snd (cons5 (S (w_next w1))))) -> w_val w' x = Some (s x)).
      { intros x Hx. apply H7. rewrite map_app, flat_map_app. apply in_or_app. right. exact Hx. }
      apply cdar_report; [change (w_sizes w2) with (w_sizes w1) in H4; rewrite Es in H4; exact H4|exact Er|
        rewrite H6; cbn [e_mu o2 set_cons set_obj]; unfold o2; cbn [e_mu set_cons set_obj]; congruence| |];
        apply Hv; apply cons5_vars.
  Qed.

  (** C38: min_cdar *)
  Lemma min_cdar_best : forall sv mn w' o' dd, exact_solver sv -> min_cdar sv d mn w o = (w', o', Ok dd) ->
    exists lb ub s, bounds_in_force mn o lb ub /\
      best_at w o u lb ub (if mn then 0 else 1) (fun _ => True) (cdar (cd_beta d) rets) (e_weights o') dd s /\
      forall m, e_mu o = Some m -> exists r, e_weights o' = Some r /\
        cdar_performance d w' o' = Ok (inner m r, Some (cdar (cd_beta d) rets (s (e_w o)))).
  Proof.
    intros sv mn w' o' dd Hsv H. pose proof Hop as [Ho _].
    apply (min_cdar_gen sv mn (fun _ => True) [] o w []) in H; try reflexivity; try assumption.
    - rewrite app_nil_r; reflexivity.
    - rewrite app_nil_r; reflexivity.
    - intros s. split; constructor.
  Qed.
  Lemma cdar_return_best : forall sv mn t m w' o' dd, exact_solver sv -> e_mu o = Some m -> fresh_name w o "target_return" ->
    cdar_efficient_return sv d t mn w o = (w', o', Ok dd) ->
    0 <= t /\ exists lb ub s, bounds_in_force mn o lb ub /\
      best_at w o u lb ub (if mn then 0 else 1) (fun x => t <= inner m x) (cdar (cd_beta d) rets) (e_weights o') dd s /\
      exists r, e_weights o' = Some r /\
        cdar_performance d w' o' = Ok (inner m r, Some (cdar (cd_beta d) rets (s (e_w o)))).
  Proof.
    intros sv mn t m w' o' dd Hsv Em Hf H. pose proof Hop as [Ho [[i [j Hc]] [Hl [Hu [Hn [Hq [Hm [Ha [Has Hus]]]]]]]]].
    unfold cdar_efficient_return in H. unfold bind at 1 in H. rewrite not_defined_run in H by exact Hf.
    unfold bind at 1 in H. rewrite (need_mu_T_run w o m Em (Hm m Em)) in H.
    unfold bind at 1 in H. unfold new_param in H. cbn [andb] in H. destruct (Rltb t 0) eqn:Et; [discriminate H|].
    apply Rltb_false in Et. split; [exact Et|].
    unfold bind at 1 in H. rewrite add_constraint_open in H by exact Ho. cbn [w_sizes w_val w_params w_next] in H.
    set (w1 := mkWorld _ _ _ _) in H at 1. set (o1 := set_cons _ _) in H.
    assert (Hpv : par_values w1 = par_values w ++ [t]) by (unfold w1, par_values; cbn [w_params]; rewrite map_app; reflexivity).
    apply (min_cdar_gen sv mn (fun x => t <= inner m x) [t] o1 w1
      [(w_next w, CIneq (EPar (List.length (w_params w))) (EDot m (EVar (e_w o))))]) in H; try reflexivity; try assumption.
    - destruct H as [lb [ub [s [H1 [H2 H3]]]]]. exists lb, ub, s. split; [exact H1|]. split; [exact H2|]. apply H3. exact Em.
    - intros s. rewrite Forall_cons_iff'. cbn [snd].
      rewrite (sat_ineq1 s _ _ _ t (inner m (s (e_w o)))); [split; [intros [Hx _]; exact Hx|intros Hx; split; [exact Hx|constructor]]|
        cbn [eval]; rewrite Hpv, par_new; reflexivity|cbn [eval]; rewrite dot_inner; reflexivity].
  Qed.

  (** C38: efficient_risk *)
  Lemma cdar_risk_best : forall sv mn t m w' o' dd, exact_solver sv -> e_mu o = Some m -> fresh_name w o "target_cdar" ->
    cdar_efficient_risk sv d t mn w o = (w', o', Ok dd) ->
    0 <= t /\ exists lb ub s, bounds_in_force mn o lb ub /\
      best_at w o u lb ub (if mn then 0 else 1) (fun x => cdar (cd_beta d) rets x <= t) (fun x => - inner m x) (e_weights o') dd s /\
      exists r rep, e_weights o' = Some r /\ cdar_performance d w' o' = Ok (inner m r, Some rep) /\
        cdar (cd_beta d) rets (s (e_w o)) <= rep <= t.
  Proof.
    intros sv mn t m w' o' dd Hsv Em Hf H. pose proof Hop as [Ho [[i [j Hc]] [Hl [Hu [Hn [Hq [Hm [Ha [Has Hus]]]]]]]]].
    unfold cdar_efficient_risk in H. unfold bind at 1 in H. rewrite not_defined_run in H by exact Hf.
    unfold bind at 1 2, get in H. unfold bind at 1 in H. rewrite (need_mu_run w o m Em (Hm m Em)) in H.
    unfold bind at 1 in H. rewrite set_objective_full_run in H. unfold bind at 1 in H.
    unfold new_param in H. cbn [andb w_sizes w_val w_params w_next] in H. destruct (Rltb t 0) eqn:Et; [discriminate H|].
    apply Rltb_false in Et. split; [exact Et|].
    unfold bind at 1 in H. rewrite add_constraint_open in H by exact Ho. unfold bind at 1 in H.
    rewrite add_cdar_run in H by exact Ho. cbn [w_sizes w_val w_params w_next] in H.
    set (w1 := mkWorld _ _ _ _) in H at 1. set (o1 := set_cons _ _) in H.
    assert (Hpv : par_values w1 = par_values w ++ [t]) by (unfold w1, par_values; cbn [w_params]; rewrite map_app; reflexivity).
    assert (Htgt : forall s, well_sized (w_sizes w) s ->
      (sat s (par_values w1) (CIneq (cdar_e d) (EPar (List.length (w_params w)))) <-> tail s <= t)).
    { intros s Hs. apply sat_ineq1; [apply d_tail_eval; exact Hs|]. cbn [eval]. rewrite Hpv, par_new. reflexivity. }
    destruct (weight_sum_aux sv mn w w1 o o1 u ((S (w_next w), CIneq (cdar_e d) (EPar (List.length (w_params w)))) :: cons5 (S (S (w_next w))))
      i j (w_next w) (add_all (portfolio_return_e (EVar (e_w o)) m true) (e_add o)) (fun x => cdar (cd_beta d) rets x <= t)
      (fun x => - inner m x) (fun s => - inner m (s (e_w o))) [t] []
      Hsv Hop Ho eq_refl eq_refl eq_refl eq_refl eq_refl) with (w' := w') (o' := o') (d := dd)
      as [lb [ub [s [H1 [H2 [H3 [H4 [H5 [H6 H7]]]]]]]]].
    - unfold o1. cbn [e_cons set_cons set_obj e_w]. rewrite Hc. cbn [app]. rewrite <- app_assoc. reflexivity.
    - unfold w1. cbn [w_sizes]. symmetry; apply app_nil_r.
    - exact Hpv.
    - intros s Hs. rewrite evals_add_all by (auto; apply scalar_ret). rewrite evals_ret. cbn [sign_of].
      rewrite (penalty_world w w1 s (e_add o) [t] Hpv Has). lra.
    - intros s Hs Ht HX. apply Forall_cons_iff' in HX. destruct HX as [HX0 HX]. apply cons5_all in HX. apply Htgt in HX0; [|exact Hs].
      split; [|lra]. pose proof (cdar_sound s _ Hs HX). lra.
    - intros s Hs Ht Hok. destruct (cdar_complete s (par_values w1) Hs) as [s' [C1 [C2 [C3 C4]]]].
      exists s'. split; [exact C1|]. split; [exact C2|]. split; [|rewrite C2 by (left; reflexivity); lra].
      constructor; [|apply cons5_all; exact C3]. apply Htgt; [exact C1|]. rewrite C4. exact Hok.
    - exact H.
    - exists lb, ub, s. split; [exact H1|]. split; [exact H2|].
      destruct H2 as [r [Er _]]. exists r, (tail s). split; [exact Er|]. apply Forall_cons_iff' in H5. destruct H5 as [HX0 HX].
      apply cons5_all in HX. apply Htgt in HX0; [|exact H4]. split.
      + apply cdar_report; try assumption; [rewrite H6; exact Em| |]; apply H7; cbn [map flat_map snd]; apply in_or_app; right; apply cons5_vars.
      + split; [apply (cdar_sound s _ H4 HX)|exact HX0].
  Qed.

  (** a best portfolio is found if there is one *)
  Lemma min_cdar_gen_answers : forall sv mn ok pe o1 w1 X, complete_solver sv ->
    e_opt o1 = None -> e_w o1 = e_w o -> e_base o1 = e_base o -> e_add o1 = e_add o -> e_lb o1 = e_lb o -> e_ub o1 = e_ub o ->
    e_cons o1 = e_cons o ++ X -> w_sizes w1 = w_sizes w -> par_values w1 = par_values w ++ pe ->
    (forall s, Forall (fun ic => sat s (par_values w1) (snd ic)) X <-> ok (s (e_w o))) ->
    (exists lb ub s, bounds_in_force mn o lb ub /\ least w o u lb ub (if mn then 0 else 1) ok (cdar (cd_beta d) rets) s) ->
    exists w' o' dd, min_cdar sv d mn w1 o1 = (w', o', Ok dd).
  Proof.
    intros sv mn ok pe o1 w1 X Hsv Ho1 Ew Eb Ea El Eu Ec Es Ep Hok [lb0 [ub0 [s0 [Hb0 Hls]]]].
    destruct (min_cdar sv d mn w1 o1) as [[w' o'] rr] eqn:H.
    pose proof Hop as [Ho [[i [j Hc]] [Hl [Hu [Hn [Hq [Hm [Ha [Has Hus]]]]]]]]].
    unfold min_cdar in H. unfold bind at 1 in H. rewrite set_objective_full_run in H. unfold bind at 1 in H.
    rewrite add_cdar_run in H by exact Ho1. cbn [w_sizes w_val w_params w_next] in H.
    set (w2 := mkWorld _ _ _ _) in H at 1. set (o2 := set_cons _ _) in H.
    assert (Ep2 : par_values w2 = par_values w1) by reflexivity.
    destruct (weight_sum_answers sv mn w w2 o o2 u (X ++ cons5 (S (w_next w1)))
      i j (w_next w1) (add_all (cdar_e d) (e_add o1)) ok (cdar (cd_beta d) rets) tail pe []
      Hsv Hop Ho1 eq_refl Ew Eb El Eu) with (lb0 := lb0) (ub0 := ub0) (s0 := s0)
      as [w'' [o'' [d'' E]]].
    - unfold o2. cbn [e_cons set_cons set_obj e_w]. rewrite Ec, Hc, Ew. cbn [app]. rewrite <- app_assoc. reflexivity.
    - unfold w2. cbn [w_sizes]. rewrite app_nil_r. exact Es.
    - exact Ep.
    - intros s Hs. change (w_sizes w2) with (w_sizes w1) in Hs. rewrite Es in Hs.
      rewrite (evals_add_all' s _ _ _ (tail s)); [|apply d_tail_eval; exact Hs|rewrite Ea; exact Ha].
      rewrite Ep2, Ea, (penalty_world w w1 s (e_add o) pe Ep Has). reflexivity.
    - intros s Hs Ht HX. change (w_sizes w2) with (w_sizes w1) in Hs. rewrite Es in Hs. rewrite Ep2 in HX.
      apply Forall_app in HX. destruct HX as [HX1 HX2]. apply cons5_all in HX2. split; [apply Hok; exact HX1|].
      apply (cdar_sound s _ Hs HX2).
    - intros s Hs Ht Hk. destruct (cdar_complete s (par_values w2) Hs) as [s' [C1 [C2 [C3 C4]]]].
      exists s'. change (w_sizes w2) with (w_sizes w1). rewrite Es. split; [exact C1|]. split; [exact C2|]. split; [|right; exact C4].
      apply Forall_app. split; [rewrite Ep2; apply Hok; rewrite C2 by (left; reflexivity); exact Hk|apply cons5_all; exact C3].
    - exact Hb0.
    - exact Hls.
    - pose proof (eq_trans (eq_sym E) H) as HH. inversion HH; subst. eauto.
  Qed.
  Lemma min_cdar_answers : forall sv mn, complete_solver sv ->
    (exists lb ub s, bounds_in_force mn o lb ub /\ least w o u lb ub (if mn then 0 else 1) (fun _ => True) (cdar (cd_beta d) rets) s) ->
    exists w' o' dd, min_cdar sv d mn w o = (w', o', Ok dd).
  Proof.
    intros sv mn Hsv H. pose proof Hop as [Ho _].
    apply (min_cdar_gen_answers sv mn (fun _ => True) [] o w []); try reflexivity; try assumption.
    - rewrite app_nil_r; reflexivity.
    - rewrite app_nil_r; reflexivity.
    - intros s. split; constructor.
  Qed.
  Lemma cdar_return_answers : forall sv mn t m, complete_solver sv -> e_mu o = Some m -> fresh_name w o "target_return" -> 0 <= t ->
    (exists lb ub s, bounds_in_force mn o lb ub /\ least w o u lb ub (if mn then 0 else 1) (fun x => t <= inner m x) (cdar (cd_beta d) rets) s) ->
    exists w' o' dd, cdar_efficient_return sv d t mn w o = (w', o', Ok dd).
  Proof.
    intros sv mn t m Hsv Em Hf Ht0 Hex. pose proof Hop as [Ho [[i [j Hc]] [Hl [Hu [Hn [Hq [Hm [Ha [Has Hus]]]]]]]]].
    destruct (cdar_efficient_return sv d t mn w o) as [[w' o'] rr] eqn:H.
    unfold cdar_efficient_return in H. unfold bind at 1 in H. rewrite not_defined_run in H by exact Hf.
    unfold bind at 1 in H. rewrite (need_mu_T_run w o m Em (Hm m Em)) in H.
    unfold bind at 1 in H. unfold new_param in H. cbn [andb] in H. rewrite (proj2 (Rltb_false t 0)) in H by lra.
    unfold bind at 1 in H. rewrite add_constraint_open in H by exact Ho. cbn [w_sizes w_val w_params w_next] in H.
    set (w1 := mkWorld _ _ _ _) in H at 1. set (o1 := set_cons _ _) in H.
    assert (Hpv : par_values w1 = par_values w ++ [t]) by (unfold w1, par_values; cbn [w_params]; rewrite map_app; reflexivity).
    destruct (min_cdar_gen_answers sv mn (fun x => t <= inner m x) [t] o1 w1
      [(w_next w, CIneq (EPar (List.length (w_params w))) (EDot m (EVar (e_w o))))]) as [w'' [o'' [d'' E]]]; try reflexivity; try assumption.
    - intros s. rewrite Forall_cons_iff'. cbn [snd].
      rewrite (sat_ineq1 s _ _ _ t (inner m (s (e_w o)))); [split; [intros [Hx _]; exact Hx|intros Hx; split; [exact Hx|constructor]]|
        cbn [eval]; rewrite Hpv, par_new; reflexivity|cbn [eval]; rewrite dot_inner; reflexivity].
    - pose proof (eq_trans (eq_sym E) H) as HH. inversion HH; subst. eauto.
  Qed.
  Lemma cdar_risk_answers : forall sv mn t m, complete_solver sv -> e_mu o = Some m -> fresh_name w o "target_cdar" -> 0 <= t ->
    (exists lb ub s, bounds_in_force mn o lb ub /\ least w o u lb ub (if mn then 0 else 1) (fun x => cdar (cd_beta d) rets x <= t) (fun x => - inner m x) s) ->
    exists w' o' dd, cdar_efficient_risk sv d t mn w o = (w', o', Ok dd).
  Proof.
    intros sv mn t m Hsv Em Hf Ht0 [lb0 [ub0 [s0 [Hb0 Hls]]]]. pose proof Hop as [Ho [[i [j Hc]] [Hl [Hu [Hn [Hq [Hm [Ha [Has Hus]]]]]]]]].
    destruct (cdar_efficient_risk sv d t mn w o) as [[w' o'] rr] eqn:H.
    unfold cdar_efficient_risk in H. unfold bind at 1 in H. rewrite not_defined_run in H by exact Hf.
    unfold bind at 1 2, get in H. unfold bind at 1 in H. rewrite (need_mu_run w o m Em (Hm m Em)) in H.
    unfold bind at 1 in H. rewrite set_objective_full_run in H. unfold bind at 1 in H.
    unfold new_param in H. cbn [andb w_sizes w_val w_params w_next] in H. rewrite (proj2 (Rltb_false t 0)) in H by lra.
    unfold bind at 1 in H. rewrite add_constraint_open in H by exact Ho. unfold bind at 1 in H.
    rewrite add_cdar_run in H by exact Ho. cbn [w_sizes w_val w_params w_next] in H.
    set (w1 := mkWorld _ _ _ _) in H at 1. set (o1 := set_cons _ _) in H.
    assert (Hpv : par_values w1 = par_values w ++ [t]) by (unfold w1, par_values; cbn [w_params]; rewrite map_app; reflexivity).
    assert (Htgt : forall s, well_sized (w_sizes w) s ->
      (sat s (par_values w1) (CIneq (cdar_e d) (EPar (List.length (w_params w)))) <-> tail s <= t)).
    { intros s Hs. apply sat_ineq1; [apply d_tail_eval; exact Hs|]. cbn [eval]. rewrite Hpv, par_new. reflexivity. }
    destruct (weight_sum_answers sv mn w w1 o o1 u ((S (w_next w), CIneq (cdar_e d) (EPar (List.length (w_params w)))) :: cons5 (S (S (w_next w))))
      i j (w_next w) (add_all (portfolio_return_e (EVar (e_w o)) m true) (e_add o)) (fun x => cdar (cd_beta d) rets x <= t)
      (fun x => - inner m x) (fun s => - inner m (s (e_w o))) [t] []
      Hsv Hop Ho eq_refl eq_refl eq_refl eq_refl eq_refl) with (lb0 := lb0) (ub0 := ub0) (s0 := s0)
      as [w'' [o'' [d'' E]]].
    - unfold o1. cbn [e_cons set_cons set_obj e_w]. rewrite Hc. cbn [app]. rewrite <- app_assoc. reflexivity.
    - unfold w1. cbn [w_sizes]. symmetry; apply app_nil_r.
    - exact Hpv.
    - intros s Hs. rewrite evals_add_all by (auto; apply scalar_ret). rewrite evals_ret. cbn [sign_of].
      rewrite (penalty_world w w1 s (e_add o) [t] Hpv Has). lra.
    - intros s Hs Ht HX. apply Forall_cons_iff' in HX. destruct HX as [HX0 HX]. apply cons5_all in HX. apply Htgt in HX0; [|exact Hs].
      split; [|lra]. pose proof (cdar_sound s _ Hs HX). lra.
    - intros s Hs Ht Hok. destruct (cdar_complete s (par_values w1) Hs) as [s' [C1 [C2 [C3 C4]]]].
      exists s'. split; [exact C1|]. split; [exact C2|]. split; [|rewrite C2 by (left; reflexivity); lra].
      constructor; [|apply cons5_all; exact C3]. apply Htgt; [exact C1|]. rewrite C4. exact Hok.
    - exact Hb0.
    - exact Hls.
    - pose proof (eq_trans (eq_sym E) H) as HH. inversion HH; subst. eauto.
  Qed.
End CDaR.
