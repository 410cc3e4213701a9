(** * CVaR and CDaR (C36-C38) *)
From Coq Require Import ZArith List String Bool Reals Lra Lia.
From Verif Require Import Num Py RBase PyLemmas MBase MConvex MEF MDown SLin SBase SConvex SDown Sums PBase PConvex PEF PEF2 PEF4 PRisk PDown.
Import ListNotations.
Local Open Scope R_scope.

(** ** environments *)
Definition upd (s : env) (v : nat) (x : list R) : env := fun i => if Nat.eqb i v then x else s i.
Lemma upd_same : forall s v x, upd s v x v = x.
Proof. intros. unfold upd. rewrite Nat.eqb_refl. reflexivity. Qed.
Lemma upd_other : forall s v x i, i <> v -> upd s v x i = s i.
Proof. intros s v x i H. unfold upd. apply Nat.eqb_neq in H. rewrite H. reflexivity. Qed.
Lemma upd_sized : forall sizes s v x, well_sized sizes s -> List.length x = nth v sizes 0%nat -> well_sized sizes (upd s v x).
Proof.
  intros sizes s v x H Hx i Hi. unfold upd. destruct (Nat.eqb i v) eqn:E; [|apply H; exact Hi].
  apply Nat.eqb_eq in E. subst i. exact Hx.
Qed.
Lemma sized_nth : forall sizes s v n, well_sized sizes s -> nth_error sizes v = Some n -> List.length (s v) = n.
Proof.
  intros sizes s v n H E. rewrite H by (apply nth_error_Some; rewrite E; discriminate). apply nth_error_nth. exact E.
Qed.
Lemma nth_error_nth' : forall (l : list nat) v n, nth_error l v = Some n -> nth v l 0%nat = n.
Proof. intros l v n H. apply nth_error_nth. exact H. Qed.

(** ** evaluation *)
Lemma bop_scalar_r : forall f l a, bop f l [a] = map (fun y => f y a) l.
Proof. intros f l a. unfold bop. destruct l as [|x [|y l]]; reflexivity. Qed.
Lemma bop_scalar_l : forall f l a, bop f [a] l = map (f a) l.
Proof. intros f l a. unfold bop. destruct l as [|x [|y l]]; reflexivity. Qed.
Lemma sat_nonneg_var : forall s ps v, sat s ps (nonneg_var v) <-> Forall (fun y => 0 <= y) (s v).
Proof.
  intros s ps v. unfold nonneg_var, sat, EScalar. cbn [eval]. rewrite bop_scalar_l, Forall_map.
  split; intros H; eapply Forall_impl; try exact H; cbn; intros; lra.
Qed.
Lemma lin_returns : forall s ps rets v, eval s ps (ELin rets (EVar v)) = period_returns rets (s v).
Proof. intros. cbn [eval]. rewrite matvec_inner. reflexivity. Qed.
Lemma evals_tail : forall s ps T beta alpha u a, s alpha = [a] ->
  evals s ps (tail_e T beta alpha u) = a + 1 / (INR T * (1 - beta)) * total (s u).
Proof.
  intros s ps T beta alpha u a H. unfold evals, tail_e, EScalar. cbn [eval]. rewrite H. cbn [bop map scalar hd].
  rewrite vsum_total. reflexivity.
Qed.
Lemma eval_tail : forall s ps T beta alpha u a, s alpha = [a] ->
  eval s ps (tail_e T beta alpha u) = [a + 1 / (INR T * (1 - beta)) * total (s u)].
Proof.
  intros s ps T beta alpha u a H. unfold tail_e, EScalar. cbn [eval]. rewrite H. cbn [bop map].
  rewrite vsum_total. reflexivity.
Qed.
Lemma period_returns_length : forall rets x, List.length (period_returns rets x) = List.length rets.
Proof. intros; apply map_length. Qed.
Lemma map2_map_l : forall (f : R -> R -> R) (g : R -> R) a b, map2 f (map g a) b = map2 (fun x y => f (g x) y) a b.
Proof. induction a as [|x a IH]; destruct b; cbn; [reflexivity..|]. rewrite IH. reflexivity. Qed.

Lemma evals_add_all' : forall s ps l e x, eval s ps e = [x] -> Forall scalar_expr l ->
  evals s ps (add_all e l) = x + penalty s ps l.
Proof.
  unfold add_all, penalty. induction l as [|a l IH]; intros e x He Hl; cbn [fold_left map total].
  - unfold evals. rewrite He. cbn. lra.
  - inversion Hl as [|? ? Ha Hl']; subst. pose proof (Ha s ps) as La. destruct (eval s ps a) as [|y [|]] eqn:Ea; try discriminate La.
    rewrite (IH _ (x + y)); [|cbn [eval]; rewrite He, Ea; reflexivity|exact Hl'].
    unfold evals at 2. rewrite Ea. cbn. lra.
Qed.
Lemma par_new : forall w t, nth (List.length (w_params w)) (par_values w ++ [t]) 0 = t.
Proof.
  intros w t. rewrite app_nth2 by (unfold par_values; rewrite map_length; lia).
  unfold par_values. rewrite map_length, Nat.sub_diag. reflexivity.
Qed.

(** ** tails *)
Lemma over_total : forall a L us, Forall (fun y => 0 <= y) us -> Forall2 (fun l v => l - a <= v) L us -> over a L <= total us.
Proof.
  intros a L us Hn Hu. unfold over. apply total_Forall2. revert Hn.
  induction Hu as [|l v L us Hlv Hu IH]; intros Hn; cbn [map]; constructor; inversion Hn; subst; auto.
  apply Rmax_lub; assumption.
Qed.
Lemma tail_sound : forall beta L a us, 0 <= beta < 1 -> (0 < List.length L)%nat ->
  Forall (fun y => 0 <= y) us -> Forall2 (fun l v => l - a <= v) L us ->
  worst_mean beta L <= a + 1 / (INR (List.length L) * (1 - beta)) * total us.
Proof.
  intros beta L a us Hb Hl Hn Hu. eapply Rle_trans; [apply (worst_le beta L a Hb Hl)|].
  assert (HT : 0 < INR (List.length L)) by (apply lt_0_INR; exact Hl).
  pose proof (over_total a L us Hn Hu) as Ho. apply Rplus_le_compat_l. unfold Rdiv. rewrite Rmult_1_l, (Rmult_comm (INR _)), Rmult_comm.
  apply Rmult_le_compat_l; [|exact Ho]. left. apply Rinv_0_lt_compat. nra.
Qed.
Lemma tail_reached : forall beta L, 0 <= beta < 1 -> (0 < List.length L)%nat ->
  exists a, let us := map (fun l => Rmax (l - a) 0) L in
    Forall (fun y => 0 <= y) us /\ Forall2 (fun l v => l - a <= v) L us /\
    a + 1 / (INR (List.length L) * (1 - beta)) * total us = worst_mean beta L.
Proof.
  intros beta L Hb Hl. destruct (worst_reached beta L Hb Hl) as [a E]. exists a. cbv zeta.
  assert (HT : 0 < INR (List.length L)) by (apply lt_0_INR; exact Hl).
  split; [apply Forall_map, Forall_forall; intros; apply Rmax_r|]. split.
  - clear. induction L; cbn [map]; constructor; auto. apply Rmax_l.
  - rewrite E. unfold over. field. lra.
Qed.

(** ** CVaR *)
Lemma sat_shortfall : forall s ps d v a, s (cv_alpha d) = [a] -> List.length (s (cv_u d)) = List.length (cv_returns d) ->
  (sat s ps (cvar_shortfall d v) <->
   Forall2 (fun l x => l - a <= x) (map Ropp (period_returns (cv_returns d) (s v))) (s (cv_u d))).
Proof.
  intros s ps d v a Ha Hu. unfold cvar_shortfall, sat, EScalar. cbn [eval].
  change (matvec (cv_returns d) (s v)) with (eval s ps (ELin (cv_returns d) (EVar v))). rewrite lin_returns.
  rewrite Ha, bop_scalar_r, bop_scalar_l, Forall_map.
  rewrite bop_eq_length by (rewrite map_length, period_returns_length; congruence).
  rewrite map2_map_l, map2_Forall by (rewrite period_returns_length; congruence).
  rewrite <- (period_returns_length (cv_returns d) (s v)) in Hu. revert Hu.
  generalize (period_returns (cv_returns d) (s v)) as l. generalize (s (cv_u d)) as us. clear.
  induction us as [|x us IH]; intros [|y l] H; try discriminate; cbn [map]; [split; constructor|].
  injection H as H. specialize (IH l H). split; intros F; inversion F; subst; constructor; try lra; apply IH; assumption.
Qed.

Lemma add_cvar_run : forall d w o, e_opt o = None ->
  add_cvar d w o = (mkWorld (w_sizes w) (w_val w) (w_params w) (S (S (w_next w))),
    set_cons (e_cons o ++ [(w_next w, nonneg_var (cv_u d)); (S (w_next w), cvar_shortfall d (e_w o))]) o, Ok tt).
Proof.
  intros d w o H. unfold add_cvar, bind. rewrite add_constraint_open by exact H.
  rewrite add_constraint_open by exact H. cbn [w_sizes w_val w_params w_next]. rewrite set_cons_cons.
  cbn [e_cons set_cons e_w]. rewrite <- app_assoc. reflexivity.
Qed.

Section CVaR.
  Context (w : world) (o : ef) (u : list (nat * con)) (d : cvar_data) (Hop : open_ef w o u) (Hr : cvar_ready w o u d).
  Let rets := cv_returns d.
  Let loss (x : list R) := map Ropp (period_returns rets x).
  Let tail (s : env) : R := hd 0 (s (cv_alpha d)) + 1 / (INR (List.length rets) * (1 - cv_beta d)) * total (s (cv_u d)).

  Lemma loss_length : forall x, List.length (loss x) = List.length rets.
  Proof. intros. unfold loss. rewrite map_length. apply period_returns_length. Qed.
  Lemma alpha_scalar : forall s, well_sized (w_sizes w) s -> s (cv_alpha d) = [hd 0 (s (cv_alpha d))].
  Proof.
    intros s Hs. destruct Hr as [_ [_ [Ea _]]]. pose proof (sized_nth _ _ _ _ Hs Ea) as H.
    destruct (s (cv_alpha d)) as [|a [|]]; try discriminate H. reflexivity.
  Qed.
  Lemma tail_evals : forall s ps, well_sized (w_sizes w) s -> evals s ps (cvar_e d) = tail s.
  Proof. intros s ps Hs. unfold cvar_e. rewrite (evals_tail s ps _ _ _ _ _ (alpha_scalar s Hs)). reflexivity. Qed.
  Lemma tail_eval : forall s ps, well_sized (w_sizes w) s -> eval s ps (cvar_e d) = [tail s].
  Proof. intros s ps Hs. unfold cvar_e. rewrite (eval_tail s ps _ _ _ _ _ (alpha_scalar s Hs)). reflexivity. Qed.
  Lemma cvar_sound : forall s ps, well_sized (w_sizes w) s -> sat s ps (nonneg_var (cv_u d)) -> sat s ps (cvar_shortfall d (e_w o)) ->
    cvar (cv_beta d) rets (s (e_w o)) <= tail s.
  Proof.
    intros s ps Hs H1 H2. pose proof (alpha_scalar s Hs) as Ea. destruct Hr as [[Ht _] [Hb [_ [Eu _]]]].
    apply sat_nonneg_var in H1. apply (sat_shortfall s ps d _ _ Ea (sized_nth _ _ _ _ Hs Eu)) in H2.
    unfold cvar, tail. rewrite <- (loss_length (s (e_w o))).
    apply tail_sound; [exact Hb|rewrite loss_length; exact Ht|exact H1|exact H2].
  Qed.
  Lemma cvar_complete : forall s ps, well_sized (w_sizes w) s -> exists s', well_sized (w_sizes w) s' /\
    (forall v, uses o u v -> s' v = s v) /\ sat s' ps (nonneg_var (cv_u d)) /\ sat s' ps (cvar_shortfall d (e_w o)) /\
    tail s' = cvar (cv_beta d) rets (s (e_w o)).
  Proof.
    intros s ps Hs. destruct Hr as [[Ht _] [Hb [Ea [Eu [Hau [Na Nu]]]]]].
    destruct (tail_reached (cv_beta d) (loss (s (e_w o))) Hb) as [a [H1 [H2 H3]]]; [rewrite loss_length; exact Ht|].
    set (us := map (fun l => Rmax (l - a) 0) (loss (s (e_w o)))) in *.
    set (s' := upd (upd s (cv_alpha d) [a]) (cv_u d) us).
    assert (Ls : List.length us = List.length rets) by (unfold us; rewrite map_length; apply loss_length).
    assert (Wa : e_w o <> cv_alpha d) by (intros E; apply Na; left; congruence).
    assert (Wu : e_w o <> cv_u d) by (intros E; apply Nu; left; congruence).
    assert (Va : s' (cv_alpha d) = [a]) by (unfold s'; rewrite upd_other by exact Hau; apply upd_same).
    assert (Vu : s' (cv_u d) = us) by (unfold s'; apply upd_same).
    assert (Vw : s' (e_w o) = s (e_w o)) by (unfold s'; rewrite !upd_other by assumption; reflexivity).
    exists s'. split.
    - apply upd_sized; [apply upd_sized; [exact Hs|]|].
      + rewrite (nth_error_nth' _ _ _ Ea). reflexivity.
      + rewrite (nth_error_nth' _ _ _ Eu). exact Ls.
    - split; [intros v Hv; unfold s'; rewrite !upd_other; [reflexivity|intros ->; exact (Na Hv)|intros ->; exact (Nu Hv)]|].
      split; [apply sat_nonneg_var; rewrite Vu; exact H1|]. split.
      + apply (sat_shortfall s' ps d _ a Va); [rewrite Vu; exact Ls|]. rewrite Vu, Vw. exact H2.
      + unfold tail. rewrite Va, Vu. cbn [hd]. rewrite <- (loss_length (s (e_w o))). exact H3.
  Qed.

  (** what [portfolio_performance] says after a solve with answer [s] *)
  Lemma cvar_report : forall (w' : world) (o' : ef) m r s, well_sized (w_sizes w) s -> e_weights o' = Some r -> e_mu o' = Some m ->
    w_val w' (cv_alpha d) = Some (s (cv_alpha d)) -> w_val w' (cv_u d) = Some (s (cv_u d)) ->
    cvar_performance d w' o' = Ok (inner m r, Some (tail s)).
  Proof.
    intros w' o' m r s Hs Er Em Va Vu. unfold cvar_performance, tail_performance. rewrite Er, Em, dot_inner. f_equal. f_equal.
    unfold value_of. assert (Ev : evars (cvar_e d) = [cv_alpha d; cv_u d]) by reflexivity. rewrite Ev. cbn [forallb].
    rewrite Va, Vu. cbn [andb]. f_equal. rewrite <- (tail_evals s (par_values w') Hs). unfold evals. f_equal.
    apply eval_agree. rewrite Ev. intros v [<-|[<-|[]]]; [rewrite Va|rewrite Vu]; reflexivity.
  Qed.

  (** C36: min_cvar *)
  Lemma min_cvar_best : forall sv mn w' o' dd, exact_solver sv -> min_cvar sv d mn w o = (w', o', Ok dd) ->
    exists lb ub s, bounds_in_force mn o lb ub /\
      best_at w o u lb ub (if mn then 0 else 1) (fun _ => True) (cvar (cv_beta d) rets) (e_weights o') dd s /\
      forall m, e_mu o = Some m -> exists r, e_weights o' = Some r /\
        cvar_performance d w' o' = Ok (inner m r, Some (cvar (cv_beta d) rets (s (e_w o)))).
  Proof.
    intros sv mn w' o' dd Hsv H. pose proof Hop as [Ho [[i [j Hc]] [Hl [Hu [Hn [Hq [Hm [Ha [Has Hus]]]]]]]]].
    unfold min_cvar in H. unfold bind at 1 in H. rewrite set_objective_full_run in H. unfold bind at 1 in H.
    rewrite add_cvar_run in H by exact Ho. cbn [w_sizes w_val w_params w_next] in H.
    set (w1 := mkWorld _ _ _ _) in H at 1. set (o1 := set_cons _ _) in H.
    destruct (weight_sum_aux sv mn w w1 o o1 u [(S (w_next w), nonneg_var (cv_u d)); (S (S (w_next w)), cvar_shortfall d (e_w o))]
      i j (w_next w) (add_all (cvar_e d) (e_add o)) (fun _ => True) (cvar (cv_beta d) rets) tail [] []
      Hsv Hop Ho eq_refl eq_refl eq_refl eq_refl eq_refl) with (w' := w') (o' := o') (d := dd)
      as [lb [ub [s [H1 [H2 [H3 [H4 [H5 [H6 H7]]]]]]]]].
    - unfold o1. cbn [e_cons set_cons set_obj e_w]. rewrite Hc. reflexivity.
    - unfold w1. cbn [w_sizes]. symmetry; apply app_nil_r.
    - unfold w1, par_values. cbn [w_params]. symmetry; apply app_nil_r.
    - intros s Hs. rewrite (evals_add_all' s _ _ _ (tail s)); [reflexivity|apply tail_eval; exact Hs|exact Ha].
    - intros s Hs Ht HX. split; [exact I|]. rewrite !Forall_cons_iff' in HX. cbn [snd] in HX.
      destruct HX as [HX1 [HX2 _]]. apply (cvar_sound s (par_values w1)); assumption.
    - intros s Hs Ht _. destruct (cvar_complete s (par_values w1) Hs) as [s' [C1 [C2 [C3 [C4 C5]]]]].
      exists s'. split; [exact C1|]. split; [exact C2|]. split; [|right; exact C5].
      constructor; [exact C3|]. constructor; [exact C4|constructor].
    - exact H.
    - exists lb, ub, s. split; [exact H1|]. split; [exact H2|]. intros m Em.
      destruct H2 as [r [Er _]]. exists r. split; [exact Er|]. fold (loss (s (e_w o))). rewrite <- H3.
      apply cvar_report; try assumption; [rewrite H6; exact Em| |]; apply H7; cbn; auto 10.
  Qed.

  (** C37: efficient_risk *)
  Lemma cvar_risk_best : forall sv mn t m w' o' dd, exact_solver sv -> e_mu o = Some m -> fresh_name w o "target_cvar" ->
    cvar_efficient_risk sv d t mn w o = (w', o', Ok dd) ->
    0 <= t /\ exists lb ub s, bounds_in_force mn o lb ub /\
      best_at w o u lb ub (if mn then 0 else 1) (fun x => cvar (cv_beta d) rets x <= t) (fun x => - inner m x) (e_weights o') dd s /\
      exists r rep, e_weights o' = Some r /\ cvar_performance d w' o' = Ok (inner m r, Some rep) /\
        cvar (cv_beta d) rets (s (e_w o)) <= rep <= t.
  Proof.
    intros sv mn t m w' o' dd Hsv Em Hf H. pose proof Hop as [Ho [[i [j Hc]] [Hl [Hu [Hn [Hq [Hm [Ha [Has Hus]]]]]]]]].
    unfold cvar_efficient_risk in H. unfold bind at 1 in H. rewrite not_defined_run in H by exact Hf.
    unfold bind at 1 2, get in H. unfold bind at 1 in H. rewrite (need_mu_run w o m Em (Hm m Em)) in H.
    unfold bind at 1 in H. rewrite set_objective_full_run in H. unfold bind at 1 in H.
    unfold new_param in H. cbn [andb w_sizes w_val w_params w_next] in H. destruct (Rltb t 0) eqn:Et; [discriminate H|].
    apply Rltb_false in Et. split; [exact Et|].
    unfold bind at 1 in H. rewrite add_constraint_open in H by exact Ho. unfold bind at 1 in H.
    rewrite add_cvar_run in H by exact Ho. cbn [w_sizes w_val w_params w_next] in H.
    set (w1 := mkWorld _ _ _ _) in H at 1. set (o1 := set_cons _ _) in H.
    assert (Hpv : par_values w1 = par_values w ++ [t]) by (unfold w1, par_values; cbn [w_params]; rewrite map_app; reflexivity).
    destruct (weight_sum_aux sv mn w w1 o o1 u [(S (w_next w), CIneq (cvar_e d) (EPar (List.length (w_params w))));
        (S (S (w_next w)), nonneg_var (cv_u d)); (S (S (S (w_next w))), cvar_shortfall d (e_w o))]
      i j (w_next w) (add_all (portfolio_return_e (EVar (e_w o)) m true) (e_add o)) (fun x => cvar (cv_beta d) rets x <= t)
      (fun x => - inner m x) (fun s => - inner m (s (e_w o))) [t] []
      Hsv Hop Ho eq_refl eq_refl eq_refl eq_refl eq_refl) with (w' := w') (o' := o') (d := dd)
      as [lb [ub [s [H1 [H2 [H3 [H4 [H5 [H6 H7]]]]]]]]].
    - unfold o1. cbn [e_cons set_cons set_obj e_w]. rewrite Hc. cbn [app]. rewrite <- app_assoc. reflexivity.
    - unfold w1. cbn [w_sizes]. symmetry; apply app_nil_r.
    - exact Hpv.
    - intros s Hs. rewrite evals_add_all by (auto; apply scalar_ret). rewrite evals_ret. cbn [sign_of].
      rewrite (penalty_world w w1 s (e_add o) [t] Hpv Has). lra.
    - intros s Hs Ht HX. rewrite !Forall_cons_iff' in HX. cbn [snd] in HX. destruct HX as [HX0 [HX1 [HX2 _]]].
      split; [|lra]. pose proof (cvar_sound s _ Hs HX1 HX2). rewrite (sat_ineq1 s _ _ _ (tail s) t) in HX0; [lra|apply tail_eval; exact Hs|].
      cbn [eval]. rewrite Hpv, par_new. reflexivity.
    - intros s Hs Ht Hok. destruct (cvar_complete s (par_values w1) Hs) as [s' [C1 [C2 [C3 [C4 C5]]]]].
      exists s'. split; [exact C1|]. split; [exact C2|]. split; [|rewrite C2 by (left; reflexivity); lra].
      constructor; [|constructor; [exact C3|]; constructor; [exact C4|constructor]]. cbn [snd].
      rewrite (sat_ineq1 s' _ _ _ (tail s') t); [rewrite C5; exact Hok|apply tail_eval; exact C1|].
      cbn [eval]. rewrite Hpv, par_new. reflexivity.
    - exact H.
    - exists lb, ub, s. split; [exact H1|]. split; [exact H2|].
      destruct H2 as [r [Er _]]. exists r, (tail s). split; [exact Er|]. split.
      + apply cvar_report; try assumption; [rewrite H6; exact Em| |]; apply H7; cbn; auto 10.
      + rewrite !Forall_cons_iff' in H5. cbn [snd] in H5. destruct H5 as [HX0 [HX1 [HX2 _]]].
        split; [apply (cvar_sound s _ H4 HX1 HX2)|]. rewrite (sat_ineq1 s _ _ _ (tail s) t) in HX0; [exact HX0|apply tail_eval; exact H4|].
        cbn [eval]. rewrite Hpv, par_new. reflexivity.
  Qed.

  Lemma need_mu_T_run : forall (w : world) (o : ef) m, e_mu o = Some m -> List.length m = e_n o -> need_mu_T w o = (w, o, Ok m).
  Proof. intros w0 o0 m H1 H2. unfold need_mu_T, bind, get. rewrite H1, H2, Nat.eqb_refl. reflexivity. Qed.

  (** C36: efficient_return *)
  Lemma cvar_return_best : forall sv mn t m w' o' dd, exact_solver sv -> e_mu o = Some m -> fresh_name w o "target_return" ->
    cvar_efficient_return sv d t mn w o = (w', o', Ok dd) ->
    exists lb ub s, bounds_in_force mn o lb ub /\
      best_at w o u lb ub (if mn then 0 else 1) (fun x => t <= inner m x) (cvar (cv_beta d) rets) (e_weights o') dd s /\
      exists r, e_weights o' = Some r /\
        cvar_performance d w' o' = Ok (inner m r, Some (cvar (cv_beta d) rets (s (e_w o)))).
  Proof.
    intros sv mn t m w' o' dd Hsv Em Hf H. pose proof Hop as [Ho [[i [j Hc]] [Hl [Hu [Hn [Hq [Hm [Ha [Has Hus]]]]]]]]].
    unfold cvar_efficient_return in H. unfold bind at 1 in H. rewrite not_defined_run in H by exact Hf.
    unfold bind at 1 2 in H. rewrite set_objective_full_run in H. unfold bind at 1 in H.
    rewrite add_cvar_run in H by exact Ho. cbn [w_sizes w_val w_params w_next] in H.
    unfold bind at 1 in H. erewrite (need_mu_T_run _ _ m) in H; [|exact Em|exact (Hm m Em)].
    unfold bind at 1 in H. rewrite new_param_run in H by discriminate. cbn [w_sizes w_val w_params w_next] in H.
    unfold bind at 1 in H. rewrite add_constraint_open in H by exact Ho. cbn [w_sizes w_val w_params w_next] in H.
    set (w1 := mkWorld _ _ _ _) in H at 1. set (o1 := set_cons _ _) in H.
    assert (Hpv : par_values w1 = par_values w ++ [t]) by (unfold w1, par_values; cbn [w_params]; rewrite map_app; reflexivity).
    assert (Hret : forall s, sat s (par_values w1) (CIneq (EPar (List.length (w_params w))) (EDot m (EVar (e_w o)))) <-> t <= inner m (s (e_w o))).
    { intros s. rewrite (sat_ineq1 s _ _ _ t (inner m (s (e_w o)))); [reflexivity|cbn [eval]; rewrite Hpv, par_new; reflexivity|].
      cbn [eval]. rewrite dot_inner. reflexivity. }
    destruct (weight_sum_aux sv mn w w1 o o1 u [(S (w_next w), nonneg_var (cv_u d)); (S (S (w_next w)), cvar_shortfall d (e_w o));
        (S (S (S (w_next w))), CIneq (EPar (List.length (w_params w))) (EDot m (EVar (e_w o))))]
      i j (w_next w) (add_all (cvar_e d) (e_add o)) (fun x => t <= inner m x) (cvar (cv_beta d) rets) tail [t] []
      Hsv Hop Ho eq_refl eq_refl eq_refl eq_refl eq_refl) with (w' := w') (o' := o') (d := dd)
      as [lb [ub [s [H1 [H2 [H3 [H4 [H5 [H6 H7]]]]]]]]].
    - unfold o1. cbn [e_cons set_cons set_obj e_w]. rewrite Hc. cbn [app]. rewrite <- app_assoc. reflexivity.
    - unfold w1. cbn [w_sizes]. symmetry; apply app_nil_r.
    - exact Hpv.
    - intros s Hs. rewrite (evals_add_all' s _ _ _ (tail s)); [|apply tail_eval; exact Hs|exact Ha].
      rewrite (penalty_world w w1 s (e_add o) [t] Hpv Has). reflexivity.
    - intros s Hs Ht HX. rewrite !Forall_cons_iff' in HX. cbn [snd] in HX.
      destruct HX as [HX1 [HX2 [HX3 _]]]. split; [apply Hret; exact HX3|]. apply (cvar_sound s (par_values w1)); assumption.
    - intros s Hs Ht Hok. destruct (cvar_complete s (par_values w1) Hs) as [s' [C1 [C2 [C3 [C4 C5]]]]].
      exists s'. split; [exact C1|]. split; [exact C2|]. split; [|right; exact C5].
      constructor; [exact C3|]. constructor; [exact C4|]. constructor; [|constructor]. cbn [snd]. apply Hret.
      rewrite C2 by (left; reflexivity). exact Hok.
    - exact H.
    - exists lb, ub, s. split; [exact H1|]. split; [exact H2|].
      destruct H2 as [r [Er _]]. exists r. split; [exact Er|]. rewrite <- H3.
      apply cvar_report; try assumption; [rewrite H6; exact Em| |]; apply H7; cbn; auto 10.
  Qed.

  (** a best portfolio is found if there is one *)
  Lemma min_cvar_answers : forall sv mn, complete_solver sv ->
    (exists lb ub s, bounds_in_force mn o lb ub /\ least w o u lb ub (if mn then 0 else 1) (fun _ => True) (cvar (cv_beta d) rets) s) ->
    exists w' o' dd, min_cvar sv d mn w o = (w', o', Ok dd).
  Proof.
    intros sv mn Hsv [lb0 [ub0 [s0 [Hb0 Hls]]]]. destruct (min_cvar sv d mn w o) as [[w' o'] rr] eqn:H. pose proof Hop as [Ho [[i [j Hc]] [Hl [Hu [Hn [Hq [Hm [Ha [Has Hus]]]]]]]]].
    unfold min_cvar in H. unfold bind at 1 in H. rewrite set_objective_full_run in H. unfold bind at 1 in H.
    rewrite add_cvar_run in H by exact Ho. cbn [w_sizes w_val w_params w_next] in H.
    set (w1 := mkWorld _ _ _ _) in H at 1. set (o1 := set_cons _ _) in H.
    destruct (weight_sum_answers sv mn w w1 o o1 u [(S (w_next w), nonneg_var (cv_u d)); (S (S (w_next w)), cvar_shortfall d (e_w o))]
      i j (w_next w) (add_all (cvar_e d) (e_add o)) (fun _ => True) (cvar (cv_beta d) rets) tail [] []
      Hsv Hop Ho eq_refl eq_refl eq_refl eq_refl eq_refl) with (lb0 := lb0) (ub0 := ub0) (s0 := s0)
      as [w'' [o'' [d'' E]]].
    - unfold o1. cbn [e_cons set_cons set_obj e_w]. rewrite Hc. reflexivity.
    - unfold w1. cbn [w_sizes]. symmetry; apply app_nil_r.
    - unfold w1, par_values. cbn [w_params]. symmetry; apply app_nil_r.
    - intros s Hs. rewrite (evals_add_all' s _ _ _ (tail s)); [reflexivity|apply tail_eval; exact Hs|exact Ha].
    - intros s Hs Ht HX. split; [exact I|]. rewrite !Forall_cons_iff' in HX. cbn [snd] in HX.
      destruct HX as [HX1 [HX2 _]]. apply (cvar_sound s (par_values w1)); assumption.
    - intros s Hs Ht _. destruct (cvar_complete s (par_values w1) Hs) as [s' [C1 [C2 [C3 [C4 C5]]]]].
      exists s'. split; [exact C1|]. split; [exact C2|]. split; [|right; exact C5].
      constructor; [exact C3|]. constructor; [exact C4|constructor].
    - exact Hb0.
    - exact Hls.
    - pose proof (eq_trans (eq_sym E) H) as HH. inversion HH; subst. eauto.
  Qed.
  Lemma cvar_risk_answers : forall sv mn t m, complete_solver sv -> e_mu o = Some m -> fresh_name w o "target_cvar" -> 0 <= t ->
    (exists lb ub s, bounds_in_force mn o lb ub /\ least w o u lb ub (if mn then 0 else 1) (fun x => cvar (cv_beta d) rets x <= t) (fun x => - inner m x) s) ->
    exists w' o' dd, cvar_efficient_risk sv d t mn w o = (w', o', Ok dd).
  Proof.
    intros sv mn t m Hsv Em Hf Ht0 [lb0 [ub0 [s0 [Hb0 Hls]]]]. destruct (cvar_efficient_risk sv d t mn w o) as [[w' o'] rr] eqn:H. pose proof Hop as [Ho [[i [j Hc]] [Hl [Hu [Hn [Hq [Hm [Ha [Has Hus]]]]]]]]].
    unfold cvar_efficient_risk in H. unfold bind at 1 in H. rewrite not_defined_run in H by exact Hf.
    unfold bind at 1 2, get in H. unfold bind at 1 in H. rewrite (need_mu_run w o m Em (Hm m Em)) in H.
    unfold bind at 1 in H. rewrite set_objective_full_run in H. unfold bind at 1 in H.
    unfold new_param in H. cbn [andb w_sizes w_val w_params w_next] in H. rewrite (proj2 (Rltb_false t 0)) in H by lra.
    unfold bind at 1 in H. rewrite add_constraint_open in H by exact Ho. unfold bind at 1 in H.
    rewrite add_cvar_run in H by exact Ho. cbn [w_sizes w_val w_params w_next] in H.
    set (w1 := mkWorld _ _ _ _) in H at 1. set (o1 := set_cons _ _) in H.
    assert (Hpv : par_values w1 = par_values w ++ [t]) by (unfold w1, par_values; cbn [w_params]; rewrite map_app; reflexivity).
    destruct (weight_sum_answers sv mn w w1 o o1 u [(S (w_next w), CIneq (cvar_e d) (EPar (List.length (w_params w))));
        (S (S (w_next w)), nonneg_var (cv_u d)); (S (S (S (w_next w))), cvar_shortfall d (e_w o))]
      i j (w_next w) (add_all (portfolio_return_e (EVar (e_w o)) m true) (e_add o)) (fun x => cvar (cv_beta d) rets x <= t)
      (fun x => - inner m x) (fun s => - inner m (s (e_w o))) [t] []
      Hsv Hop Ho eq_refl eq_refl eq_refl eq_refl eq_refl) with (lb0 := lb0) (ub0 := ub0) (s0 := s0)
      as [w'' [o'' [d'' E]]].
    - unfold o1. cbn [e_cons set_cons set_obj e_w]. rewrite Hc. cbn [app]. rewrite <- app_assoc. reflexivity.
    - unfold w1. cbn [w_sizes]. symmetry; apply app_nil_r.
    - exact Hpv.
    - intros s Hs. rewrite evals_add_all by (auto; apply scalar_ret). rewrite evals_ret. cbn [sign_of].
      rewrite (penalty_world w w1 s (e_add o) [t] Hpv Has). lra.
    - intros s Hs Ht HX. rewrite !Forall_cons_iff' in HX. cbn [snd] in HX. destruct HX as [HX0 [HX1 [HX2 _]]].
      split; [|lra]. pose proof (cvar_sound s _ Hs HX1 HX2). rewrite (sat_ineq1 s _ _ _ (tail s) t) in HX0; [lra|apply tail_eval; exact Hs|].
      cbn [eval]. rewrite Hpv, par_new. reflexivity.
    - intros s Hs Ht Hok. destruct (cvar_complete s (par_values w1) Hs) as [s' [C1 [C2 [C3 [C4 C5]]]]].
      exists s'. split; [exact C1|]. split; [exact C2|]. split; [|rewrite C2 by (left; reflexivity); lra].
      constructor; [|constructor; [exact C3|]; constructor; [exact C4|constructor]]. cbn [snd].
      rewrite (sat_ineq1 s' _ _ _ (tail s') t); [rewrite C5; exact Hok|apply tail_eval; exact C1|].
      cbn [eval]. rewrite Hpv, par_new. reflexivity.
    - exact Hb0.
    - exact Hls.
    - pose proof (eq_trans (eq_sym E) H) as HH. inversion HH; subst. eauto.
  Qed.
  Lemma cvar_return_answers : forall sv mn t m, complete_solver sv -> e_mu o = Some m -> fresh_name w o "target_return" ->
    (exists lb ub s, bounds_in_force mn o lb ub /\ least w o u lb ub (if mn then 0 else 1) (fun x => t <= inner m x) (cvar (cv_beta d) rets) s) ->
    exists w' o' dd, cvar_efficient_return sv d t mn w o = (w', o', Ok dd).
  Proof.
    intros sv mn t m Hsv Em Hf [lb0 [ub0 [s0 [Hb0 Hls]]]]. destruct (cvar_efficient_return sv d t mn w o) as [[w' o'] rr] eqn:H. pose proof Hop as [Ho [[i [j Hc]] [Hl [Hu [Hn [Hq [Hm [Ha [Has Hus]]]]]]]]].
    unfold cvar_efficient_return in H. unfold bind at 1 in H. rewrite not_defined_run in H by exact Hf.
    unfold bind at 1 2 in H. rewrite set_objective_full_run in H. unfold bind at 1 in H.
    rewrite add_cvar_run in H by exact Ho. cbn [w_sizes w_val w_params w_next] in H.
    unfold bind at 1 in H. erewrite (need_mu_T_run _ _ m) in H; [|exact Em|exact (Hm m Em)].
    unfold bind at 1 in H. rewrite new_param_run in H by discriminate. cbn [w_sizes w_val w_params w_next] in H.
    unfold bind at 1 in H. rewrite add_constraint_open in H by exact Ho. cbn [w_sizes w_val w_params w_next] in H.
    set (w1 := mkWorld _ _ _ _) in H at 1. set (o1 := set_cons _ _) in H.
    assert (Hpv : par_values w1 = par_values w ++ [t]) by (unfold w1, par_values; cbn [w_params]; rewrite map_app; reflexivity).
    assert (Hret : forall s, sat s (par_values w1) (CIneq (EPar (List.length (w_params w))) (EDot m (EVar (e_w o)))) <-> t <= inner m (s (e_w o))).
    { intros s. rewrite (sat_ineq1 s _ _ _ t (inner m (s (e_w o)))); [reflexivity|cbn [eval]; rewrite Hpv, par_new; reflexivity|].
      cbn [eval]. rewrite dot_inner. reflexivity. }
    destruct (weight_sum_answers sv mn w w1 o o1 u [(S (w_next w), nonneg_var (cv_u d)); (S (S (w_next w)), cvar_shortfall d (e_w o));
        (S (S (S (w_next w))), CIneq (EPar (List.length (w_params w))) (EDot m (EVar (e_w o))))]
      i j (w_next w) (add_all (cvar_e d) (e_add o)) (fun x => t <= inner m x) (cvar (cv_beta d) rets) tail [t] []
      Hsv Hop Ho eq_refl eq_refl eq_refl eq_refl eq_refl) with (lb0 := lb0) (ub0 := ub0) (s0 := s0)
      as [w'' [o'' [d'' E]]].
    - unfold o1. cbn [e_cons set_cons set_obj e_w]. rewrite Hc. cbn [app]. rewrite <- app_assoc. reflexivity.
    - unfold w1. cbn [w_sizes]. symmetry; apply app_nil_r.
    - exact Hpv.
    - intros s Hs. rewrite (evals_add_all' s _ _ _ (tail s)); [|apply tail_eval; exact Hs|exact Ha].
      rewrite (penalty_world w w1 s (e_add o) [t] Hpv Has). reflexivity.
    - intros s Hs Ht HX. rewrite !Forall_cons_iff' in HX. cbn [snd] in HX.
      destruct HX as [HX1 [HX2 [HX3 _]]]. split; [apply Hret; exact HX3|]. apply (cvar_sound s (par_values w1)); assumption.
    - intros s Hs Ht Hok. destruct (cvar_complete s (par_values w1) Hs) as [s' [C1 [C2 [C3 [C4 C5]]]]].
      exists s'. split; [exact C1|]. split; [exact C2|]. split; [|right; exact C5].
      constructor; [exact C3|]. constructor; [exact C4|]. constructor; [|constructor]. cbn [snd]. apply Hret.
      rewrite C2 by (left; reflexivity). exact Hok.
    - exact Hb0.
    - exact Hls.
    - pose proof (eq_trans (eq_sym E) H) as HH. inversion HH; subst. eauto.
  Qed.
End CVaR.
