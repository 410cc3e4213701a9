(** * Exceptions of a first call (C132) *)
From Coq Require Import ZArith List String Bool Reals Lra Lia.
From Verif Require Import Num Py RBase PyLemmas MBase MConvex MEF MDown SLin SBase SConvex SErrors Sums PBase PConvex PEF PEF2 PEF3 PEF4 PDown2 PDown3 PDown4.
Import ListNotations.
Local Open Scope R_scope.

Definition settled {X} (r : res X) : Prop := match r with Ok _ => True | Err e => e = OptimizationError end.
Lemma settled_table : forall {X} (r : res X), settled r -> rejects_exactly False r.
Proof.
  intros X r H. split.
  - split; [|tauto]. intros ->. cbn in H. discriminate H.
  - intros e ->. cbn in H. subst e. auto.
Qed.
Lemma settled_not : forall {X} (r : res X) (bad : Prop), settled r -> ~ bad -> rejects_exactly bad r.
Proof.
  intros X r bad H Hn. destruct (settled_table r H) as [H1 H2]. split; [|exact H2].
  split; [|tauto]. intros E. apply H1 in E. destruct E.
Qed.
Lemma rejected : forall {X} (r : res X) (bad : Prop), r = Err ValueError -> bad -> rejects_exactly bad r.
Proof. intros X r bad -> H. split; [tauto|]. intros e E. inversion E. auto. Qed.

Section First.
  Context (sv : solver_t) (Hsv : usual_solver sv) (m : list R).

  Definition weak (o : ef) : Prop := e_opt o = None /\ exists i e, e_obj o = Some (i, e).
  Definition rdy (b : bool) (o : ef) : Prop :=
    e_opt o = None /\ (exists i j u, e_cons o = (i, lower_con (e_lb o) (e_w o)) :: (j, upper_con (e_ub o) (e_w o)) :: u) /\
    square (e_n o) (e_cov o) /\ e_mu o = Some m /\ List.length m = e_n o /\ (b = true -> exists i e, e_obj o = Some (i, e)).
  Definition st {X} (b b' : bool) (a : M ef X) : Prop :=
    forall w o, rdy b o -> exists w' o' x, a w o = (w', o', Ok x) /\ rdy b' o'.
  Definition pm (b : bool) (a : M ef unit) : Prop :=
    forall w o, rdy b o -> exists w' o', a w o = (w', o', Ok tt) /\ weak o'.
  Definition fin {X} (b : bool) (a : M ef X) : Prop := forall w o, rdy b o -> settled (snd (a w o)).

  Lemma open_rdy : forall w o u, open_ef w o u -> e_mu o = Some m -> rdy false o.
  Proof.
    intros w o u [Ho [[i [j Hc]] [Hl [Hu [Hn [Hq [Hm _]]]]]]] Em.
    split; [exact Ho|]. split; [exists i, j, u; exact Hc|]. split; [exact Hq|]. split; [exact Em|]. split; [exact (Hm _ Em)|discriminate].
  Qed.

  Lemma pm_bind : forall {X} b b' (a : M ef X) k, st b b' a -> (forall x, pm b' (k x)) -> pm b (bind a k).
  Proof.
    intros X b b' a k Ha Hk w o H. destruct (Ha w o H) as [w' [o' [x [E H']]]].
    destruct (Hk x w' o' H') as [w2 [o2 [E2 H2]]]. exists w2, o2. split; [|exact H2]. unfold bind. rewrite E. exact E2.
  Qed.
  Lemma fin_bind : forall {X Y} b b' (a : M ef X) (k : X -> M ef Y), st b b' a -> (forall x, fin b' (k x)) -> fin b (bind a k).
  Proof.
    intros X Y b b' a k Ha Hk w o H. destruct (Ha w o H) as [w' [o' [x [E H']]]].
    unfold bind. rewrite E. exact (Hk x w' o' H').
  Qed.
  Lemma st_bind : forall {X Y} b b' b'' (a : M ef X) (k : X -> M ef Y), st b b' a -> (forall x, st b' b'' (k x)) -> st b b'' (bind a k).
  Proof.
    intros X Y b b' b'' a k Ha Hk w o H. destruct (Ha w o H) as [w' [o' [x [E H']]]].
    destruct (Hk x w' o' H') as [w2 [o2 [y [E2 H2]]]]. exists w2, o2, y. split; [|exact H2]. unfold bind. rewrite E. exact E2.
  Qed.
  Lemma outcome_settled : forall ts v sizes ps e cs, settled (outcome ts v (sv sizes ps e cs)).
  Proof.
    intros. pose proof (Hsv sizes ps e cs) as H. destruct (sv sizes ps e cs) as [s x|u|x]; cbn; [exact I|reflexivity|].
    destruct (H x eq_refl) as [->| ->]; reflexivity.
  Qed.
  Lemma weak_solve : forall w o, weak o -> settled (snd (solve_and_output sv w o)).
  Proof.
    intros w o [Ho [i [e He]]]. destruct (solve_output_run sv w o i e (e_cons o) He eq_refl (or_introl Ho)) as [w' [o' [E _]]].
    rewrite E. apply outcome_settled.
  Qed.
  Lemma fin_solve : fin true (solve_and_output sv).
  Proof. intros w o [Ho [_ [_ [_ [_ Hb]]]]]. apply weak_solve. split; [exact Ho|exact (Hb eq_refl)]. Qed.
  Lemma fin_pm : forall b a, pm b a -> fin b (bind a (fun _ => solve_and_output sv)).
  Proof. intros b a Ha w o H. destruct (Ha w o H) as [w' [o' [E H']]]. unfold bind. rewrite E. apply weak_solve, H'. Qed.

  (** the steps *)
  Lemma st_get : forall b, st b b get.
  Proof. intros b w o H. exists w, o, o. split; [reflexivity|exact H]. Qed.
  Lemma st_obj : forall b e, st b true (set_objective e).
  Proof.
    intros b e w o [H1 [H2 [H3 [H4 [H5 H6]]]]]. rewrite set_objective_run. eexists _, _, _. split; [reflexivity|].
    split; [exact H1|]. split; [exact H2|]. split; [exact H3|]. split; [exact H4|]. split; [exact H5|]. intros _. eexists _, _. reflexivity.
  Qed.
  Lemma st_full : forall b e, st b true (set_objective_full e).
  Proof.
    intros b e w o [H1 [H2 [H3 [H4 [H5 H6]]]]]. rewrite set_objective_full_run. eexists _, _, _. split; [reflexivity|].
    split; [exact H1|]. split; [exact H2|]. split; [exact H3|]. split; [exact H4|]. split; [exact H5|]. intros _. eexists _, _. reflexivity.
  Qed.
  Lemma st_cov : forall b, st b b check_cov.
  Proof. intros b w o H. rewrite check_cov_run by apply H. eexists _, _, _. split; [reflexivity|exact H]. Qed.
  Lemma st_mu : forall b, st b b need_mu.
  Proof. intros b w o H. rewrite (need_mu_run w o m) by apply H. eexists _, _, _. split; [reflexivity|exact H]. Qed.
  Lemma st_mu_T : forall b, st b b need_mu_T.
  Proof.
    intros b w o H. pose proof H as [_ [_ [_ [H4 [H5 _]]]]]. exists w, o, m. split; [|exact H].
    unfold need_mu_T, bind, get. rewrite H4, H5, Nat.eqb_refl. reflexivity.
  Qed.
  Lemma st_var : forall b n, st b b (new_var n).
  Proof. intros b n w o H. eexists _, _, _. split; [reflexivity|exact H]. Qed.
  Lemma st_par : forall b s nn v, (nn = true -> 0 <= v) -> st b b (new_param s nn v).
  Proof. intros b s nn v Hv w o H. rewrite new_param_run by exact Hv. eexists _, _, _. split; [reflexivity|exact H]. Qed.
  Lemma st_con : forall b f, st b b (add_constraint (CFun f)).
  Proof.
    intros b f w o [H1 [[i [j [u H2]]] [H3 [H4 [H5 H6]]]]]. rewrite add_constraint_open by exact H1. eexists _, _, _. split; [reflexivity|].
    split; [exact H1|]. split; [exists i, j, (u ++ [(w_next w, f (e_w o))]); cbn [e_cons set_cons e_lb e_ub e_w]; rewrite H2; reflexivity|].
    split; [exact H3|]. split; [exact H4|]. split; [exact H5|exact H6].
  Qed.
  Lemma st_split : forall b d p n, st b b (add_split d p n).
  Proof. intros. unfold add_split. eapply st_bind; [apply st_con|intros _]. eapply st_bind; [apply st_con|intros _]. apply st_con. Qed.
  Lemma st_cvar : forall b d, st b b (add_cvar d).
  Proof. intros. unfold add_cvar. eapply st_bind; [apply st_con|intros _]. apply st_con. Qed.
  Lemma st_cdar : forall b d, st b b (add_cdar d).
  Proof. intros. unfold add_cdar. do 4 (eapply st_bind; [apply st_con|intros _]). apply st_con. Qed.
  Lemma pm_sum : forall mn, pm true (make_weight_sum_constraint mn).
  Proof.
    intros mn w o [H1 [[i [j [u H2]]] [H3 [H4 [H5 H6]]]]].
    destruct (weight_sum_exact mn w o u i j H1 H2) as [w' [o' [E [_ [_ [_ [S _]]]]]]]. exists w', o'. split; [exact E|].
    destruct S as [S1 [S2 [S3 [S4 [S5 [S6 S7]]]]]]. split; [congruence|]. destruct (H6 eq_refl) as [i0 [e0 E0]]. exists i0, e0. congruence.
  Qed.
  Lemma fin_add : forall b {X} f (k : unit -> M ef X), (forall x, fin b (k x)) -> fin b (bind (add_constraint (CFun f)) k).
  Proof. intros. eapply fin_bind; [apply st_con|assumption]. Qed.

  (** a call whose parameter is new *)
  Lemma fresh_step : forall {X} name w o (k : bool -> M ef X), unused_name w o name ->
    bind (is_parameter_defined name) k w o = k false w o.
  Proof.
    intros X name w o k H. unfold bind. rewrite not_defined_run; [reflexivity|].
    intros p Hp. apply H. apply in_or_app. left. exact Hp.
  Qed.

  Ltac stp := first [apply st_get|apply st_full|apply st_obj|apply st_cov|apply st_mu|apply st_mu_T|apply st_var|apply st_split|apply st_cvar|apply st_cdar|apply st_con].
  Ltac pms := repeat first [apply pm_sum | eapply pm_bind; [first [stp|apply st_par; intros _; nra|apply st_par; discriminate]|intros ?]].
  Ltac fins := repeat first [apply fin_solve | apply fin_pm; solve [pms] | eapply fin_bind; [first [stp|apply st_par; intros _; nra|apply st_par; discriminate]|intros ?]].

  Context (w : world) (o : ef) (u : list (nat * con)) (Hopen : open_ef w o u) (Em : e_mu o = Some m).
  Let Hr : rdy false o := open_rdy w o u Hopen Em.

  Lemma minvol_table : rejects_exactly False (snd (min_volatility sv w o)).
  Proof. apply settled_table. cut (fin false (min_volatility sv)); [intros Hf; exact (Hf w o Hr)|]. unfold min_volatility, sum_is. fins. Qed.

  Lemma utility_table : forall ra mn, unused_name w o "risk_aversion" ->
    rejects_exactly (ra <= 0) (snd (max_quadratic_utility sv ra mn w o)).
  Proof.
    intros ra mn Hun. unfold max_quadratic_utility. destruct (Rleb ra 0) eqn:E.
    - apply rejected; [reflexivity|apply Rleb_true; exact E].
    - apply Rleb_false in E. apply settled_not; [|lra]. rewrite fresh_step by exact Hun. cbv iota.
      match goal with |- settled (snd (?f w o)) => cut (fin false f); [intros Hf; exact (Hf w o Hr)|] end.
      fins.
  Qed.

  Lemma is_number_target : forall t x, target_of t = Some x -> forall y, is_number t y <-> y = x.
  Proof.
    intros [a|z|] x H y; cbn in H; inversion H; subst; split.
    - intros [E|[z [E _]]]; inversion E; reflexivity.
    - intros ->. left; reflexivity.
    - intros [E|[z' [E ->]]]; inversion E; reflexivity.
    - intros ->. right. exists z. auto.
  Qed.

  Lemma risk_table : forall pinv t mn, unused_name w o "target_variance" ->
    rejects_exactly (forall x, is_number t x -> x < 0 \/ below_lowest (total (map total (pinv (e_cov o)))) x)
      (snd (efficient_risk sv pinv t mn w o)).
  Proof.
    intros pinv t mn Hun. unfold efficient_risk. destruct (target_of t) as [x|] eqn:Et.
    - pose proof (is_number_target t x Et) as Hx.
      destruct (Rltb x 0) eqn:E0.
      + apply rejected; [reflexivity|]. intros y Hy. apply Hx in Hy. subst y. left. apply Rltb_true. exact E0.
      + apply Rltb_false in E0. unfold bind at 1, get.
        assert (B : below_global_min pinv (e_cov o) x = true <-> below_lowest (total (map total (pinv (e_cov o)))) x).
        { unfold below_global_min, below_lowest. rewrite vsum_total.
          rewrite (map_ext (@vsum R _) total) by (intros; apply vsum_total).
          set (s := total (map total (pinv (e_cov o)))). destruct (Reqb s 0) eqn:Es.
          - apply Reqb_true in Es. split; auto.
          - apply Reqb_false in Es. destruct (Rltb s 0) eqn:Es0.
            + apply Rltb_true in Es0. split; [discriminate|]. intros [H|[H _]]; lra.
            + apply Rltb_false in Es0. assert (Hs : 0 < s) by lra. assert (Hi : 0 < 1 / s) by (apply Rdiv_lt_0_compat; lra).
              rewrite Rltb_true. split.
              * intros H. right. split; [exact Hs|]. rewrite <- (sqrt_sqrt (1 / s)) by lra. pose proof (sqrt_pos (1 / s)). nra.
              * intros [H|[_ H]]; [lra|]. rewrite <- (sqrt_sqrt (1 / s)) in H by lra. pose proof (sqrt_pos (1 / s)). nra. }
        destruct (below_global_min pinv (e_cov o) x) eqn:Eb.
        * apply rejected; [reflexivity|]. intros y Hy. apply Hx in Hy. subst y. right. apply B. reflexivity.
        * apply settled_not.
          2:{ intros H. destruct (H x) as [H1|H1]; [apply Hx; reflexivity|lra|]. apply B in H1. discriminate H1. }
          rewrite fresh_step by exact Hun. cbv iota.
          match goal with |- settled (snd (?f w o)) => cut (fin false f); [intros Hf; exact (Hf w o Hr)|] end.
          fins.
    - apply rejected; [reflexivity|]. intros y [->|[z [-> _]]]; discriminate Et.
  Qed.

  (** ** the downside optimisers *)
  Lemma semi_min_table : forall d mn, rejects_exactly False (snd (min_semivariance sv d mn w o)).
  Proof.
    intros d mn. apply settled_table. cut (fin false (min_semivariance sv d mn)); [intros Hf; exact (Hf w o Hr)|].
    unfold min_semivariance. do 3 (eapply fin_bind; [stp|intros ?]). eapply fin_bind; [stp|intros ?]. apply fin_pm, pm_sum.
  Qed.
  Lemma semi_utility_table : forall d ra mn, unused_name w o "risk_aversion" ->
    rejects_exactly (ra <= 0) (snd (semi_max_quadratic_utility sv d ra mn w o)).
  Proof.
    intros d ra mn Hun. unfold semi_max_quadratic_utility. destruct (Rleb ra 0) eqn:E.
    - apply rejected; [reflexivity|apply Rleb_true; exact E].
    - apply Rleb_false in E. apply settled_not; [|lra]. rewrite fresh_step by exact Hun. cbv iota.
      match goal with |- settled (snd (?f w o)) => cut (fin false f); [intros Hf; exact (Hf w o Hr)|] end.
      fins.
  Qed.
  Lemma semi_risk_table : forall d t mn, unused_name w o "target_semivariance" ->
    rejects_exactly False (snd (semi_efficient_risk sv d t mn w o)).
  Proof.
    intros d t mn Hun. unfold semi_efficient_risk. apply settled_table. rewrite fresh_step by exact Hun. cbv iota.
    match goal with |- settled (snd (?f w o)) => cut (fin false f); [intros Hf; exact (Hf w o Hr)|] end.
    fins.
  Qed.

  Lemma list_max_ge : forall l mx, list_max l = Some mx -> In mx l /\ forall a, In a l -> a <= mx.
  Proof.
    intros [|x l] mx H; [discriminate|]. cbn [list_max] in H. inversion H; subst mx. clear H.
    revert x. induction l as [|y l IH]; intros x; cbn [fold_left].
    - split; [left; reflexivity|]. intros a [<-|[]]. lra.
    - destruct (IH (Rmax x y)) as [H1 H2]. split.
      + destruct H1 as [H1|H1]; [|right; right; exact H1]. rewrite <- H1. unfold Rmax. destruct (Rle_dec x y); [right; left|left]; reflexivity.
      + intros a [<-|[<-|Ha]].
        * eapply Rle_trans; [apply (Rmax_l x y)|]. apply H2. left; reflexivity.
        * eapply Rle_trans; [apply (Rmax_r x y)|]. apply H2. left; reflexivity.
        * apply H2. right; exact Ha.
  Qed.

  Lemma semi_return_table : forall d t mn, unused_name w o "target_return" ->
    rejects_exactly (forall x, t = NFloat x -> x < 0 \/ all_smaller x (map Rabs m)) (snd (semi_efficient_return sv d t mn w o)).
  Proof.
    intros d t mn Hun. unfold semi_efficient_return.
    destruct t as [x|z|]; try (apply rejected; [reflexivity|intros y Hy; discriminate Hy]).
    destruct (Rltb x 0) eqn:E0.
    - apply rejected; [reflexivity|]. intros y Hy. inversion Hy; subst y. left. apply Rltb_true. exact E0.
    - apply Rltb_false in E0. unfold bind at 1, get. rewrite Em.
      destruct (list_max (map Rabs m)) as [mx|] eqn:El.
      + destruct (list_max_ge _ _ El) as [Hin Hge]. destruct (Rltb mx x) eqn:Ex.
        * apply rejected; [reflexivity|]. intros y Hy. inversion Hy; subst y. right. intros a Ha.
          apply Rltb_true in Ex. specialize (Hge a Ha). lra.
        * apply Rltb_false in Ex. apply settled_not.
          2:{ intros H. destruct (H x eq_refl) as [H1|H1]; [lra|]. specialize (H1 mx Hin). lra. }
          rewrite fresh_step by exact Hun. cbv iota.
          match goal with |- settled (snd (?f w o)) => cut (fin false f); [intros Hf; exact (Hf w o Hr)|] end.
          fins.
      + apply rejected; [reflexivity|]. intros y Hy. right. intros a Ha.
        destruct (map Rabs m); [destruct Ha|discriminate El].
  Qed.

  Lemma cvar_min_table : forall d mn, rejects_exactly False (snd (min_cvar sv d mn w o)).
  Proof.
    intros d mn. apply settled_table. cut (fin false (min_cvar sv d mn)); [intros Hf; exact (Hf w o Hr)|].
    unfold min_cvar. fins.
  Qed.
  Lemma cvar_return_table : forall d t mn, unused_name w o "target_return" ->
    rejects_exactly False (snd (cvar_efficient_return sv d t mn w o)).
  Proof.
    intros d t mn Hun. unfold cvar_efficient_return. apply settled_table. rewrite fresh_step by exact Hun. cbv iota.
    match goal with |- settled (snd (?f w o)) => cut (fin false f); [intros Hf; exact (Hf w o Hr)|] end.
    fins.
  Qed.
  Lemma bad_param : forall {X} s v w o (k : nat -> M ef X), v < 0 -> snd (bind (new_param s true v) k w o) = Err ValueError.
  Proof.
    intros X s v w1 o1 k H. unfold bind, new_param. apply Rltb_true in H. rewrite H. reflexivity.
  Qed.
  Lemma raised_bind : forall {X Y} (a : M ef X) (k : X -> M ef Y) w o e, snd (a w o) = Err e -> snd (bind a k w o) = Err e.
  Proof. intros X Y a k w1 o1 e H. unfold bind. destruct (a w1 o1) as [[w2 o2] [x|x]]; cbn in H |- *; [discriminate H|congruence]. Qed.
  Definition vfail {X} (b : bool) (a : M ef X) : Prop := forall w o, rdy b o -> snd (a w o) = Err ValueError.
  Lemma vfail_step : forall {X Y} b b' (a : M ef X) (k : X -> M ef Y), st b b' a -> (forall x, vfail b' (k x)) -> vfail b (bind a k).
  Proof.
    intros X Y b b' a k Ha Hk w1 o1 H. destruct (Ha w1 o1 H) as [w' [o' [x [E H']]]]. unfold bind. rewrite E. exact (Hk x w' o' H').
  Qed.
  Lemma vfail_first : forall {X Y} b (a : M ef X) (k : X -> M ef Y), vfail b a -> vfail b (bind a k).
  Proof. intros X Y b a k Ha w1 o1 H. apply raised_bind, Ha, H. Qed.
  Lemma vfail_par : forall b {X} s v (k : nat -> M ef X), v < 0 -> vfail b (bind (new_param s true v) k).
  Proof. intros b X s v k H w1 o1 _. apply bad_param, H. Qed.

  Lemma cvar_risk_table : forall d t mn, unused_name w o "target_cvar" ->
    rejects_exactly (t < 0) (snd (cvar_efficient_risk sv d t mn w o)).
  Proof.
    intros d t mn Hun. unfold cvar_efficient_risk. rewrite fresh_step by exact Hun. cbv iota.
    destruct (Rlt_dec t 0) as [Ht|Ht].
    - apply rejected; [|exact Ht].
      match goal with |- snd (?f w o) = _ => cut (vfail false f); [intros Hf; exact (Hf w o Hr)|] end.
      apply vfail_first. do 3 (eapply vfail_step; [stp|intros ?]). apply vfail_par, Ht.
    - apply settled_not; [|exact Ht].
      match goal with |- settled (snd (?f w o)) => cut (fin false f); [intros Hf; exact (Hf w o Hr)|] end.
      fins.
  Qed.
  Lemma cdar_min_table : forall d mn, rejects_exactly False (snd (min_cdar sv d mn w o)).
  Proof.
    intros d mn. apply settled_table. cut (fin false (min_cdar sv d mn)); [intros Hf; exact (Hf w o Hr)|].
    unfold min_cdar. fins.
  Qed.
  Lemma cdar_return_table : forall d t mn, unused_name w o "target_return" ->
    rejects_exactly (t < 0) (snd (cdar_efficient_return sv d t mn w o)).
  Proof.
    intros d t mn Hun. unfold cdar_efficient_return. rewrite fresh_step by exact Hun. cbv iota.
    destruct (Rlt_dec t 0) as [Ht|Ht].
    - apply rejected; [|exact Ht].
      match goal with |- snd (?f w o) = _ => cut (vfail false f); [intros Hf; exact (Hf w o Hr)|] end.
      eapply vfail_step; [stp|intros ?]. apply vfail_par, Ht.
    - apply settled_not; [|exact Ht].
      match goal with |- settled (snd (?f w o)) => cut (fin false f); [intros Hf; exact (Hf w o Hr)|] end.
      unfold min_cdar. fins.
  Qed.
  Lemma cdar_risk_table : forall d t mn, unused_name w o "target_cdar" ->
    rejects_exactly (t < 0) (snd (cdar_efficient_risk sv d t mn w o)).
  Proof.
    intros d t mn Hun. unfold cdar_efficient_risk. rewrite fresh_step by exact Hun. cbv iota.
    destruct (Rlt_dec t 0) as [Ht|Ht].
    - apply rejected; [|exact Ht].
      match goal with |- snd (?f w o) = _ => cut (vfail false f); [intros Hf; exact (Hf w o Hr)|] end.
      apply vfail_first. do 3 (eapply vfail_step; [stp|intros ?]). apply vfail_par, Ht.
    - apply settled_not; [|exact Ht].
      match goal with |- settled (snd (?f w o)) => cut (fin false f); [intros Hf; exact (Hf w o Hr)|] end.
      fins.
  Qed.
End First.
