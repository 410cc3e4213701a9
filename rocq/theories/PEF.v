(** * What the optimizers return when the solver is exact *)
From Coq Require Import ZArith List String Bool Reals Lra Lia.
From Verif Require Import Num Py RBase PyLemmas MBase MConvex MEF SLin SBase SConvex Sums PBase PConvex.
Import ListNotations.
Local Open Scope R_scope.

Lemma e_n_put : forall x o, e_n (put_weights x o) = e_n o. Proof. reflexivity. Qed.

(** ** running pieces of code on an unsolved object *)
Lemma set_objective_run : forall e w o, set_objective e w o =
  (mkWorld (w_sizes w) (w_val w) (w_params w) (S (w_next w)), set_obj (Some (w_next w, e)) o, Ok tt).
Proof. reflexivity. Qed.
Lemma set_objective_full_run : forall e w o, set_objective_full e w o =
  (mkWorld (w_sizes w) (w_val w) (w_params w) (S (w_next w)), set_obj (Some (w_next w, add_all e (e_add o))) o, Ok tt).
Proof. reflexivity. Qed.

Lemma forallb_Forall : forall {X} (p : X -> bool) l, forallb p l = true <-> Forall (fun x => p x = true) l.
Proof. intros; rewrite forallb_forall, Forall_forall; reflexivity. Qed.
Lemma check_cov_run : forall w o, square (e_n o) (e_cov o) -> check_cov w o = (w, o, Ok tt).
Proof.
  intros w o [H1 H2]. unfold check_cov, bind, get. rewrite H1, Nat.eqb_refl.
  assert (E : forallb (fun r => (List.length r =? e_n o)%nat) (e_cov o) = true).
  { apply forallb_Forall. eapply Forall_impl; [|exact H2]. intros r Hr. apply Nat.eqb_eq; exact Hr. }
  rewrite E. reflexivity.
Qed.
Lemma need_mu_run : forall w o m, e_mu o = Some m -> List.length m = e_n o -> need_mu w o = (w, o, Ok m).
Proof. intros w o m H1 H2. unfold need_mu, bind, get. rewrite H1, H2, Nat.eqb_refl. reflexivity. Qed.

(** what solving an unsolved object comes to *)
Lemma solve_open : forall sv w o i e w' o' r, e_opt o = None -> e_obj o = Some (i, e) ->
  solve_opt sv w o = (w', o', r) ->
  e_opt o' = Some (mkProblem (i, e) (e_cons o)) /\
  match sv (w_sizes w) (par_values w) e (map snd (e_cons o)) with
  | AOptimal s v => r = Ok (s, v) /\
      o' = put_weights (map round16 (s (e_w o))) (set_opt (Some (mkProblem (i, e) (e_cons o))) o)
  | _ => exists x, r = Err x /\ o' = set_opt (Some (mkProblem (i, e) (e_cons o))) o
  end.
Proof.
  intros sv w o i e w' o' r Ho He H. unfold solve_opt, bind, get in H. rewrite He, Ho in H.
  unfold bind, modify, ret, world_get in H. cbn [snd p_obj p_cons] in H.
  destruct (sv (w_sizes w) (par_values w) e (map snd (e_cons o))) as [s v|upd|x].
  - inversion H; subst; clear H. split; [reflexivity|]. split; reflexivity.
  - inversion H; subst; clear H. split; [reflexivity|]. eexists; split; reflexivity.
  - destruct x; inversion H; subst; clear H; (split; [reflexivity|eexists; split; reflexivity]).
Qed.

Lemma solve_output_open : forall sv w o i e w' o' d, e_opt o = None -> e_obj o = Some (i, e) ->
  solve_and_output sv w o = (w', o', Ok d) ->
  exists s v, sv (w_sizes w) (par_values w) e (map snd (e_cons o)) = AOptimal s v /\
    e_weights o' = Some (map round16 (s (e_w o))) /\
    d = make_output_of (e_base o) (map round16 (s (e_w o))) /\ e_opt o' <> None.
Proof.
  intros sv w o i e w' o' d Ho He H. unfold solve_and_output, bind in H.
  destruct (solve_opt sv w o) as [[w1 o1] [r|x]] eqn:E; [|discriminate H].
  apply (solve_open sv w o i e w1 o1 (Ok r) Ho He) in E. destruct E as [E1 E2].
  destruct (sv (w_sizes w) (par_values w) e (map snd (e_cons o))) as [s v| |];
    [|destruct E2 as [x [E2 _]]; discriminate E2|destruct E2 as [x [E2 _]]; discriminate E2].
  destruct E2 as [_ ->]. exists s, v. split; [reflexivity|].
  unfold output, bind, get, lift_res in H. inversion H; subst. split; [reflexivity|]. split; [reflexivity|]. discriminate.
Qed.

(** ** evaluation *)
Lemma well_sized_w : forall w o s, well_sized (w_sizes w) s ->
  nth_error (w_sizes w) (e_w o) = Some (e_n o) -> List.length (s (e_w o)) = e_n o.
Proof.
  intros w o s Hs Hn. assert (Hl : (e_w o < List.length (w_sizes w))%nat).
  { apply nth_error_Some. rewrite Hn. discriminate. }
  rewrite (Hs _ Hl). apply nth_error_nth. exact Hn.
Qed.

Lemma evals_add_all : forall s ps l e, scalar_expr e -> Forall scalar_expr l ->
  evals s ps (add_all e l) = evals s ps e + penalty s ps l.
Proof.
  unfold add_all, penalty. induction l as [|a l IH]; intros e He Hl; simpl; [lra|].
  inversion Hl; subst. rewrite IH; auto.
  - unfold evals at 1. cbn [eval]. rewrite bop_eq_length by (rewrite He, H1; reflexivity).
    specialize (He s ps). specialize (H1 s ps). unfold evals at 2 3.
    destruct (eval s ps e) as [|x [|? ?]]; try discriminate He. destruct (eval s ps a) as [|y [|? ?]]; try discriminate H1.
    simpl. lra.
  - intros s' ps'. cbn [eval]. rewrite bop_eq_length by (rewrite He, H1; reflexivity).
    rewrite map2_length_eq by (rewrite He, H1; reflexivity). apply He.
Qed.

Lemma eval_scope : forall s ps ps' e, scoped_expr (List.length ps) e -> eval s (ps ++ ps') e = eval s ps e.
Proof.
  induction e; intros H; unfold scoped_expr in *; cbn [eval epars] in *; try reflexivity;
    try (rewrite IHe by exact H; reflexivity);
    try (apply Forall_app in H; destruct H; rewrite IHe1, IHe2 by assumption; reflexivity).
  inversion H; subst. rewrite app_nth1 by assumption. reflexivity.
Qed.
Lemma sat_scope : forall s ps ps' c, scoped_con (List.length ps) c -> (sat s (ps ++ ps') c <-> sat s ps c).
Proof.
  intros s ps ps' c H. unfold scoped_con in H. destruct c; cbn [cpars] in H; cbn [sat].
  - apply Forall_app in H; destruct H. rewrite !eval_scope by assumption. reflexivity.
  - apply Forall_app in H; destruct H. rewrite !eval_scope by assumption. reflexivity.
  - rewrite eval_scope by assumption. reflexivity.
Qed.
Lemma penalty_scope : forall s ps ps' l, Forall (scoped_expr (List.length ps)) l ->
  penalty s (ps ++ ps') l = penalty s ps l.
Proof.
  intros s ps ps' l H. unfold penalty, evals. f_equal. apply map_ext_in. intros e He.
  rewrite Forall_forall in H. rewrite eval_scope by auto. reflexivity.
Qed.

Lemma sum_is_sat : forall s ps v x, sat s ps (CEq (ESum (EVar v)) (EScalar x)) <-> total (s v) = x.
Proof.
  intros. rewrite (sat_eq1 s ps _ _ (total (s v)) x); [reflexivity| |reflexivity].
  cbn [eval]. rewrite vsum_total. reflexivity.
Qed.

(** the effective list of constraints, once the objects are built, means [admissible] *)
Lemma admissible_iff : forall w o u lb ub sum s,
  List.length lb = e_n o -> List.length ub = e_n o -> nth_error (w_sizes w) (e_w o) = Some (e_n o) ->
  well_sized (w_sizes w) s ->
  admissible w o u lb ub sum s <->
   sat s (par_values w) (lower_con lb (e_w o)) /\ sat s (par_values w) (upper_con ub (e_w o)) /\
   sat s (par_values w) (CEq (ESum (EVar (e_w o))) (EScalar sum)) /\
   Forall (fun ic : nat * con => sat s (par_values w) (snd ic)) u.
Proof.
  intros w o u lb ub sum s Hl Hu Hn Hs.
  pose proof (well_sized_w w o s Hs Hn) as Hx.
  rewrite sat_lower by congruence. rewrite sat_upper by congruence. rewrite sum_is_sat.
  unfold admissible, within. tauto.
Qed.

Lemma round16_rounded : forall l, Forall2 (rounded 16) l (map round16 l).
Proof.
  induction l as [|x l IH]; constructor; auto. unfold round16. apply np_round_rounded. lia.
Qed.

(** the constraints of [o] say: bounds [lb],[ub], weight sum, user constraints [u], and [ok] *)
Definition cons_mean (w : world) (o : ef) (u : list (nat * con)) (lb ub : list (option R)) (sum : R)
    (ok : list R -> Prop) : Prop :=
  forall s, well_sized (w_sizes w) s ->
    (Forall (sat s (par_values w)) (map snd (e_cons o)) <-> admissible w o u lb ub sum s /\ ok (s (e_w o))).

Lemma solve_best : forall sv w o i e u lb ub sum ok cost w' o' d,
  exact_solver sv -> e_opt o = None -> e_obj o = Some (i, e) ->
  cons_mean w o u lb ub sum ok ->
  (forall s, well_sized (w_sizes w) s ->
     evals s (par_values w) e = cost (s (e_w o)) + penalty s (par_values w) (e_add o)) ->
  solve_and_output sv w o = (w', o', Ok d) ->
  best_portfolio w o u lb ub sum ok cost (e_weights o') d.
Proof.
  intros sv w o i e u lb ub sum ok cost w' o' d Hsv Ho He Hc Hcost H.
  destruct (solve_output_open sv w o i e w' o' d Ho He H) as [s [v [E1 [E2 [E3 _]]]]].
  destruct (Hsv _ _ _ _ _ _ E1) as [[[Hs1 Hs2] Hopt] _].
  pose proof (proj1 (Hc s Hs1) Hs2) as [Ha Hok].
  exists s, (map round16 (s (e_w o))). split; [exact E2|]. split; [apply round16_rounded|]. split; [exact E3|].
  split; [exact Ha|]. split; [exact Hok|]. intros s' Ha' Hok'.
  destruct Ha' as [Hw' Ha']. rewrite <- !Hcost by assumption. apply Hopt. split; [exact Hw'|].
  apply Hc; [exact Hw'|]. split; [split; assumption|exact Hok'].
Qed.

(** admissibility and penalties look only at the parameters in scope *)
Lemma admissible_world : forall w w' o o' u lb ub sum s extra,
  w_sizes w' = w_sizes w -> par_values w' = par_values w ++ extra -> e_w o' = e_w o ->
  Forall (fun ic => scoped_con (List.length (w_params w)) (snd ic)) u ->
  (admissible w' o' u lb ub sum s <-> admissible w o u lb ub sum s).
Proof.
  intros w w' o o' u lb ub sum s extra E1 E2 E3 Hu. unfold admissible. rewrite E1, E2, E3.
  assert (Hiff : Forall (fun ic => sat s (par_values w ++ extra) (snd ic)) u <-> Forall (fun ic => sat s (par_values w) (snd ic)) u).
  { rewrite !Forall_forall in *. split; intros H ic Hin; specialize (H ic Hin); specialize (Hu ic Hin).
    - apply sat_scope in H; [exact H|]. unfold par_values; rewrite map_length; exact Hu.
    - apply sat_scope; [|exact H]. unfold par_values; rewrite map_length; exact Hu. }
  rewrite Hiff. reflexivity.
Qed.
Lemma penalty_world : forall w w' s l extra, par_values w' = par_values w ++ extra ->
  Forall (scoped_expr (List.length (w_params w))) l ->
  penalty s (par_values w') l = penalty s (par_values w) l.
Proof.
  intros w w' s l extra E H. rewrite E. apply penalty_scope. unfold par_values. rewrite map_length. exact H.
Qed.
Lemma best_world : forall w w' o o' u lb ub sum ok cost ws d extra,
  w_sizes w' = w_sizes w -> par_values w' = par_values w ++ extra -> e_w o' = e_w o -> e_base o' = e_base o ->
  e_add o' = e_add o ->
  Forall (scoped_expr (List.length (w_params w))) (e_add o) ->
  Forall (fun ic => scoped_con (List.length (w_params w)) (snd ic)) u ->
  best_portfolio w' o' u lb ub sum ok cost ws d -> best_portfolio w o u lb ub sum ok cost ws d.
Proof.
  intros w w' o o' u lb ub sum ok cost ws d extra E1 E2 E3 E4 E5 Ha Hu [s [r [H1 [H2 [H3 [H4 [H5 H6]]]]]]].
  exists s, r. rewrite E3 in *. rewrite E4 in H3. rewrite E5 in H6.
  split; [exact H1|]. split; [exact H2|]. split; [exact H3|].
  split; [apply (admissible_world w w' o o' u lb ub sum s extra); assumption|]. split; [exact H5|].
  intros s' Hs' Hok. rewrite <- !(penalty_world w w' _ (e_add o) extra) by assumption.
  apply H6; [|exact Hok]. apply (admissible_world w w' o o' u lb ub sum s' extra); assumption.
Qed.

Lemma scalar_quad : forall m v, scalar_expr (EQuad m v). Proof. intros m v s ps. reflexivity. Qed.
Lemma scalar_ret : forall v m b, scalar_expr (portfolio_return_e v m b). Proof. intros v m b s ps. reflexivity. Qed.
Lemma evals_quad : forall s ps m v, evals s ps (EQuad m (EVar v)) = qform m (s v).
Proof. intros. unfold evals. cbn [eval scalar hd]. apply quad_qform. Qed.
Lemma evals_ret : forall s ps m v b, evals s ps (portfolio_return_e (EVar v) m b) = sign_of b * inner m (s v).
Proof. intros. unfold evals, portfolio_return_e, EScalar. cbn [eval bop map scalar hd]. rewrite dot_inner. reflexivity. Qed.

Lemma Forall_cons_iff' : forall {X} (P : X -> Prop) a l, Forall P (a :: l) <-> P a /\ Forall P l.
Proof. intros; split; [intros H; inversion H; auto|intros []; constructor; auto]. Qed.
Lemma Forall_map_snd : forall (P : con -> Prop) (u : list (nat * con)), Forall P (map snd u) <-> Forall (fun ic => P (snd ic)) u.
Proof. intros; apply Forall_map. Qed.

(** C25 *)
Lemma min_volatility_best : forall sv w o u w' o' d, exact_solver sv -> open_ef w o u ->
  min_volatility sv w o = (w', o', Ok d) ->
  best_portfolio w o u (e_lb o) (e_ub o) 1 (fun _ => True) (qform (e_cov o)) (e_weights o') d.
Proof.
  intros sv w o u w' o' d Hsv [Ho [[i [j Hc]] [Hl [Hu [Hn [Hq [Hm [Ha [Has Hus]]]]]]]]] H.
  unfold min_volatility, bind, get in H. rewrite check_cov_run in H by exact Hq.
  rewrite set_objective_full_run in H.
  unfold sum_is in H. rewrite add_constraint_open in H by exact Ho.
  set (w1 := mkWorld _ _ _ _) in H at 1. set (o1 := set_cons _ _) in H.
  apply (best_world w w1 o o1 u _ _ _ _ _ _ _ []); try reflexivity; try assumption;
    [unfold par_values; rewrite app_nil_r; reflexivity|].
  eapply (solve_best sv w1 o1); [exact Hsv|exact Ho|reflexivity| | |exact H].
  - intros s Hs. unfold o1. cbn [e_cons set_cons set_obj e_w]. rewrite Hc.
    cbn [app]. rewrite map_cons, map_cons, map_app, !Forall_cons_iff', Forall_app. cbn [map snd].
    rewrite Forall_map_snd, Forall_cons_iff'.
    rewrite (admissible_iff w1 _ u (e_lb o) (e_ub o) 1 s Hl Hu Hn Hs).
    cbn [e_w]. assert (Forall (sat s (par_values w1)) []) by constructor. tauto.
  - intros s Hs. unfold o1. cbn [e_add set_cons set_obj e_w].
    rewrite evals_add_all by (auto; apply scalar_quad). unfold portfolio_variance_e. rewrite evals_quad. reflexivity.
Qed.

Lemma any_negative_iff : forall lb, any_negative lb = false <-> no_short_allowed lb.
Proof.
  induction lb as [|b lb IH]; cbn; [split; [constructor|reflexivity]|].
  rewrite orb_false_iff, IH. unfold no_short_allowed. rewrite Forall_cons_iff'.
  destruct b as [x|]; [rewrite Rltb_false; reflexivity|]. split; intros [A B]; [discriminate|contradiction].
Qed.

(** C32: what the weight sum constraint does to an unsolved object *)
Lemma weight_sum_run : forall mn w o u i j, e_opt o = None ->
  e_cons o = (i, lower_con (e_lb o) (e_w o)) :: (j, upper_con (e_ub o) (e_w o)) :: u ->
  List.length (e_lb o) = e_n o -> List.length (e_ub o) = e_n o ->
  exists w' o' lb ub, make_weight_sum_constraint mn w o = (w', o', Ok tt) /\
    w_sizes w' = w_sizes w /\ w_params w' = w_params w /\
    same_but_bounds o o' /\ e_mn o' = Some mn /\
    e_lb o' = lb /\ e_ub o' = ub /\ bounds_in_force mn o lb ub /\
    List.length lb = e_n o /\ List.length ub = e_n o /\
    forall P : con -> Prop,
      (Forall P (map snd (e_cons o')) <->
       P (lower_con lb (e_w o)) /\ P (upper_con ub (e_w o)) /\
       P (CEq (ESum (EVar (e_w o))) (EScalar (if mn then 0 else 1))) /\ Forall (fun ic => P (snd ic)) u).
Proof.
  intros mn w o u i j Ho Hc Hl Hu. unfold make_weight_sum_constraint, sum_is.
  destruct mn.
  - destruct (any_negative (e_lb o)) eqn:En.
    + unfold bind, get. rewrite En. unfold when, negb, ret. rewrite add_constraint_open by exact Ho.
      unfold modify. eexists _, _, (e_lb o), (e_ub o). split; [reflexivity|].
      split; [reflexivity|]. split; [reflexivity|]. split; [repeat split|].
      split; [reflexivity|]. split; [reflexivity|]. split; [reflexivity|].
      split; [right; split; [right; rewrite <- any_negative_iff, En; discriminate|split; reflexivity]|].
      split; [exact Hl|]. split; [exact Hu|].
      intros P. cbn [e_cons set_mn set_cons]. rewrite Hc. cbn [app].
      rewrite map_cons, map_cons, map_app, !Forall_cons_iff', Forall_app. cbn [map snd].
      rewrite Forall_map_snd, Forall_cons_iff'. pose proof (Forall_nil P). tauto.
    + unfold bind, get. rewrite En. unfold when, negb. unfold map_bounds, bind, get, lift_res.
      rewrite read_pair. cbn [fst snd]. unfold modify at 1.
      rewrite add_constraint_open by exact Ho. rewrite add_constraint_open by exact Ho.
      unfold modify. rewrite add_constraint_open by exact Ho.
      eexists _, _, (repeat (Some (-1)) (e_n o)), (repeat (Some 1) (e_n o)). split; [reflexivity|].
      split; [reflexivity|]. split; [reflexivity|]. split; [repeat split|].
      split; [reflexivity|]. split; [reflexivity|]. split; [reflexivity|].
      split; [left; split; [reflexivity|split; [apply any_negative_iff; exact En|split; reflexivity]]|].
      split; [apply repeat_length|]. split; [apply repeat_length|].
      intros P. cbn [e_cons set_mn set_cons set_bounds e_w]. rewrite Hc. cbn [app skipn].
      rewrite !map_app, !Forall_app. cbn [map snd]. rewrite Forall_map_snd, !Forall_cons_iff'.
      pose proof (Forall_nil P). tauto.
  - unfold bind. rewrite add_constraint_open by exact Ho.
    unfold modify. eexists _, _, (e_lb o), (e_ub o). split; [reflexivity|].
    split; [reflexivity|]. split; [reflexivity|]. split; [repeat split|].
    split; [reflexivity|]. split; [reflexivity|]. split; [reflexivity|].
    split; [right; split; [left; reflexivity|split; reflexivity]|].
    split; [exact Hl|]. split; [exact Hu|].
    intros P. cbn [e_cons set_mn set_cons]. rewrite Hc. cbn [app].
    rewrite map_cons, map_cons, map_app, !Forall_cons_iff', Forall_app. cbn [map snd].
    rewrite Forall_map_snd, Forall_cons_iff'. pose proof (Forall_nil P). tauto.
Qed.

(** no parameter of that name yet *)
Lemma not_defined_run : forall name w o, (forall p, In p (all_params o) -> named w name p = false) ->
  is_parameter_defined name w o = (w, o, Ok false).
Proof.
  intros name w o H. unfold is_parameter_defined, bind, get, world_get.
  assert (E : filter (named w name) (all_params o) = []).
  { revert H. generalize (all_params o). induction l as [|p l IH]; intros H; [reflexivity|].
    cbn [filter]. rewrite (H p) by (left; reflexivity). apply IH. intros q Hq. apply H. right; exact Hq. }
  rewrite E. reflexivity.
Qed.

Lemma new_param_run : forall {S} name nn v w (o : S), (nn = true -> 0 <= v) ->
  new_param name nn v w o = (mkWorld (w_sizes w) (w_val w) (w_params w ++ [mkParam name nn v]) (w_next w), o,
        Ok (List.length (w_params w))).
Proof.
  intros S name nn v w o H. unfold new_param. destruct nn; cbn [andb]; [|reflexivity].
  assert (E : Rltb v 0 = false) by (apply Rltb_false; auto). rewrite E. reflexivity.
Qed.

(** the common end of the parametrised methods: weight sum constraint, then solve *)
Lemma weight_sum_solve : forall sv mn w o u extra lb0 i0 j0 io e cost ok w' o' d,
  exact_solver sv -> e_opt o = None -> e_obj o = Some (io, e) ->
  e_cons o = (i0, lower_con (e_lb o) (e_w o)) :: (j0, upper_con (e_ub o) (e_w o)) :: u ++ [(lb0, extra)] ->
  List.length (e_lb o) = e_n o -> List.length (e_ub o) = e_n o ->
  nth_error (w_sizes w) (e_w o) = Some (e_n o) ->
  (forall s, well_sized (w_sizes w) s -> (sat s (par_values w) extra <-> ok (s (e_w o)))) ->
  (forall s, well_sized (w_sizes w) s ->
     evals s (par_values w) e = cost (s (e_w o)) + penalty s (par_values w) (e_add o)) ->
  bind (make_weight_sum_constraint mn) (fun _ => solve_and_output sv) w o = (w', o', Ok d) ->
  exists lb ub, bounds_in_force mn o lb ub /\
    best_portfolio w o u lb ub (if mn then 0 else 1) ok cost (e_weights o') d.
Proof.
  intros sv mn w o u extra lb0 i0 j0 io e cost ok w' o' d Hsv Ho He Hc Hl Hu Hn Hok Hcost H.
  destruct (weight_sum_run mn w o (u ++ [(lb0, extra)]) i0 j0 Ho Hc Hl Hu)
    as [w1 [o1 [lb [ub [E [Es [Ep [Hsame [Hmn [Elb [Eub [Hbf [Hll [Hlu Hall]]]]]]]]]]]]]].
  unfold bind in H. rewrite E in H. exists lb, ub. split; [exact Hbf|].
  destruct Hsame as [S1 [S2 [S3 [S4 [S5 [S6 [S7 [S8 S9]]]]]]]].
  assert (Epv : par_values w1 = par_values w) by (unfold par_values; rewrite Ep; reflexivity).
  assert (Hb : best_portfolio w1 o1 u lb ub (if mn then 0 else 1) ok cost (e_weights o') d).
  { eapply (solve_best sv w1 o1 io e); [exact Hsv|congruence|congruence| | |exact H].
    - intros s Hs. rewrite Es in Hs. rewrite Hall. rewrite Forall_app. cbn [map snd].
      rewrite Forall_cons_iff'. cbn [snd]. rewrite Epv, Hok by exact Hs.
      assert (Hadm : admissible w1 o1 u lb ub (if mn then 0 else 1) s <-> admissible w o u lb ub (if mn then 0 else 1) s).
      { unfold admissible. rewrite Es, Epv, S3. reflexivity. }
      rewrite Hadm, S3.
      rewrite (admissible_iff w o u lb ub (if mn then 0 else 1) s Hll Hlu Hn Hs).
      pose proof (Forall_nil (fun ic : nat * con => sat s (par_values w) (snd ic))). tauto.
    - intros s Hs. rewrite Es in Hs. rewrite Epv, S3, S5. apply Hcost. exact Hs. }
  unfold best_portfolio, best_at, admissible in *. rewrite Es, Epv, S3, S1, S5 in Hb. exact Hb.
Qed.

(** C26 *)
Lemma efficient_risk_best : forall sv pinv w o u m tg mn w' o' d, exact_solver sv -> open_ef w o u ->
  e_mu o = Some m -> fresh_name w o "target_variance" ->
  efficient_risk sv pinv tg mn w o = (w', o', Ok d) ->
  exists t lb ub, target_of tg = Some t /\ 0 <= t /\ bounds_in_force mn o lb ub /\
    best_portfolio w o u lb ub (if mn then 0 else 1) (fun x => qform (e_cov o) x <= t * t)
      (fun x => - inner m x) (e_weights o') d.
Proof.
  intros sv pinv w o u m tg mn w' o' d Hsv [Ho [[i [j Hc]] [Hl [Hu [Hn [Hq [Hm [Ha [Has Hus]]]]]]]]] Em Hf H.
  unfold efficient_risk in H. destruct (target_of tg) as [t|]; [|discriminate H].
  destruct (Rltb t 0) eqn:Et; [discriminate H|]. apply Rltb_false in Et.
  unfold bind at 1, get in H. destruct (below_global_min pinv (e_cov o) t); [discriminate H|].
  unfold bind at 1 in H. rewrite not_defined_run in H by exact Hf.
  rewrite (need_mu_run w o m Em (Hm m Em)) in H || (unfold bind at 1 2 in H; rewrite (need_mu_run w o m Em (Hm m Em)) in H).
  unfold bind at 1 in H. rewrite set_objective_run in H. unfold bind at 1 in H. rewrite check_cov_run in H by exact Hq.
  unfold bind at 1 in H. rewrite set_objective_full_run in H.
  unfold bind at 1 in H. rewrite new_param_run in H by (intros; nra).
  unfold bind at 1 in H. rewrite add_constraint_open in H by exact Ho.
  exists t. cbn [w_sizes w_val w_params w_next] in H.
  set (w1 := mkWorld _ _ _ _) in H at 1. set (o1 := set_cons _ _) in H.
  assert (H' : bind (make_weight_sum_constraint mn) (fun _ => solve_and_output sv) w1 o1 = (w', o', Ok d)) by exact H.
  clear H. rename H' into H.
  assert (Hpv : par_values w1 = par_values w ++ [t * t]) by (unfold w1, par_values; cbn [w_params]; rewrite map_app; reflexivity).
  eapply (weight_sum_solve sv mn w1 o1 u) with (ok := fun x => qform (e_cov o) x <= t * t) (cost := fun x => - inner m x) in H;
    [|exact Hsv|exact Ho|reflexivity| |exact Hl|exact Hu|exact Hn| |].
  - destruct H as [lb [ub [Hbf Hb]]]. exists lb, ub. split; [reflexivity|]. split; [exact Et|]. split; [exact Hbf|].
    eapply (best_world w w1 o o1 u _ _ _ _ _ _ _ [t * t]); try reflexivity; try assumption; exact Hb.
  - unfold o1. cbn [e_cons set_cons set_obj e_w e_lb e_ub]. rewrite Hc. reflexivity.
  - intros s Hs. rewrite (sat_ineq1 s _ _ _ (qform (e_cov o) (s (e_w o))) (t * t)).
    + reflexivity.
    + unfold portfolio_variance_e. cbn [eval]. rewrite quad_qform. reflexivity.
    + cbn [eval]. rewrite Hpv. rewrite app_nth2 by (unfold par_values; rewrite map_length; lia).
      unfold par_values. rewrite map_length, Nat.sub_diag. reflexivity.
  - intros s Hs. cbn [e_add set_cons set_obj e_w o1]. rewrite evals_add_all by (auto; apply scalar_ret).
    rewrite evals_ret. cbn [sign_of]. unfold o1; cbn [e_add e_w set_cons set_obj]. lra.
Qed.

Lemma weight_sum_solve0 : forall sv mn w o u i0 j0 io e cost w' o' d,
  exact_solver sv -> e_opt o = None -> e_obj o = Some (io, e) ->
  e_cons o = (i0, lower_con (e_lb o) (e_w o)) :: (j0, upper_con (e_ub o) (e_w o)) :: u ->
  List.length (e_lb o) = e_n o -> List.length (e_ub o) = e_n o ->
  nth_error (w_sizes w) (e_w o) = Some (e_n o) ->
  (forall s, well_sized (w_sizes w) s ->
     evals s (par_values w) e = cost (s (e_w o)) + penalty s (par_values w) (e_add o)) ->
  bind (make_weight_sum_constraint mn) (fun _ => solve_and_output sv) w o = (w', o', Ok d) ->
  exists lb ub, bounds_in_force mn o lb ub /\
    best_portfolio w o u lb ub (if mn then 0 else 1) (fun _ => True) cost (e_weights o') d.
Proof.
  intros sv mn w o u i0 j0 io e cost w' o' d Hsv Ho He Hc Hl Hu Hn Hcost H.
  destruct (weight_sum_run mn w o u i0 j0 Ho Hc Hl Hu)
    as [w1 [o1 [lb [ub [E [Es [Ep [Hsame [Hmn [Elb [Eub [Hbf [Hll [Hlu Hall]]]]]]]]]]]]]].
  unfold bind in H. rewrite E in H. exists lb, ub. split; [exact Hbf|].
  destruct Hsame as [S1 [S2 [S3 [S4 [S5 [S6 [S7 [S8 S9]]]]]]]].
  assert (Epv : par_values w1 = par_values w) by (unfold par_values; rewrite Ep; reflexivity).
  assert (Hb : best_portfolio w1 o1 u lb ub (if mn then 0 else 1) (fun _ => True) cost (e_weights o') d).
  { eapply (solve_best sv w1 o1 io e); [exact Hsv|congruence|congruence| | |exact H].
    - intros s Hs. rewrite Es in Hs. rewrite Hall. rewrite Epv.
      assert (Hadm : admissible w1 o1 u lb ub (if mn then 0 else 1) s <-> admissible w o u lb ub (if mn then 0 else 1) s).
      { unfold admissible. rewrite Es, Epv, S3. reflexivity. }
      rewrite Hadm.
      rewrite (admissible_iff w o u lb ub (if mn then 0 else 1) s Hll Hlu Hn Hs). tauto.
    - intros s Hs. rewrite Es in Hs. rewrite Epv, S3, S5. apply Hcost. exact Hs. }
  unfold best_portfolio, best_at, admissible in *. rewrite Es, Epv, S3, S1, S5 in Hb. exact Hb.
Qed.

Lemma scalar_utility : forall v m c p b, scalar_expr (quadratic_utility_e v m c p b).
Proof. intros v m c p b s ps. reflexivity. Qed.
Lemma evals_utility : forall s ps v m c p b, evals s ps (quadratic_utility_e (EVar v) m c p b) =
  sign_of b * (inner m (s v) - 1/2 * nth p ps 0 * qform c (s v)).
Proof.
  intros. unfold evals, quadratic_utility_e, ESub, EScalar. cbn [eval bop map scalar hd].
  rewrite dot_inner, quad_qform. reflexivity.
Qed.

(** C29 *)
Lemma utility_best : forall sv w o u m ra mn w' o' d, exact_solver sv -> open_ef w o u ->
  e_mu o = Some m -> fresh_name w o "risk_aversion" ->
  max_quadratic_utility sv ra mn w o = (w', o', Ok d) ->
  0 < ra /\ exists lb ub, bounds_in_force mn o lb ub /\
    best_portfolio w o u lb ub (if mn then 0 else 1) (fun _ => True)
      (fun x => - (inner m x - ra / 2 * qform (e_cov o) x)) (e_weights o') d.
Proof.
  intros sv w o u m ra mn w' o' d Hsv [Ho [[i [j Hc]] [Hl [Hu [Hn [Hq [Hm [Ha [Has Hus]]]]]]]]] Em Hf H.
  unfold max_quadratic_utility in H.
  destruct (Rleb ra 0) eqn:Et; [discriminate H|]. apply Rleb_false in Et. split; [exact Et|].
  unfold bind at 1 in H. rewrite not_defined_run in H by exact Hf.
  unfold bind at 1 2 in H. unfold get in H. unfold bind at 1 in H. rewrite (need_mu_run w o m Em (Hm m Em)) in H.
  unfold bind at 1 in H. rewrite check_cov_run in H by exact Hq.
  unfold bind at 1 in H. rewrite new_param_run in H by (intros; lra).
  unfold bind at 1 in H. rewrite set_objective_full_run in H. cbn [w_sizes w_val w_params w_next] in H.
  set (w1 := mkWorld _ _ _ _) in H at 1. set (o1 := set_obj _ _) in H.
  assert (H' : bind (make_weight_sum_constraint mn) (fun _ => solve_and_output sv) w1 o1 = (w', o', Ok d)) by exact H.
  clear H. rename H' into H.
  assert (Hpv : par_values w1 = par_values w ++ [ra]) by (unfold w1, par_values; cbn [w_params]; rewrite map_app; reflexivity).
  eapply (weight_sum_solve0 sv mn w1 o1 u) with (cost := fun x => - (inner m x - ra / 2 * qform (e_cov o) x)) in H;
    [|exact Hsv|exact Ho|reflexivity|exact Hc|exact Hl|exact Hu|exact Hn|].
  - destruct H as [lb [ub [Hbf Hb]]]. exists lb, ub. split; [exact Hbf|].
    eapply (best_world w w1 o o1 u _ _ _ _ _ _ _ [ra]); try reflexivity; try assumption; exact Hb.
  - intros s Hs. rewrite evals_add_all by (auto; apply scalar_utility).
    rewrite evals_utility. cbn [sign_of]. rewrite Hpv at 1. rewrite app_nth2 by (unfold par_values; rewrite map_length; lia).
    unfold par_values at 1. rewrite map_length, Nat.sub_diag. cbn [nth]. unfold o1; cbn [e_add e_w set_obj]. lra.
Qed.

(** [_max_return] on a copy of an unsolved object *)
Lemma max_return_copy : forall sv w o u m w' o' v, exact_solver sv -> open_ef w o u -> e_mu o = Some m ->
  on_copy (max_return sv) w o = (w', o', Ok v) ->
  o' = o /\ w_sizes w' = w_sizes w /\ w_params w' = w_params w /\
  (exists s, admissible w o u (e_lb o) (e_ub o) 1 s /\ inner m (s (e_w o)) = v) /\
  (forall s, admissible w o u (e_lb o) (e_ub o) 1 s -> inner m (s (e_w o)) <= v).
Proof.
  intros sv w o u m w' o' v Hsv [Ho [[i [j Hc]] [Hl [Hu [Hn [Hq [Hm [Ha [Has Hus]]]]]]]]] Em H.
  unfold on_copy, deepcopy in H.
  destruct (max_return sv w o) as [[w2 o2] r] eqn:E. inversion H; subst; clear H.
  split; [reflexivity|].
  unfold max_return, bind, get in E. rewrite Em in E. rewrite (need_mu_run w o' m Em (Hm m Em)) in E.
  rewrite set_objective_run in E. unfold sum_is in E. rewrite add_constraint_open in E by exact Ho.
  set (w1 := mkWorld _ _ _ _) in E at 1. set (o1 := set_cons _ _) in E.
  destruct (solve_opt sv w1 o1) as [[w3 o3] [sv3|x]] eqn:Es; [|discriminate E].
  assert (Hw3 : w_sizes w3 = w_sizes w /\ w_params w3 = w_params w).
  { unfold solve_opt, bind, get in Es. unfold o1 in Es. cbn [e_obj set_cons set_obj e_opt] in Es. rewrite Ho in Es.
    unfold bind, modify, ret, world_get in Es. cbn [p_obj p_cons snd fst] in Es.
    destruct (sv (w_sizes w1) _ _ _); [|discriminate Es|destruct e; discriminate Es].
    inversion Es; subst. split; reflexivity. }
  eapply (solve_open sv w1 o1) in Es; [|exact Ho|reflexivity]. destruct Es as [_ Es].
  destruct (sv (w_sizes w1) _ _ _) as [s v0| |] eqn:Esv; [|destruct Es as [? [Es _]]; discriminate Es|destruct Es as [? [Es _]]; discriminate Es].
  destruct Es as [Es Eo]. inversion Es; subst sv3. subst o3.
  unfold output, bind, get, lift_res, ret in E. cbn [make_output_weights e_base put_weights set_base b_weights set_opt] in E.
  inversion E; subst; clear E. split; [tauto|]. split; [tauto|].
  destruct (Hsv _ _ _ _ _ _ Esv) as [[[Hs1 Hs2] Hopt] Hv].
  assert (Hmean : forall s, well_sized (w_sizes w) s ->
     (Forall (sat s (par_values w)) (map snd (e_cons o1)) <-> admissible w o' u (e_lb o') (e_ub o') 1 s)).
  { intros s' Hs'. unfold o1. cbn [e_cons set_cons set_obj e_w]. rewrite Hc.
    cbn [app]. rewrite map_cons, map_cons, map_app, !Forall_cons_iff', Forall_app. cbn [map snd].
    rewrite Forall_map_snd, Forall_cons_iff'.
    rewrite (admissible_iff w o' u (e_lb o') (e_ub o') 1 s' Hl Hu Hn Hs').
    assert (Forall (sat s' (par_values w)) []) by constructor. tauto. }
  rewrite evals_ret in Hv. cbn [sign_of] in Hv. cbn [snd]. split.
  - exists s. split; [apply Hmean; assumption|]. rewrite Hv. lra.
  - intros s' Hs'. assert (H1 : evals s (par_values w1) (portfolio_return_e (EVar (e_w o')) m true) <=
                                evals s' (par_values w1) (portfolio_return_e (EVar (e_w o')) m true)).
    { apply Hopt. split; [apply Hs'|]. apply Hmean; [apply Hs'|exact Hs']. }
    rewrite !evals_ret in H1. cbn [sign_of] in H1. rewrite Hv. lra.
Qed.

(** C28 *)
Lemma efficient_return_best : forall sv w o u m tg mn w' o' d, exact_solver sv -> open_ef w o u ->
  e_mu o = Some m -> fresh_name w o "target_return" ->
  efficient_return sv tg mn w o = (w', o', Ok d) ->
  exists t lb ub, tg = NFloat t /\ bounds_in_force mn o lb ub /\
    best_portfolio w o u lb ub (if mn then 0 else 1) (fun x => t <= inner m x)
      (qform (e_cov o)) (e_weights o') d.
Proof.
  intros sv w o u m tg mn w' o' d Hsv Hopen Em Hf H. pose proof Hopen as Hopen'.
  destruct Hopen' as [Ho [[i [j Hc]] [Hl [Hu [Hn [Hq [Hm [Ha [Has Hus]]]]]]]]].
  unfold efficient_return in H. destruct tg as [t| |]; try discriminate H.
  unfold bind at 1, get in H.
  (* after the maximum return is known *)
  assert (Hmid : exists w0 mr, w_sizes w0 = w_sizes w /\ w_params w0 = w_params w /\
     when (falsy (e_maxret o)) (bind (on_copy (max_return sv)) (fun v => modify (set_maxret (Some v)))) w o
       = (w0, set_maxret mr o, Ok tt)).
  { destruct (falsy (e_maxret o)) eqn:Ef; cbn [when].
    - unfold when, bind at 1 in H. unfold bind in H. unfold bind.
      destruct (on_copy (max_return sv) w o) as [[w0 o0] [v|x]] eqn:Ecp; [|discriminate H].
      destruct (max_return_copy sv w o u m w0 o0 v Hsv Hopen Em Ecp) as [-> [E1 [E2 _]]].
      exists w0, (Some v). unfold modify. auto.
    - exists w, (e_maxret o). split; [reflexivity|]. split; [reflexivity|]. unfold ret. destruct o; reflexivity. }
  destruct Hmid as [w0 [mr [Es [Ep Hmid]]]]. unfold bind at 1 in H. rewrite Hmid in H.
  set (oo := set_maxret mr o) in *.
  unfold bind at 1 in H.
  destruct (match e_maxret oo with Some v => Rltb v t | None => false end) ; [discriminate H|].
  assert (Hf0 : fresh_name w0 oo "target_return").
  { intros p Hp. unfold named. rewrite Ep. apply Hf. exact Hp. }
  unfold bind at 1 in H. rewrite not_defined_run in H by exact Hf0.
  unfold bind at 1 2 in H. rewrite check_cov_run in H by exact Hq.
  unfold bind at 1 in H. rewrite set_objective_run in H.
  unfold bind at 1 in H. rewrite (need_mu_run _ _ m) in H by (try exact Em; apply Hm; exact Em).
  unfold bind at 1 in H. rewrite set_objective_full_run in H.
  unfold bind at 1 in H. rewrite new_param_run in H by discriminate.
  unfold bind at 1 in H. rewrite add_constraint_open in H by exact Ho.
  exists t. cbn [w_sizes w_val w_params w_next] in H. rewrite Es, Ep in H.
  set (w1 := mkWorld _ _ _ _) in H at 1. set (o1 := set_cons _ _) in H.
  assert (H' : bind (make_weight_sum_constraint mn) (fun _ => solve_and_output sv) w1 o1 = (w', o', Ok d)) by exact H.
  clear H. rename H' into H.
  assert (Hpv : par_values w1 = par_values w ++ [t]) by (unfold w1, par_values; cbn [w_params]; rewrite map_app; reflexivity).
  eapply (weight_sum_solve sv mn w1 o1 u) with (ok := fun x => t <= inner m x) (cost := qform (e_cov o)) in H;
    [|exact Hsv|exact Ho|reflexivity| |exact Hl|exact Hu|exact Hn| |].
  - destruct H as [lb [ub [Hbf Hb]]]. exists lb, ub. split; [reflexivity|]. split; [exact Hbf|].
    eapply (best_world w w1 o o1 u _ _ _ _ _ _ _ [t]); try reflexivity; try assumption; exact Hb.
  - unfold o1, oo. cbn [e_cons set_cons set_obj e_w e_lb e_ub set_maxret]. rewrite Hc. reflexivity.
  - intros s Hs. rewrite (sat_ineq1 s _ _ _ t (inner m (s (e_w o)))).
    + reflexivity.
    + cbn [eval]. rewrite Hpv. rewrite app_nth2 by (unfold par_values; rewrite map_length; lia).
      unfold par_values. rewrite map_length, Nat.sub_diag. reflexivity.
    + unfold portfolio_return_e, EScalar. cbn [eval bop map sign_of]. rewrite dot_inner. f_equal.
      unfold oo; cbn [e_w set_maxret set_obj]. lra.
  - intros s Hs. rewrite evals_add_all by (auto; apply scalar_quad). unfold portfolio_variance_e. rewrite evals_quad.
    reflexivity.
Qed.

(** C28: a target no admissible fully invested portfolio reaches *)
Lemma efficient_return_too_high : forall sv w o u m t mn w' o' r v w1 o1, exact_solver sv -> open_ef w o u ->
  e_mu o = Some m -> e_maxret o = None ->
  on_copy (max_return sv) w o = (w1, o1, Ok v) ->
  (forall s, admissible w o u (e_lb o) (e_ub o) 1 s -> inner m (s (e_w o)) < t) ->
  efficient_return sv (NFloat t) mn w o = (w', o', r) -> r = Err ValueError /\ e_weights o' = e_weights o.
Proof.
  intros sv w o u m t mn w' o' r v w1 o1 Hsv Hopen Em Hmr Hcp Hno H.
  destruct (max_return_copy sv w o u m w1 o1 v Hsv Hopen Em Hcp) as [-> [E1 [E2 [[s [Hs Hv]] _]]]].
  unfold efficient_return, bind, get, when in H. rewrite Hmr in H. cbn [falsy] in H. rewrite Hcp in H.
  unfold modify in H. cbn [e_maxret set_maxret] in H.
  assert (E : Rltb v t = true) by (apply Rltb_true; rewrite <- Hv; auto). rewrite E in H.
  inversion H; subst. split; reflexivity.
Qed.

(** C33 *)
Lemma convex_objective_best : forall sv w o u f b w' o' d, exact_solver sv -> open_ef w o u ->
  (forall v, scalar_expr (f v)) ->
  convex_objective sv f b w o = (w', o', Ok d) ->
  exists s r, e_weights o' = Some r /\ Forall2 (rounded 16) (s (e_w o)) r /\
    d = dict_of_pairs (combine (b_tickers (e_base o)) r) /\
    let good s := well_sized (w_sizes w) s /\ within (e_lb o) (e_ub o) (s (e_w o)) /\
                  (b = true -> total (s (e_w o)) = 1) /\
                  Forall (fun ic => sat s (par_values w) (snd ic)) u in
    good s /\ forall s', good s' ->
      evals s (par_values w) (f (e_w o)) + penalty s (par_values w) (e_add o)
      <= evals s' (par_values w) (f (e_w o)) + penalty s' (par_values w) (e_add o).
Proof.
  intros sv w o u f b w' o' d Hsv [Ho [[i [j Hc]] [Hl [Hu [Hn [Hq [Hm [Ha [Has Hus]]]]]]]]] Hsc H.
  unfold convex_objective, bind, get in H. rewrite set_objective_full_run in H.
  set (e := add_all (f (e_w o)) (e_add o)) in *.
  assert (Hgen : exists w1 o1 io, e_opt o1 = None /\ e_obj o1 = Some (io, e) /\ e_w o1 = e_w o /\ e_base o1 = e_base o /\
     w_sizes w1 = w_sizes w /\ par_values w1 = par_values w /\
     e_cons o1 = (i, lower_con (e_lb o) (e_w o)) :: (j, upper_con (e_ub o) (e_w o)) :: u ++
        (if b then [(S (w_next w), CEq (ESum (EVar (e_w o))) (EScalar 1))] else []) /\
     solve_and_output sv w1 o1 = (w', o', Ok d)).
  { destruct b; cbn [when] in H.
    - unfold sum_is in H. rewrite add_constraint_open in H by exact Ho.
      eexists _, _, _. split; [|split; [|split; [|split; [|split; [|split; [|split; [|exact H]]]]]]]; try reflexivity; try exact Ho.
      cbn [e_cons set_cons set_obj e_w w_next]. rewrite Hc. reflexivity.
    - eexists _, _, _. split; [|split; [|split; [|split; [|split; [|split; [|split; [|exact H]]]]]]]; try reflexivity; try exact Ho.
      cbn [e_cons set_cons set_obj e_w w_next]. rewrite Hc, app_nil_r. reflexivity. }
  destruct Hgen as [w1 [o1 [io [G1 [G2 [G3 [G4 [G5 [G6 [G7 G8]]]]]]]]]].
  destruct (solve_output_open sv w1 o1 io e w' o' d G1 G2 G8) as [s [v [E1 [E2 [E3 _]]]]].
  rewrite G3 in *. rewrite G4 in E3. exists s, (map round16 (s (e_w o))). split; [exact E2|].
  split; [apply round16_rounded|]. split; [exact E3|].
  destruct (Hsv _ _ _ _ _ _ E1) as [[[Hs1 Hs2] Hopt] _]. rewrite G5, G6 in *.
  assert (Hmean : forall s, well_sized (w_sizes w) s -> (Forall (sat s (par_values w)) (map snd (e_cons o1)) <->
     within (e_lb o) (e_ub o) (s (e_w o)) /\ (b = true -> total (s (e_w o)) = 1) /\
                  Forall (fun ic => sat s (par_values w) (snd ic)) u)).
  { intros s' Hs'. rewrite G7. rewrite map_cons, map_cons, map_app, !Forall_cons_iff', Forall_app. cbn [map snd].
    rewrite !Forall_map_snd. pose proof (well_sized_w w o s' Hs' Hn) as Hx.
    rewrite sat_lower, sat_upper by congruence. unfold within.
    assert (Hsum : Forall (fun ic : nat * con => sat s' (par_values w) (snd ic)) (if b then [(S (w_next w), CEq (ESum (EVar (e_w o))) (EScalar 1))] else [])
      <-> (b = true -> total (s' (e_w o)) = 1)).
    { destruct b.
      - rewrite Forall_cons_iff'. cbn [snd]. rewrite sum_is_sat. split; [tauto|intros Hb; split; [auto|constructor]].
      - split; [discriminate|constructor]. }
    rewrite Hsum. tauto. }
  cbv zeta. split; [split; [exact Hs1|apply Hmean; assumption]|].
  intros s' [Hs' Hg]. rewrite <- !evals_add_all by auto. apply Hopt. split; [exact Hs'|]. apply Hmean; assumption.
Qed.
