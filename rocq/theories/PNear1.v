(** * Solvers of limited accuracy: what the optimizers return *)
From Coq Require Import ZArith List String Bool Reals Lra Lia.
From Verif Require Import Num Py RBase PyLemmas MBase MConvex MEF SLin SBase SConvex SNear Sums PBase PConvex PEF.
Import ListNotations.
Local Open Scope R_scope.

(** ** Constraints that hold up to a tolerance *)
Lemma Forall2_close : forall l y, Forall2 (fun p q => Rabs (p - q) <= 0) l y -> l = y.
Proof.
  intros l y F. induction F as [|p q l1 l2 H F IH]; [reflexivity|]. f_equal; [|exact IH].
  destruct (Req_dec (p - q) 0) as [E|E]; [lra|]. apply Rabs_pos_lt in E. lra.
Qed.
Lemma Forall2_diag : forall t l, 0 <= t -> Forall2 (fun p q => Rabs (p - q) <= t) l l.
Proof.
  intros t l Ht. induction l as [|x l IH]; constructor; [|exact IH]. rewrite Rminus_diag_eq by reflexivity. rewrite Rabs_R0. exact Ht.
Qed.
Lemma meets_zero : forall s ps c, meets 0 s ps c <-> sat s ps c.
Proof.
  intros s ps [a b|a b|P a]; cbn [meets sat].
  - reflexivity.
  - split; intros F; (eapply Forall_impl; [|exact F]); cbv beta; intros d H.
    + destruct (Req_dec d 0) as [E|E]; [exact E|]. apply Rabs_pos_lt in E. lra.
    + rewrite H, Rabs_R0. lra.
  - split.
    + intros [y [F Hy]]. apply Forall2_close in F. rewrite F. exact Hy.
    + intros H. eexists. split; [apply Forall2_diag; lra|exact H].
Qed.
Lemma sat_meets : forall t s ps c, 0 <= t -> sat s ps c -> meets t s ps c.
Proof.
  intros t s ps [a b|a b|P a] Ht; cbn [meets sat]; intros F.
  - eapply Forall_impl; [|exact F]. cbv beta; intros; lra.
  - eapply Forall_impl; [|exact F]. cbv beta; intros d ->. rewrite Rabs_R0. exact Ht.
  - eexists. split; [apply Forall2_diag; exact Ht|exact F].
Qed.
(** an exact solver is one with tolerance and accuracy zero *)
Lemma exact_accurate : forall sv, exact_solver sv <-> accurate_solver 0 0 sv.
Proof.
  intros sv. split; intros H sizes ps obj cs s v E.
  - destruct (H _ _ _ _ _ _ E) as [[[H1 H2] H3] H4]. split; [exact H1|]. split.
    { eapply Forall_impl; [|exact H2]. intros c Hc. apply meets_zero; exact Hc. }
    split; [intros s' Hs'; specialize (H3 s' Hs'); lra|]. rewrite H4, Rminus_diag_eq, Rabs_R0 by reflexivity. lra.
  - destruct (H _ _ _ _ _ _ E) as [H1 [H2 [H3 H4]]]. split.
    + split; [split; [exact H1|]|].
      * eapply Forall_impl; [|exact H2]. intros c Hc. apply meets_zero; exact Hc.
      * intros s' Hs'. specialize (H3 s' Hs'). lra.
    + destruct (Req_dec (v - evals s ps obj) 0) as [E0|E0]; [lra|]. apply Rabs_pos_lt in E0. lra.
Qed.
Lemma accurate_mono : forall t t' g g' sv, t <= t' -> g <= g' -> accurate_solver t g sv -> accurate_solver t' g' sv.
Proof.
  intros t t' g g' sv Ht Hg H sizes ps obj cs s v E. destruct (H _ _ _ _ _ _ E) as [H1 [H2 [H3 H4]]].
  split; [exact H1|]. split; [|split; [intros s' Hs'; specialize (H3 s' Hs'); lra|lra]].
  eapply Forall_impl; [|exact H2]. intros [a b|a b|P a]; cbn [meets]; intros F.
  - eapply Forall_impl; [|exact F]; cbv beta; intros; lra.
  - eapply Forall_impl; [|exact F]; cbv beta; intros; lra.
  - destruct F as [y [F Hy]]. exists y. split; [|exact Hy]. clear -F Ht. induction F; constructor; auto; lra.
Qed.

Lemma meets_ineq : forall t s ps a b, List.length (eval s ps a) = List.length (eval s ps b) ->
  (meets t s ps (CIneq a b) <-> Forall2 (fun x y => x - y <= t) (eval s ps a) (eval s ps b)).
Proof. intros t s ps a b H. unfold meets. rewrite bop_eq_length, map2_Forall by exact H. reflexivity. Qed.
Lemma meets_eq : forall t s ps a b, List.length (eval s ps a) = List.length (eval s ps b) ->
  (meets t s ps (CEq a b) <-> Forall2 (fun x y => Rabs (x - y) <= t) (eval s ps a) (eval s ps b)).
Proof. intros t s ps a b H. unfold meets. rewrite bop_eq_length, map2_Forall by exact H. reflexivity. Qed.
Lemma meets_ineq1 : forall t s ps a b x y, eval s ps a = [x] -> eval s ps b = [y] ->
  (meets t s ps (CIneq a b) <-> x <= y + t).
Proof.
  intros t s ps a b x y Ha Hb. rewrite meets_ineq by (rewrite Ha, Hb; reflexivity). rewrite Ha, Hb.
  split; [intros F; inversion F; subst; lra|intros H; constructor; [lra|constructor]].
Qed.
Lemma meets_eq1 : forall t s ps a b x y, eval s ps a = [x] -> eval s ps b = [y] ->
  (meets t s ps (CEq a b) <-> Rabs (x - y) <= t).
Proof.
  intros t s ps a b x y Ha Hb. rewrite meets_eq by (rewrite Ha, Hb; reflexivity). rewrite Ha, Hb.
  split; [intros F; inversion F; subst; assumption|intros H; constructor; [exact H|constructor]].
Qed.

Lemma finite_ge_near : forall t lb x, List.length lb = List.length x ->
  (Forall2 (fun a b => a - b <= t) (finite_vals lb) (map (fun i => nth i x 0) (finite_ix lb)) <->
   Forall2 (fun b a => above b (a + t)) lb x).
Proof.
  intros t. induction lb as [|b lb IH]; destruct x as [|y x]; intros H; try discriminate.
  - split; constructor.
  - injection H as H. rewrite finite_ix_cons, finite_vals_cons, map_app, map_map. cbn [nth].
    specialize (IH x H). destruct b as [l|]; cbn [map app nth].
    + split; intros F; inversion F; subst; constructor; try (apply IH; assumption); cbn [above] in *; lra.
    + split; intros F; [constructor; [exact I|]; apply IH; exact F|].
      inversion F; subst. apply IH; auto.
Qed.
Lemma finite_le_near : forall t ub x, List.length ub = List.length x ->
  (Forall2 (fun a b => a - b <= t) (map (fun i => nth i x 0) (finite_ix ub)) (finite_vals ub) <->
   Forall2 (fun b a => below b (a - t)) ub x).
Proof.
  intros t. induction ub as [|b ub IH]; destruct x as [|y x]; intros H; try discriminate.
  - split; constructor.
  - injection H as H. rewrite finite_ix_cons, finite_vals_cons, map_app, map_map. cbn [nth].
    specialize (IH x H). destruct b as [l|]; cbn [map app nth].
    + split; intros F; inversion F; subst; constructor; try (apply IH; assumption); cbn [below] in *; lra.
    + split; intros F; [constructor; [exact I|]; apply IH; exact F|].
      inversion F; subst. apply IH; auto.
Qed.
Lemma meets_lower : forall t s ps lb v, List.length lb = List.length (s v) ->
  (meets t s ps (lower_con lb v) <-> Forall2 (fun b a => above b (a + t)) lb (s v)).
Proof.
  intros t s ps lb v H. unfold lower_con. rewrite meets_ineq by (cbn [eval]; rewrite map_length; apply finite_len).
  cbn [eval]. apply finite_ge_near; exact H.
Qed.
Lemma meets_upper : forall t s ps ub v, List.length ub = List.length (s v) ->
  (meets t s ps (upper_con ub v) <-> Forall2 (fun b a => below b (a - t)) ub (s v)).
Proof.
  intros t s ps ub v H. unfold upper_con.
  rewrite meets_ineq by (cbn [eval]; rewrite map_length; symmetry; apply finite_len).
  cbn [eval]. apply finite_le_near; exact H.
Qed.
Lemma meets_scope : forall t s ps ps' c, scoped_con (List.length ps) c -> (meets t s (ps ++ ps') c <-> meets t s ps c).
Proof.
  intros t s ps ps' c H. unfold scoped_con in H. destruct c; cbn [cpars] in H; cbn [meets].
  - apply Forall_app in H; destruct H. rewrite !eval_scope by assumption. reflexivity.
  - apply Forall_app in H; destruct H. rewrite !eval_scope by assumption. reflexivity.
  - rewrite eval_scope by assumption. reflexivity.
Qed.
Lemma sum_is_meets : forall t s ps v x, meets t s ps (CEq (ESum (EVar v)) (EScalar x)) <-> Rabs (total (s v) - x) <= t.
Proof.
  intros. apply meets_eq1; [|reflexivity]. cbn [eval]. rewrite vsum_total. reflexivity.
Qed.

(** ** The problem a method hands to the solver *)
Definition posed (sv : solver_t) (w : world) (o : ef) (u : list (nat * con)) (lb ub : list (option R)) (sumc : list con)
    (xs : list R) (extra : list con) (cost : env -> R) (ws : option (list R)) (d : dict R) : Prop :=
  exists s v e cs, sv (w_sizes w) (par_values w ++ xs) e cs = AOptimal s v /\
    ws = Some (map round16 (s (e_w o))) /\ d = make_output_of (e_base o) (map round16 (s (e_w o))) /\
    (forall P : con -> Prop, Forall P cs <->
       P (lower_con lb (e_w o)) /\ P (upper_con ub (e_w o)) /\ Forall P sumc /\
       Forall (fun ic => P (snd ic)) u /\ Forall P extra) /\
    (forall s', well_sized (w_sizes w) s' ->
       evals s' (par_values w ++ xs) e = cost s' + penalty s' (par_values w) (e_add o)).

Definition sum_con (o : ef) (x : R) : con := CEq (ESum (EVar (e_w o))) (EScalar x).

Lemma posed_near : forall t g sv w o u lb ub sum xs extra (near ok : list R -> Prop) cost ws d,
  accurate_solver t g sv ->
  List.length lb = e_n o -> List.length ub = e_n o -> nth_error (w_sizes w) (e_w o) = Some (e_n o) ->
  Forall (fun ic => scoped_con (List.length (w_params w)) (snd ic)) u ->
  (forall s, well_sized (w_sizes w) s ->
     Forall (meets t s (par_values w ++ xs)) extra -> near (s (e_w o))) ->
  (forall s, well_sized (w_sizes w) s ->
     ok (s (e_w o)) -> Forall (sat s (par_values w ++ xs)) extra) ->
  posed sv w o u lb ub [sum_con o sum] xs extra (fun s => cost (s (e_w o))) ws d ->
  near_best t g w o u lb ub sum near ok cost ws d.
Proof.
  intros t g sv w o u lb ub sum xs extra near ok cost ws d Hsv Hl Hu Hn Hsc Hnear Hok [s [v [e [cs [E [Ew [Ed [Hcs Hcost]]]]]]]].
  destruct (Hsv _ _ _ _ _ _ E) as [H1 [H2 [H3 _]]].
  assert (Hpl : List.length (par_values w) = List.length (w_params w)) by (unfold par_values; apply map_length).
  pose proof (well_sized_w w o s H1 Hn) as Hx.
  apply Hcs in H2. destruct H2 as [B1 [B2 [B3 [B4 B5]]]].
  exists s, (map round16 (s (e_w o))). split; [exact Ew|]. split; [apply round16_rounded|]. split; [exact Ed|].
  split; [|split; [apply Hnear; assumption|]].
  - split; [exact H1|]. split; [split|split].
    + apply meets_lower in B1; [exact B1|congruence].
    + apply meets_upper in B2; [exact B2|congruence].
    + rewrite Forall_cons_iff' in B3. destruct B3 as [B3 _]. apply sum_is_meets in B3. exact B3.
    + rewrite Forall_forall in *. intros ic Hic. specialize (B4 ic Hic). apply meets_scope in B4; [exact B4|].
      rewrite Hpl. apply Hsc. exact Hic.
  - intros s' [A1 [[A2 A3] [A4 A5]]] Hoks. pose proof (well_sized_w w o s' A1 Hn) as Hx'.
    assert (Hf : feasible (w_sizes w) (par_values w ++ xs) cs s').
    { split; [exact A1|]. apply Hcs. split; [apply sat_lower; congruence|]. split; [apply sat_upper; congruence|].
      split; [constructor; [apply sum_is_sat; exact A4|constructor]|]. split; [|apply Hok; assumption].
      rewrite Forall_forall in *. intros ic Hic. apply sat_scope; [rewrite Hpl; apply Hsc; exact Hic|apply A5; exact Hic]. }
    specialize (H3 s' Hf). rewrite !Hcost in H3 by assumption. exact H3.
Qed.

Lemma posed_world : forall sv w w' o o' u lb ub sumc xs extra cost ws d,
  w_sizes w' = w_sizes w -> par_values w' = par_values w ++ xs -> e_w o' = e_w o -> e_base o' = e_base o ->
  e_add o' = e_add o -> Forall (scoped_expr (List.length (w_params w))) (e_add o) ->
  posed sv w' o' u lb ub sumc [] extra cost ws d -> posed sv w o u lb ub sumc xs extra cost ws d.
Proof.
  intros sv w w' o o' u lb ub sumc xs extra cost ws d E1 E2 E3 E4 E5 Ha [s [v [e [cs [E [Ew [Ed [Hcs Hcost]]]]]]]].
  rewrite app_nil_r, E1, E2 in E. rewrite E3 in *. rewrite E4 in Ed. exists s, v, e, cs.
  split; [exact E|]. split; [exact Ew|]. split; [exact Ed|]. split; [exact Hcs|].
  intros s' Hs'. rewrite <- E1 in Hs'. specialize (Hcost s' Hs'). rewrite app_nil_r in Hcost.
  rewrite <- E2, Hcost, E5. f_equal. apply (penalty_world w w' s' (e_add o) xs); assumption.
Qed.

Lemma solve_posed : forall sv w o i e u lb ub sumc extra cost w' o' d,
  e_opt o = None -> e_obj o = Some (i, e) ->
  (forall P : con -> Prop, Forall P (map snd (e_cons o)) <->
       P (lower_con lb (e_w o)) /\ P (upper_con ub (e_w o)) /\ Forall P sumc /\
       Forall (fun ic => P (snd ic)) u /\ Forall P extra) ->
  (forall s, well_sized (w_sizes w) s -> evals s (par_values w) e = cost s + penalty s (par_values w) (e_add o)) ->
  solve_and_output sv w o = (w', o', Ok d) ->
  posed sv w o u lb ub sumc [] extra cost (e_weights o') d.
Proof.
  intros sv w o i e u lb ub sumc extra cost w' o' d Ho He Hc Hcost H.
  destruct (solve_output_open sv w o i e w' o' d Ho He H) as [s [v [E1 [E2 [E3 _]]]]].
  exists s, v, e, (map snd (e_cons o)). rewrite app_nil_r. auto.
Qed.

(** weight sum constraint, then solve *)
Lemma weight_sum_posed : forall sv mn w o u ex i0 j0 io e cost w' o' d,
  e_opt o = None -> e_obj o = Some (io, e) ->
  e_cons o = (i0, lower_con (e_lb o) (e_w o)) :: (j0, upper_con (e_ub o) (e_w o)) :: u ++ ex ->
  List.length (e_lb o) = e_n o -> List.length (e_ub o) = e_n o ->
  (forall s, well_sized (w_sizes w) s -> evals s (par_values w) e = cost s + penalty s (par_values w) (e_add o)) ->
  bind (make_weight_sum_constraint mn) (fun _ => solve_and_output sv) w o = (w', o', Ok d) ->
  exists lb ub, bounds_in_force mn o lb ub /\ List.length lb = e_n o /\ List.length ub = e_n o /\
    posed sv w o u lb ub [sum_con o (if mn then 0 else 1)] [] (map snd ex) cost (e_weights o') d.
Proof.
  intros sv mn w o u ex i0 j0 io e cost w' o' d Ho He Hc Hl Hu Hcost H.
  destruct (weight_sum_run mn w o (u ++ ex) i0 j0 Ho Hc Hl Hu)
    as [w1 [o1 [lb [ub [E [Es [Ep [Hsame [Hmn [Elb [Eub [Hbf [Hll [Hlu Hall]]]]]]]]]]]]]].
  unfold bind in H. rewrite E in H. exists lb, ub. split; [exact Hbf|]. split; [exact Hll|]. split; [exact Hlu|].
  destruct Hsame as [S1 [S2 [S3 [S4 [S5 [S6 [S7 [S8 S9]]]]]]]].
  assert (Epv : par_values w1 = par_values w) by (unfold par_values; rewrite Ep; reflexivity).
  assert (Hp : posed sv w1 o1 u lb ub [sum_con o (if mn then 0 else 1)] [] (map snd ex) cost (e_weights o') d).
  { eapply (solve_posed sv w1 o1 io e); [congruence|congruence| | |exact H].
    - intros P. rewrite Hall, S3, Forall_cons_iff', Forall_app, Forall_map. pose proof (Forall_nil P). unfold sum_con. tauto.
    - intros s Hs. rewrite Es in Hs. rewrite Epv, S5. apply Hcost. exact Hs. }
  unfold posed in *. rewrite Es, Epv, S3, S1, S5 in Hp. exact Hp.
Qed.

(** ** The methods *)
Lemma min_volatility_posed : forall sv w o u w' o' d, open_ef w o u ->
  min_volatility sv w o = (w', o', Ok d) ->
  posed sv w o u (e_lb o) (e_ub o) [sum_con o 1] [] [] (fun s => qform (e_cov o) (s (e_w o))) (e_weights o') d.
Proof.
  intros sv w o u w' o' d [Ho [[i [j Hc]] [Hl [Hu [Hn [Hq [Hm [Ha [Has Hus]]]]]]]]] H.
  unfold min_volatility, bind, get in H. rewrite check_cov_run in H by exact Hq.
  rewrite set_objective_full_run in H.
  unfold sum_is in H. rewrite add_constraint_open in H by exact Ho.
  set (w1 := mkWorld _ _ _ _) in H at 1. set (o1 := set_cons _ _) in H.
  apply (posed_world sv w w1 o o1 u _ _ _ []); try reflexivity; try assumption;
    [unfold par_values; rewrite app_nil_r; reflexivity|].
  eapply (solve_posed sv w1 o1); [exact Ho|reflexivity| | |exact H].
  - intros P. unfold o1. cbn [e_cons set_cons set_obj e_w]. rewrite Hc.
    cbn [app]. rewrite map_cons, map_cons, map_app, !Forall_cons_iff', Forall_app. cbn [map snd].
    rewrite Forall_map_snd, Forall_cons_iff'. unfold sum_con. pose proof (Forall_nil P). tauto.
  - intros s Hs. unfold o1. cbn [e_add set_cons set_obj e_w].
    rewrite evals_add_all by (auto; apply scalar_quad). unfold portfolio_variance_e. rewrite evals_quad. reflexivity.
Qed.

Lemma efficient_risk_posed : forall sv pinv w o u m tg mn w' o' d, open_ef w o u ->
  e_mu o = Some m -> fresh_name w o "target_variance" ->
  efficient_risk sv pinv tg mn w o = (w', o', Ok d) ->
  exists t lb ub, target_of tg = Some t /\ 0 <= t /\ bounds_in_force mn o lb ub /\
    List.length lb = e_n o /\ List.length ub = e_n o /\
    posed sv w o u lb ub [sum_con o (if mn then 0 else 1)] [t * t]
      [CIneq (EQuad (e_cov o) (EVar (e_w o))) (EPar (List.length (w_params w)))]
      (fun s => - inner m (s (e_w o))) (e_weights o') d.
Proof.
  intros sv pinv w o u m tg mn w' o' d [Ho [[i [j Hc]] [Hl [Hu [Hn [Hq [Hm [Ha [Has Hus]]]]]]]]] Em Hf H.
  unfold efficient_risk in H. destruct (target_of tg) as [t|]; [|discriminate H].
  destruct (Rltb t 0) eqn:Et; [discriminate H|]. apply Rltb_false in Et.
  unfold bind at 1, get in H. destruct (below_global_min pinv (e_cov o) t); [discriminate H|].
  unfold bind at 1 in H. rewrite not_defined_run in H by exact Hf.
  rewrite (need_mu_run w o m Em (Hm m Em)) in H || (unfold bind at 1 2 in H; rewrite (need_mu_run w o m Em (Hm m Em)) in H).
  unfold bind at 1 in H. rewrite set_objective_run in H. unfold bind at 1 in H. rewrite check_cov_run in H by exact Hq.
  unfold bind at 1 in H. rewrite set_objective_full_run in H.
  unfold bind at 1 in H. rewrite new_param_run in H by (intros; nra).
  unfold bind at 1 in H. rewrite add_constraint_open in H by exact Ho.
  exists t. cbn [w_sizes w_val w_params w_next] in H.
  set (w1 := mkWorld _ _ _ _) in H at 1. set (o1 := set_cons _ _) in H.
  assert (H' : bind (make_weight_sum_constraint mn) (fun _ => solve_and_output sv) w1 o1 = (w', o', Ok d)) by exact H.
  clear H. rename H' into H.
  assert (Hpv : par_values w1 = par_values w ++ [t * t]) by (unfold w1, par_values; cbn [w_params]; rewrite map_app; reflexivity).
  eapply (weight_sum_posed sv mn w1 o1 u [(_, _)]) with (cost := fun s => - inner m (s (e_w o))) in H;
    [|exact Ho|reflexivity| |exact Hl|exact Hu|].
  - destruct H as [lb [ub [Hbf [L1 [L2 Hb]]]]]. exists lb, ub. split; [reflexivity|]. split; [exact Et|]. split; [exact Hbf|].
    split; [exact L1|]. split; [exact L2|].
    eapply (posed_world sv w w1 o o1 u _ _ _ [t * t]); try reflexivity; try assumption. exact Hb.
  - unfold o1. cbn [e_cons set_cons set_obj e_w e_lb e_ub]. rewrite Hc. reflexivity.
  - intros s Hs. cbn [e_add set_cons set_obj e_w o1]. rewrite evals_add_all by (auto; apply scalar_ret).
    rewrite evals_ret. cbn [sign_of]. unfold o1; cbn [e_add e_w set_cons set_obj]. lra.
Qed.

Lemma utility_posed : forall sv w o u m ra mn w' o' d, open_ef w o u ->
  e_mu o = Some m -> fresh_name w o "risk_aversion" ->
  max_quadratic_utility sv ra mn w o = (w', o', Ok d) ->
  0 < ra /\ exists lb ub, bounds_in_force mn o lb ub /\
    List.length lb = e_n o /\ List.length ub = e_n o /\
    posed sv w o u lb ub [sum_con o (if mn then 0 else 1)] [ra] []
      (fun s => - (inner m (s (e_w o)) - ra / 2 * qform (e_cov o) (s (e_w o)))) (e_weights o') d.
Proof.
  intros sv w o u m ra mn w' o' d [Ho [[i [j Hc]] [Hl [Hu [Hn [Hq [Hm [Ha [Has Hus]]]]]]]]] Em Hf H.
  unfold max_quadratic_utility in H.
  destruct (Rleb ra 0) eqn:Et; [discriminate H|]. apply Rleb_false in Et. split; [exact Et|].
  unfold bind at 1 in H. rewrite not_defined_run in H by exact Hf.
  unfold bind at 1 2 in H. unfold get in H. unfold bind at 1 in H. rewrite (need_mu_run w o m Em (Hm m Em)) in H.
  unfold bind at 1 in H. rewrite check_cov_run in H by exact Hq.
  unfold bind at 1 in H. rewrite new_param_run in H by (intros; lra).
  unfold bind at 1 in H. rewrite set_objective_full_run in H. cbn [w_sizes w_val w_params w_next] in H.
  set (w1 := mkWorld _ _ _ _) in H at 1. set (o1 := set_obj _ _) in H.
  assert (H' : bind (make_weight_sum_constraint mn) (fun _ => solve_and_output sv) w1 o1 = (w', o', Ok d)) by exact H.
  clear H. rename H' into H.
  assert (Hpv : par_values w1 = par_values w ++ [ra]) by (unfold w1, par_values; cbn [w_params]; rewrite map_app; reflexivity).
  eapply (weight_sum_posed sv mn w1 o1 u []) with
    (cost := fun s => - (inner m (s (e_w o)) - ra / 2 * qform (e_cov o) (s (e_w o)))) in H;
    [|exact Ho|reflexivity|rewrite app_nil_r; exact Hc|exact Hl|exact Hu|].
  - destruct H as [lb [ub [Hbf [L1 [L2 Hb]]]]]. exists lb, ub. split; [exact Hbf|]. split; [exact L1|]. split; [exact L2|].
    eapply (posed_world sv w w1 o o1 u _ _ _ [ra]); try reflexivity; try assumption.
  - intros s Hs. rewrite evals_add_all by (auto; apply scalar_utility).
    rewrite evals_utility. cbn [sign_of]. rewrite Hpv at 1. rewrite app_nth2 by (unfold par_values; rewrite map_length; lia).
    unfold par_values at 1. rewrite map_length, Nat.sub_diag. cbn [nth]. unfold o1; cbn [e_add e_w set_obj]. lra.
Qed.

(** the highest return, on a copy *)
Lemma max_return_copy_run : forall sv w o u m w' o' v, open_ef w o u -> e_mu o = Some m ->
  on_copy (max_return sv) w o = (w', o', Ok v) ->
  o' = o /\ w_sizes w' = w_sizes w /\ w_params w' = w_params w /\
  exists s val cs, sv (w_sizes w) (par_values w) (portfolio_return_e (EVar (e_w o)) m true) cs = AOptimal s val /\
    v = - val /\
    (forall P : con -> Prop, Forall P cs <->
       P (lower_con (e_lb o) (e_w o)) /\ P (upper_con (e_ub o) (e_w o)) /\ P (sum_con o 1) /\
       Forall (fun ic => P (snd ic)) u).
Proof.
  intros sv w o u m w' o' v [Ho [[i [j Hc]] [Hl [Hu [Hn [Hq [Hm [Ha [Has Hus]]]]]]]]] Em H.
  unfold on_copy, deepcopy in H.
  destruct (max_return sv w o) as [[w2 o2] r] eqn:E. inversion H; subst; clear H.
  split; [reflexivity|].
  unfold max_return, bind, get in E. rewrite Em in E. rewrite (need_mu_run w o' m Em (Hm m Em)) in E.
  rewrite set_objective_run in E. unfold sum_is in E. rewrite add_constraint_open in E by exact Ho.
  set (w1 := mkWorld _ _ _ _) in E at 1. set (o1 := set_cons _ _) in E.
  destruct (solve_opt sv w1 o1) as [[w3 o3] [sv3|x]] eqn:Es; [|discriminate E].
  assert (Hw3 : w_sizes w3 = w_sizes w /\ w_params w3 = w_params w).
  { unfold solve_opt, bind, get in Es. unfold o1 in Es. cbn [e_obj set_cons set_obj e_opt] in Es. rewrite Ho in Es.
    unfold bind, modify, ret, world_get in Es. cbn [p_obj p_cons snd fst] in Es.
    destruct (sv (w_sizes w1) _ _ _); [|discriminate Es|destruct e; discriminate Es].
    inversion Es; subst. split; reflexivity. }
  eapply (solve_open sv w1 o1) in Es; [|exact Ho|reflexivity]. destruct Es as [_ Es].
  destruct (sv (w_sizes w1) _ _ _) as [s v0| |] eqn:Esv; [|destruct Es as [? [Es _]]; discriminate Es|destruct Es as [? [Es _]]; discriminate Es].
  destruct Es as [Es Eo]. inversion Es; subst sv3. subst o3.
  unfold output, bind, get, lift_res, ret in E. cbn [make_output_weights e_base put_weights set_base b_weights set_opt] in E.
  inversion E; subst; clear E. split; [tauto|]. split; [tauto|].
  eexists s, v0, _. split; [exact Esv|]. split; [reflexivity|].
  intros P. unfold o1. cbn [e_cons set_cons set_obj e_w]. rewrite Hc.
  cbn [app]. rewrite map_cons, map_cons, map_app, !Forall_cons_iff', Forall_app. cbn [map snd].
  rewrite Forall_map_snd, Forall_cons_iff'. unfold sum_con. pose proof (Forall_nil P). tauto.
Qed.

Lemma efficient_return_posed : forall sv w o u m tg mn w' o' d, open_ef w o u ->
  e_mu o = Some m -> fresh_name w o "target_return" ->
  efficient_return sv tg mn w o = (w', o', Ok d) ->
  exists t lb ub, tg = NFloat t /\ bounds_in_force mn o lb ub /\
    List.length lb = e_n o /\ List.length ub = e_n o /\
    posed sv w o u lb ub [sum_con o (if mn then 0 else 1)] [t]
      [CIneq (EPar (List.length (w_params w))) (portfolio_return_e (EVar (e_w o)) m false)]
      (fun s => qform (e_cov o) (s (e_w o))) (e_weights o') d.
Proof.
  intros sv w o u m tg mn w' o' d Hopen Em Hf H. pose proof Hopen as Hopen'.
  destruct Hopen' as [Ho [[i [j Hc]] [Hl [Hu [Hn [Hq [Hm [Ha [Has Hus]]]]]]]]].
  unfold efficient_return in H. destruct tg as [t| |]; try discriminate H.
  unfold bind at 1, get in H.
  assert (Hmid : exists w0 mr, w_sizes w0 = w_sizes w /\ w_params w0 = w_params w /\
     when (falsy (e_maxret o)) (bind (on_copy (max_return sv)) (fun v => modify (set_maxret (Some v)))) w o
       = (w0, set_maxret mr o, Ok tt)).
  { destruct (falsy (e_maxret o)) eqn:Ef; cbn [when].
    - unfold when, bind at 1 in H. unfold bind in H. unfold bind.
      destruct (on_copy (max_return sv) w o) as [[w0 o0] [v|x]] eqn:Ecp; [|discriminate H].
      destruct (max_return_copy_run sv w o u m w0 o0 v Hopen Em Ecp) as [-> [E1 [E2 _]]].
      exists w0, (Some v). unfold modify. auto.
    - exists w, (e_maxret o). split; [reflexivity|]. split; [reflexivity|]. unfold ret. destruct o; reflexivity. }
  destruct Hmid as [w0 [mr [Es [Ep Hmid]]]]. unfold bind at 1 in H. rewrite Hmid in H.
  set (oo := set_maxret mr o) in *.
  unfold bind at 1 in H.
  destruct (match e_maxret oo with Some v => Rltb v t | None => false end) ; [discriminate H|].
  assert (Hf0 : fresh_name w0 oo "target_return").
  { intros p Hp. unfold named. rewrite Ep. apply Hf. exact Hp. }
  unfold bind at 1 in H. rewrite not_defined_run in H by exact Hf0.
  unfold bind at 1 2 in H. rewrite check_cov_run in H by exact Hq.
  unfold bind at 1 in H. rewrite set_objective_run in H.
  unfold bind at 1 in H. rewrite (need_mu_run _ _ m) in H by (try exact Em; apply Hm; exact Em).
  unfold bind at 1 in H. rewrite set_objective_full_run in H.
  unfold bind at 1 in H. rewrite new_param_run in H by discriminate.
  unfold bind at 1 in H. rewrite add_constraint_open in H by exact Ho.
  exists t. cbn [w_sizes w_val w_params w_next] in H. rewrite Es, Ep in H.
  set (w1 := mkWorld _ _ _ _) in H at 1. set (o1 := set_cons _ _) in H.
  assert (H' : bind (make_weight_sum_constraint mn) (fun _ => solve_and_output sv) w1 o1 = (w', o', Ok d)) by exact H.
  clear H. rename H' into H.
  assert (Hpv : par_values w1 = par_values w ++ [t]) by (unfold w1, par_values; cbn [w_params]; rewrite map_app; reflexivity).
  eapply (weight_sum_posed sv mn w1 o1 u [(_, _)]) with (cost := fun s => qform (e_cov o) (s (e_w o))) in H;
    [|exact Ho|reflexivity| |exact Hl|exact Hu|].
  - destruct H as [lb [ub [Hbf [L1 [L2 Hb]]]]]. exists lb, ub. split; [reflexivity|]. split; [exact Hbf|].
    split; [exact L1|]. split; [exact L2|].
    eapply (posed_world sv w w1 o o1 u _ _ _ [t]); try reflexivity; try assumption. exact Hb.
  - unfold o1, oo. cbn [e_cons set_cons set_obj e_w e_lb e_ub set_maxret]. rewrite Hc. reflexivity.
  - intros s Hs. rewrite evals_add_all by (auto; apply scalar_quad). unfold portfolio_variance_e. rewrite evals_quad.
    reflexivity.
Qed.
