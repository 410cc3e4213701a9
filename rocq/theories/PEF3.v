(** * Re-optimising with parameters (C21-C23) *)
From Coq Require Import ZArith List String Bool Reals Lra Lia.
From Verif Require Import Num Py RBase PyLemmas MBase MConvex MEF SLin SBase SConvex Sums PBase PConvex PEF PEF2.
Import ListNotations.
Local Open Scope R_scope.

Definition wsum_cons (mn : bool) (lb ub : list (option R)) (n v : nat) (u : list con) : list con :=
  if mn && negb (any_negative lb)
  then u ++ [lower_con (repeat (Some (-1)) n) v; upper_con (repeat (Some 1) n) v; CEq (ESum (EVar v)) (EScalar 0)]
  else lower_con lb v :: upper_con ub v :: u ++ [CEq (ESum (EVar v)) (EScalar (if mn then 0 else 1))].

Lemma weight_sum_exact : forall mn w o u i j, e_opt o = None ->
  e_cons o = (i, lower_con (e_lb o) (e_w o)) :: (j, upper_con (e_ub o) (e_w o)) :: u ->
  exists w' o', make_weight_sum_constraint mn w o = (w', o', Ok tt) /\
    w_sizes w' = w_sizes w /\ w_params w' = w_params w /\ (w_next w <= w_next w')%nat /\
    same_but_bounds o o' /\ e_mn o' = Some mn /\
    map snd (e_cons o') = wsum_cons mn (e_lb o) (e_ub o) (e_n o) (e_w o) (map snd u).
Proof.
  intros mn w o u i j Ho Hc. unfold make_weight_sum_constraint, sum_is, wsum_cons.
  destruct mn.
  - destruct (any_negative (e_lb o)) eqn:En.
    + unfold bind, get. rewrite En. unfold when, negb, ret. rewrite add_constraint_open by exact Ho.
      unfold modify. eexists _, _. split; [reflexivity|].
      split; [reflexivity|]. split; [reflexivity|]. split; [cbn; lia|]. split; [repeat split|]. split; [reflexivity|].
      cbn [e_cons set_mn set_cons]. rewrite Hc. cbn [andb app map snd]. rewrite map_app. reflexivity.
    + unfold bind, get. rewrite En. unfold when, negb. unfold map_bounds, bind, get, lift_res.
      rewrite read_pair. cbn [fst snd]. unfold modify at 1.
      rewrite add_constraint_open by exact Ho. rewrite add_constraint_open by exact Ho.
      unfold modify. rewrite add_constraint_open by exact Ho.
      eexists _, _. split; [reflexivity|].
      split; [reflexivity|]. split; [reflexivity|]. split; [cbn; lia|]. split; [repeat split|]. split; [reflexivity|].
      cbn [e_cons set_mn set_cons set_bounds e_w]. rewrite Hc. cbn [app skipn andb]. rewrite !map_app, <- !app_assoc. reflexivity.
  - unfold bind. rewrite add_constraint_open by exact Ho.
    unfold modify. eexists _, _. split; [reflexivity|].
    split; [reflexivity|]. split; [reflexivity|]. split; [cbn; lia|]. split; [repeat split|]. split; [reflexivity|].
    cbn [e_cons set_mn set_cons]. rewrite Hc. cbn [andb app map snd]. rewrite map_app. reflexivity.
Qed.

Definition outcome (ts : list label) (v : nat) (a : answer) : res (dict R) :=
  match a with
  | AOptimal s _ => Ok (dict_of_pairs (combine ts (map round16 (s v))))
  | ABad _ => Err OptimizationError
  | ARaise TypeError | ARaise DCPError => Err OptimizationError
  | ARaise e => Err e
  end.
Definition out_weights (v : nat) (a : answer) (old : option (list R)) : option (list R) :=
  match a with AOptimal s _ => Some (map round16 (s v)) | _ => old end.

(** solving, from an object without or with a problem for the same objective and constraints *)
Lemma same_ids_refl : forall X, same_ids X X = true.
Proof.
  intros X. unfold same_ids. assert (H : forallb (fun i => existsb (Nat.eqb i) (map fst X)) (map fst X) = true).
  { apply forallb_forall. intros i Hi. apply existsb_exists. exists i. split; [exact Hi|apply Nat.eqb_refl]. }
  rewrite H. reflexivity.
Qed.
Lemma solve_output_run : forall sv w o i e X, e_obj o = Some (i, e) -> e_cons o = X ->
  e_opt o = None \/ e_opt o = Some (mkProblem (i, e) X) ->
  exists w' o', solve_and_output sv w o =
      (w', o', outcome (b_tickers (e_base o)) (e_w o) (sv (w_sizes w) (par_values w) e (map snd X))) /\
    w_sizes w' = w_sizes w /\ w_params w' = w_params w /\ w_next w' = w_next w /\
    e_weights o' = out_weights (e_w o) (sv (w_sizes w) (par_values w) e (map snd X)) (e_weights o) /\
    b_tickers (e_base o') = b_tickers (e_base o) /\ e_rf o' = e_rf o /\ e_w o' = e_w o /\ e_obj o' = e_obj o /\
    e_add o' = e_add o /\ e_cons o' = X /\ e_opt o' = Some (mkProblem (i, e) X) /\ e_cov o' = e_cov o /\
    e_mu o' = e_mu o /\ e_maxret o' = e_maxret o /\ e_mn o' = e_mn o.
Proof.
  intros sv w o i e X He HX Hp. unfold solve_and_output, solve_opt, bind, get. rewrite He. destruct Hp as [Hp|Hp].
  - rewrite Hp. unfold modify, ret, world_get. rewrite HX. cbn [p_obj p_cons snd].
    destruct (sv (w_sizes w) (par_values w) e (map snd X)) as [s v|upd|x].
    + cbn [outcome]. eexists _, _. split; [reflexivity|]. cbn. repeat split; auto.
    + cbn [outcome]. eexists _, _. split; [reflexivity|]. cbn. repeat split; auto.
    + destruct x; (eexists _, _; split; [reflexivity|]; cbn; repeat split; auto).
  - rewrite Hp. cbn [p_obj p_cons fst snd]. rewrite Nat.eqb_refl, HX, same_ids_refl. cbn [negb]. unfold ret, world_get, modify.
    cbn [p_obj p_cons fst snd].
    destruct (sv (w_sizes w) (par_values w) e (map snd X)) as [s v|upd|x].
    + cbn [outcome]. eexists _, _. split; [reflexivity|]. cbn. repeat split; auto.
    + cbn [outcome]. eexists _, _. split; [reflexivity|]. cbn. repeat split; auto.
    + destruct x; (eexists _, _; split; [reflexivity|]; cbn; repeat split; auto).
Qed.

(** ** Objects between calls of one parametrised method *)
Section Param.
  Context (sv : solver_t) (name : string) (nn : bool) (mn : bool) (w0 : world) (o0 : ef) (e : expr) (cs : list con).
  Context (prep : R -> M ef unit).

  Definition world_with (w : world) (v : R) : Prop :=
    w_sizes w = w_sizes w0 /\ w_params w = w_params w0 ++ [mkParam name nn v].
  Definition obj_post (w : world) (o : ef) : Prop := exists i X,
    e_obj o = Some (i, e) /\ (i < w_next w)%nat /\ e_cons o = X /\ map snd X = cs /\
    e_mn o = Some mn /\ b_tickers (e_base o) = b_tickers (e_base o0) /\
    e_w o = e_w o0 /\ e_mu o = e_mu o0 /\ e_cov o = e_cov o0 /\ e_add o = e_add o0.
  Definition pre (w : world) (o : ef) : Prop :=
    w_sizes w = w_sizes w0 /\ w_params w = w_params w0 /\ exists mr, o = set_maxret mr o0.
  Definition has_problem (o : ef) : Prop := exists i, e_obj o = Some (i, e) /\ e_opt o = Some (mkProblem (i, e) (e_cons o)).
  Definition post (w : world) (o : ef) : Prop := exists v, world_with w v /\ obj_post w o /\ has_problem o.

  Context (Hfresh : fresh_name w0 o0 name).
  Context (Hocc : forall w v, w_params w = w_params w0 ++ [mkParam name nn v] ->
    filter (named w name) (flat_map cpars cs ++ epars e) = [List.length (w_params w0)]).
  Context (Hprep : forall v w o, (nn = true -> 0 <= v) -> pre w o ->
    exists w' o', prep v w o = (w', o', Ok tt) /\ world_with w' v /\ obj_post w' o' /\ e_opt o' = None /\
      e_maxret o' = e_maxret o).

  Definition tail (v : R) : M ef (dict R) :=
    (upd <- is_parameter_defined name ;;
     (if upd then validate_market_neutral mn ;; update_parameter_value name v else prep v) ;;
     solve_and_output sv)%m.

  Definition spec (v : R) : answer := sv (w_sizes w0) (par_values w0 ++ [v]) e cs.
  Lemma world_with_values : forall w v, world_with w v -> par_values w = par_values w0 ++ [v].
  Proof. intros w v [_ H]. unfold par_values. rewrite H, map_app. reflexivity. Qed.

  Lemma tail_run : forall v w o, (nn = true -> 0 <= v) -> pre w o \/ post w o ->
    exists w' o' old, tail v w o = (w', o', outcome (b_tickers (e_base o0)) (e_w o0) (spec v)) /\
      post w' o' /\ e_weights o' = out_weights (e_w o0) (spec v) old /\ e_maxret o' = e_maxret o.
  Proof.
    intros v w o Hv H. unfold tail.
    assert (Hmid : exists w1 o1, bind (is_parameter_defined name) (fun upd =>
        if upd then bind (validate_market_neutral mn) (fun _ => update_parameter_value name v) else prep v) w o = (w1, o1, Ok tt) /\
      world_with w1 v /\ obj_post w1 o1 /\ (e_opt o1 = None \/ has_problem o1) /\ e_maxret o1 = e_maxret o).
    { destruct H as [Hpre|Hpost].
      - destruct Hpre as [Es [Ep [mr Eo]]]. unfold bind. rewrite not_defined_run.
        2: { intros p Hp. unfold named. rewrite Ep. apply Hfresh. rewrite Eo in Hp. exact Hp. }
        destruct (Hprep v w o Hv (conj Es (conj Ep (ex_intro _ mr Eo)))) as [w' [o' [E1 [E2 [E3 [E4 E5]]]]]].
        exists w', o'. split; [exact E1|]. split; [exact E2|]. split; [exact E3|]. split; [left; exact E4|exact E5].
      - destruct Hpost as [v0 [[Es Ep] [[i [X [H1 [H2 [H3 [H4 [H5 [H6 [H7 [H8 [H9 H10]]]]]]]]]]] Hprob]]].
        assert (Eall : filter (named w name) (all_params o) = [List.length (w_params w0)]).
        { unfold all_params. rewrite H1, H3. rewrite flat_map_concat_map.
          rewrite <- (map_map snd cpars), H4, <- flat_map_concat_map. eapply Hocc. exact Ep. }
        assert (Edef : is_parameter_defined name w o = (w, o, Ok true)).
        { unfold is_parameter_defined, bind, get, world_get. rewrite Eall. reflexivity. }
        unfold bind. rewrite Edef. unfold validate_market_neutral, bind, get. rewrite H5, Bool.eqb_reflx. unfold ret.
        unfold update_parameter_value, bind. rewrite Edef. unfold get, world_get. rewrite Eall. cbn [forM]. unfold bind, ret.
        unfold set_param. rewrite Ep. rewrite nth_error_app2 by lia. rewrite Nat.sub_diag. cbn [nth_error p_nonneg p_name].
        assert (En : nn && Rltb v 0 = false).
        { destruct nn; [cbn [andb]; apply Rltb_false; auto|reflexivity]. }
        rewrite En. eexists _, o. split; [reflexivity|]. split.
        + split; [exact Es|]. cbn [w_params]. clear. induction (w_params w0); [reflexivity|]. cbn. f_equal. exact IHl.
        + split; [|split; [right; exact Hprob|reflexivity]]. exists i, X. cbn [w_next]. auto 14. }
    destruct Hmid as [w1 [o1 [E1 [Hw [[i [X [H1 [H2 [H3 [H4 [H5 [H6 [H7 [H8 [H9 H10]]]]]]]]]]] [Hopt Hmr]]]]]].
    assert (Hopt' : e_opt o1 = None \/ e_opt o1 = Some (mkProblem (i, e) X)).
    { destruct Hopt as [Hn|[i' [Hi Hp]]]; [left; exact Hn|right]. rewrite Hp, H3. congruence. }
    destruct (solve_output_run sv w1 o1 i e X H1 H3 Hopt')
      as [w2 [o2 [R1 [R2 [R3 [R4 [R5 [R6 [R7 [R8 [R9 [R10 [R11 [R12 [R13 [R14 [R15 R16]]]]]]]]]]]]]]]]].
    exists w2, o2, (e_weights o1).
    assert (Esp : sv (w_sizes w1) (par_values w1) e (map snd X) = spec v).
    { unfold spec. rewrite (world_with_values w1 v Hw), H4. destruct Hw as [-> _]. reflexivity. }
    rewrite Esp, H6, H7 in *. split.
    - unfold bind in E1 |- *. destruct (is_parameter_defined name w o) as [[wa oa] [upd|x]]; [|discriminate E1].
      destruct upd.
      + destruct (validate_market_neutral mn wa oa) as [[wb ob] [y|x]]; [|discriminate E1]. rewrite E1. exact R1.
      + rewrite E1. exact R1.
    - split; [|split; [exact R5|congruence]].
      exists v. split; [split; [rewrite R2; apply Hw|rewrite R3; apply Hw]|]. split.
      + exists i, X. rewrite R4. repeat split; congruence.
      + exists i. split; [congruence|]. rewrite R11. exact R12.
  Qed.
End Param.

(** a method whose result depends on the argument only, as long as the invariant holds *)
Lemma after_spec : forall {X} (F : X -> M ef (dict R)) (Inv : world -> ef -> Prop) (res_of : X -> res (dict R))
    (ws_of : X -> option (list R)),
  (forall t w o, Inv w o -> exists w' o', F t w o = (w', o', res_of t) /\ Inv w' o' /\
     (forall d, res_of t = Ok d -> e_weights o' = ws_of t)) ->
  forall ts w o w1 o1, Inv w o -> after F ts w o = (w1, o1) ->
  forall t wf of rf wh oh rh, F t w o = (wf, of, rf) -> F t w1 o1 = (wh, oh, rh) ->
    rh = rf /\ (forall d, rf = Ok d -> e_weights oh = e_weights of).
Proof.
  intros X F Inv res_of ws_of HF ts w o w1 o1 Hi Ha t wf of rf wh oh rh H1 H2.
  assert (Hi1 : Inv w1 o1).
  { clear H1 H2. revert w o Hi Ha. induction ts as [|x ts IH]; intros w o Hi Ha; cbn [after] in Ha.
    - inversion Ha; subst. exact Hi.
    - destruct (HF x w o Hi) as [w' [o' [E [Hi' _]]]]. rewrite E in Ha. exact (IH w' o' Hi' Ha). }
  destruct (HF t w o Hi) as [wa [oa [Ea [_ Hwa]]]]. destruct (HF t w1 o1 Hi1) as [wb [ob [Eb [_ Hwb]]]].
  rewrite Ea in H1. rewrite Eb in H2. inversion H1; inversion H2; subst. split; [reflexivity|].
  intros d Hd. rewrite (Hwa d Hd), (Hwb d Hd). reflexivity.
Qed.

(** ** Parameters of the assembled problems *)
Lemma unused_fresh : forall w o name, unused_name w o name -> fresh_name w o name.
Proof. intros w o name H p Hp. apply H. apply in_or_app. left; exact Hp. Qed.

Lemma epars_add_all : forall l e, epars (add_all e l) = epars e ++ flat_map epars l.
Proof.
  unfold add_all. induction l as [|a l IH]; intros e; cbn [fold_left flat_map]; [rewrite app_nil_r; reflexivity|].
  rewrite IH. cbn [epars]. rewrite app_assoc. reflexivity.
Qed.
Lemma wsum_pars : forall mn lb ub n v u, flat_map cpars (wsum_cons mn lb ub n v u) = flat_map cpars u.
Proof.
  intros. unfold wsum_cons. destruct (mn && negb (any_negative lb)).
  - rewrite flat_map_app. cbn. rewrite !app_nil_r. reflexivity.
  - cbn [flat_map]. rewrite flat_map_app. cbn. rewrite !app_nil_r. reflexivity.
Qed.
Lemma filter_none : forall {X} (p : X -> bool) l, (forall x, In x l -> p x = false) -> filter p l = [].
Proof.
  induction l as [|x l IH]; intros H; [reflexivity|]. cbn [filter]. rewrite (H x) by (left; reflexivity).
  apply IH. intros y Hy. apply H. right; exact Hy.
Qed.
Lemma named_app : forall w w0 q name p, w_params w = w_params w0 ++ [q] -> (p < List.length (w_params w0))%nat ->
  named w name p = named w0 name p.
Proof. intros w w0 q name p E H. unfold named. rewrite E, nth_error_app1 by exact H. reflexivity. Qed.
Lemma named_last : forall w w0 name nn v, w_params w = w_params w0 ++ [mkParam name nn v] ->
  named w name (List.length (w_params w0)) = true.
Proof.
  intros. unfold named. rewrite H, nth_error_app2 by lia. rewrite Nat.sub_diag. cbn. apply String.eqb_refl.
Qed.

Section Instances.
  Context (sv : solver_t) (w0 : world) (o0 : ef) (u : list (nat * con)) (m : list R).
  Context (Hopen : open_ef w0 o0 u) (Em : e_mu o0 = Some m).

  Lemma user_pars_none : forall name nn v w, unused_name w0 o0 name ->
    w_params w = w_params w0 ++ [mkParam name nn v] ->
    filter (named w name) (flat_map cpars (map snd u)) = [] /\
    filter (named w name) (flat_map epars (e_add o0)) = [].
  Proof.
    intros name nn v w Hun Ew. destruct Hopen as [Ho [[i [j Hc]] [Hl [Hu [Hn [Hq [Hm [Ha [Has Hus]]]]]]]]]. split; apply filter_none; intros p Hp.
    - assert (Hlt : (p < List.length (w_params w0))%nat).
      { apply in_flat_map in Hp. destruct Hp as [c [Hc1 Hc2]]. apply in_map_iff in Hc1. destruct Hc1 as [ic [<- Hin]].
        rewrite Forall_forall in Hus. specialize (Hus ic Hin). unfold scoped_con in Hus. rewrite Forall_forall in Hus. auto. }
      rewrite (named_app w w0 _ name p Ew Hlt). apply Hun. apply in_or_app. left. unfold all_params. apply in_or_app. left.
      rewrite Hc. cbn [flat_map]. rewrite flat_map_concat_map, <- (map_map snd cpars), <- flat_map_concat_map.
      cbn. exact Hp.
    - assert (Hlt : (p < List.length (w_params w0))%nat).
      { apply in_flat_map in Hp. destruct Hp as [c [Hc1 Hc2]].
        rewrite Forall_forall in Has. specialize (Has c Hc1). unfold scoped_expr in Has. rewrite Forall_forall in Has. auto. }
      rewrite (named_app w w0 _ name p Ew Hlt). apply Hun. apply in_or_app. right. exact Hp.
  Qed.

  Definition pid := List.length (w_params w0).

  (** *** efficient_risk *)
  Definition risk_con := CIneq (portfolio_variance_e (EVar (e_w o0)) (e_cov o0)) (EPar pid).
  Definition risk_e := add_all (portfolio_return_e (EVar (e_w o0)) m true) (e_add o0).
  Definition risk_cs (mn : bool) := wsum_cons mn (e_lb o0) (e_ub o0) (e_n o0) (e_w o0) (map snd u ++ [risk_con]).
  Definition risk_prep (mn : bool) (v : R) : M ef unit :=
    (mu <- need_mu ;;
     set_objective (portfolio_return_e (EVar (e_w o0)) mu true) ;;
     check_cov ;;
     set_objective_full (portfolio_return_e (EVar (e_w o0)) mu true) ;;
     p <- new_param "target_variance" true v ;;
     add_constraint (CFun (fun x => CIneq (portfolio_variance_e (EVar x) (e_cov o0)) (EPar p))) ;;
     make_weight_sum_constraint mn)%m.
  Lemma risk_prep_ok : forall mn v w o, 0 <= v -> pre w0 o0 w o ->
    exists w' o', risk_prep mn v w o = (w', o', Ok tt) /\ world_with "target_variance" true w0 w' v /\
      obj_post mn o0 risk_e (risk_cs mn) w' o' /\ e_opt o' = None /\ e_maxret o' = e_maxret o.
  Proof.
    intros mn v w o Hv [Es [Ep [mr Eo]]]. subst o.
    destruct Hopen as [Ho [[i [j Hc]] [Hl [Hu [Hn [Hq [Hm [Ha [Has Hus]]]]]]]]].
    unfold risk_prep. unfold bind at 1. rewrite (need_mu_run _ _ m) by (try exact Em; apply Hm; exact Em).
    unfold bind at 1. rewrite set_objective_run. unfold bind at 1. rewrite check_cov_run by exact Hq.
    unfold bind at 1. rewrite set_objective_full_run. unfold bind at 1. rewrite new_param_run by auto.
    unfold bind at 1. rewrite add_constraint_open by exact Ho. cbn [w_sizes w_val w_params w_next]. rewrite Es, Ep.
    set (w1 := mkWorld _ _ _ _). set (o1 := set_cons _ _).
    destruct (weight_sum_exact mn w1 o1 (u ++ [(S (S (w_next w)), risk_con)]) i j Ho)
      as [w' [o' [E [E1 [E2 [E3 [[S1 [S2 [S3 [S4 [S5 [S6 [S7 [S8 S9]]]]]]]] [E5 E6]]]]]]]].
    { unfold o1. cbn [e_cons set_cons set_obj set_maxret e_w e_lb e_ub]. rewrite Hc. reflexivity. }
    exists w', o'. split; [exact E|]. split; [|split; [|split; [rewrite S6; exact Ho|rewrite S9; reflexivity]]].
    - split; [rewrite E1; reflexivity|rewrite E2; reflexivity].
    - exists (S (w_next w)), (e_cons o'). rewrite S4, S1, S3, S8, S7, S5, E5. unfold o1 at 1.
      cbn [e_obj set_cons set_obj set_maxret e_w e_base e_add e_mu e_cov]. split; [reflexivity|].
      split; [unfold w1 in E3; cbn [w_next] in E3; lia|]. split; [reflexivity|]. split; [|repeat split].
      rewrite E6. unfold risk_cs. rewrite map_app. reflexivity.
  Qed.
  Lemma risk_occ : forall mn w v, unused_name w0 o0 "target_variance" ->
    w_params w = w_params w0 ++ [mkParam "target_variance" true v] ->
    filter (named w "target_variance") (flat_map cpars (risk_cs mn) ++ epars risk_e) = [pid].
  Proof.
    intros mn w v Hun Ew. destruct (user_pars_none _ _ _ _ Hun Ew) as [N1 N2].
    unfold risk_cs, risk_e. rewrite wsum_pars, flat_map_app, epars_add_all, !filter_app, N1, N2. cbn.
    pose proof (named_last w w0 _ _ _ Ew) as HL. fold pid in HL. rewrite HL. reflexivity.
  Qed.

  Lemma risk_reopt : forall pinv mn ts w1 o1 t wf of rf wh oh rh, unused_name w0 o0 "target_variance" ->
    after (fun t => efficient_risk sv pinv t mn) ts w0 o0 = (w1, o1) ->
    efficient_risk sv pinv t mn w0 o0 = (wf, of, rf) -> efficient_risk sv pinv t mn w1 o1 = (wh, oh, rh) ->
    rh = rf /\ (forall d, rf = Ok d -> e_weights oh = e_weights of).
  Proof.
    intros pinv mn ts w1 o1 t wf of rf wh oh rh Hun Haf Hff Hhh.
    set (Inv := fun w o => pre w0 o0 w o \/ post "target_variance" true mn w0 o0 risk_e (risk_cs mn) w o).
    set (ans := fun v => spec sv w0 risk_e (risk_cs mn) v).
    set (ok := fun tg : num_arg => match target_of tg with
               | None => None
               | Some x => if Rltb x 0 then None else if below_global_min pinv (e_cov o0) x then None else Some x end).
    refine (after_spec _ Inv
      (fun tg => match ok tg with None => Err ValueError | Some x => outcome (b_tickers (e_base o0)) (e_w o0) (ans (x * x)) end)
      (fun tg => match ok tg with None => None | Some x => match ans (x * x) with AOptimal s _ => Some (map round16 (s (e_w o0))) | _ => None end end)
      _ ts w0 o0 w1 o1 _ Haf t wf of rf wh oh rh Hff Hhh).
    - clear Haf Hff Hhh. intros tg w o HI. unfold efficient_risk, ok.
      destruct (target_of tg) as [x|]; [|exists w, o; split; [reflexivity|split; [exact HI|discriminate]]].
      destruct (Rltb x 0) eqn:Ex; [exists w, o; split; [reflexivity|split; [exact HI|discriminate]]|].
      unfold bind at 1, get.
      assert (Ecov : e_cov o = e_cov o0 /\ e_w o = e_w o0).
      { destruct HI as [[_ [_ [mr ->]]]|[v [_ [[i [X H]] _]]]]; [split; reflexivity|]. split; apply H. }
      destruct Ecov as [Ecov Ew]. rewrite Ecov, Ew.
      destruct (below_global_min pinv (e_cov o0) x); [exists w, o; split; [reflexivity|split; [exact HI|discriminate]]|].
      assert (Hx : true = true -> 0 <= x * x) by (intros; apply Rltb_false in Ex; nra).
      destruct (tail_run sv "target_variance" true mn w0 o0 risk_e (risk_cs mn) (risk_prep mn) (unused_fresh _ _ _ Hun)
                  (fun w v Hw => risk_occ mn w v Hun Hw) (fun v w o Hv Hp => risk_prep_ok mn v w o (Hv eq_refl) Hp)
                  (x * x) w o Hx HI) as [w' [o' [old [E1 [E2 [E3 _]]]]]].
      exists w', o'. split; [exact E1|]. split; [right; exact E2|]. intros d Hd. rewrite E3. unfold ans, outcome in *.
      destruct (spec sv w0 risk_e (risk_cs mn) (x * x)) as [s v|upd|ex]; [reflexivity|discriminate Hd|destruct ex; discriminate Hd].
    - left. split; [reflexivity|]. split; [reflexivity|]. exists (e_maxret o0). destruct o0; reflexivity.
  Qed.

  (** *** max_quadratic_utility *)
  Definition util_e := add_all (quadratic_utility_e (EVar (e_w o0)) m (e_cov o0) pid true) (e_add o0).
  Definition util_cs (mn : bool) := wsum_cons mn (e_lb o0) (e_ub o0) (e_n o0) (e_w o0) (map snd u).
  Definition util_prep (mn : bool) (v : R) : M ef unit :=
    (o <- get ;;
     mu <- need_mu ;;
     check_cov ;;
     p <- new_param "risk_aversion" true v ;;
     set_objective_full (quadratic_utility_e (EVar (e_w o)) mu (e_cov o) p true) ;;
     make_weight_sum_constraint mn)%m.
  Lemma util_prep_ok : forall mn v w o, 0 <= v -> pre w0 o0 w o ->
    exists w' o', util_prep mn v w o = (w', o', Ok tt) /\ world_with "risk_aversion" true w0 w' v /\
      obj_post mn o0 util_e (util_cs mn) w' o' /\ e_opt o' = None /\ e_maxret o' = e_maxret o.
  Proof.
    intros mn v w o Hv [Es [Ep [mr Eo]]]. subst o.
    destruct Hopen as [Ho [[i [j Hc]] [Hl [Hu [Hn [Hq [Hm [Ha [Has Hus]]]]]]]]].
    unfold util_prep. unfold bind at 1, get. unfold bind at 1.
    rewrite (need_mu_run _ _ m) by (try exact Em; apply Hm; exact Em).
    unfold bind at 1. rewrite check_cov_run by exact Hq.
    unfold bind at 1. rewrite new_param_run by auto.
    unfold bind at 1. rewrite set_objective_full_run. cbn [w_sizes w_val w_params w_next]. rewrite Es, Ep.
    set (w1 := mkWorld _ _ _ _). set (o1 := set_obj _ _).
    destruct (weight_sum_exact mn w1 o1 u i j Ho Hc)
      as [w' [o' [E [E1 [E2 [E3 [[S1 [S2 [S3 [S4 [S5 [S6 [S7 [S8 S9]]]]]]]] [E5 E6]]]]]]]].
    exists w', o'. split; [exact E|]. split; [|split; [|split; [rewrite S6; exact Ho|rewrite S9; reflexivity]]].
    - split; [rewrite E1; reflexivity|rewrite E2; reflexivity].
    - exists (w_next w), (e_cons o'). rewrite S4, S1, S3, S8, S7, S5, E5. unfold o1 at 1.
      cbn [e_obj set_cons set_obj set_maxret e_w e_base e_add e_mu e_cov]. split; [reflexivity|].
      split; [unfold w1 in E3; cbn [w_next] in E3; lia|]. split; [reflexivity|]. split; [|repeat split].
      rewrite E6. reflexivity.
  Qed.
  Lemma util_occ : forall mn w v, unused_name w0 o0 "risk_aversion" ->
    w_params w = w_params w0 ++ [mkParam "risk_aversion" true v] ->
    filter (named w "risk_aversion") (flat_map cpars (util_cs mn) ++ epars util_e) = [pid].
  Proof.
    intros mn w v Hun Ew. destruct (user_pars_none _ _ _ _ Hun Ew) as [N1 N2].
    unfold util_cs, util_e. rewrite wsum_pars, epars_add_all, !filter_app, N1, N2. cbn.
    pose proof (named_last w w0 _ _ _ Ew) as HL. fold pid in HL. rewrite HL. reflexivity.
  Qed.
  Lemma util_reopt : forall mn ts w1 o1 t wf of rf wh oh rh, unused_name w0 o0 "risk_aversion" ->
    after (fun t => max_quadratic_utility sv t mn) ts w0 o0 = (w1, o1) ->
    max_quadratic_utility sv t mn w0 o0 = (wf, of, rf) -> max_quadratic_utility sv t mn w1 o1 = (wh, oh, rh) ->
    rh = rf /\ (forall d, rf = Ok d -> e_weights oh = e_weights of).
  Proof.
    intros mn ts w1 o1 t wf of rf wh oh rh Hun Haf Hff Hhh.
    set (Inv := fun w o => pre w0 o0 w o \/ post "risk_aversion" true mn w0 o0 util_e (util_cs mn) w o).
    set (ans := fun v => spec sv w0 util_e (util_cs mn) v).
    refine (after_spec _ Inv
      (fun x => if Rleb x 0 then Err ValueError else outcome (b_tickers (e_base o0)) (e_w o0) (ans x))
      (fun x => match ans x with AOptimal s _ => Some (map round16 (s (e_w o0))) | _ => None end)
      _ ts w0 o0 w1 o1 _ Haf t wf of rf wh oh rh Hff Hhh).
    - clear Haf Hff Hhh. intros x w o HI. unfold max_quadratic_utility.
      destruct (Rleb x 0) eqn:Ex; [exists w, o; split; [reflexivity|split; [exact HI|discriminate]]|].
      assert (Hx : true = true -> 0 <= x) by (intros; apply Rleb_false in Ex; lra).
      destruct (tail_run sv "risk_aversion" true mn w0 o0 util_e (util_cs mn) (util_prep mn) (unused_fresh _ _ _ Hun)
                  (fun w v Hw => util_occ mn w v Hun Hw) (fun v w o Hv Hp => util_prep_ok mn v w o (Hv eq_refl) Hp)
                  x w o Hx HI) as [w' [o' [old [E1 [E2 [E3 _]]]]]].
      exists w', o'. split; [exact E1|]. split; [right; exact E2|]. intros d Hd. rewrite E3. unfold ans, outcome in *.
      destruct (spec sv w0 util_e (util_cs mn) x) as [s v|upd|ex]; [reflexivity|discriminate Hd|destruct ex; discriminate Hd].
    - left. split; [reflexivity|]. split; [reflexivity|]. exists (e_maxret o0). destruct o0; reflexivity.
  Qed.

  (** *** efficient_return *)
  Definition ret_con := CIneq (EPar pid) (portfolio_return_e (EVar (e_w o0)) m false).
  Definition ret_e := add_all (portfolio_variance_e (EVar (e_w o0)) (e_cov o0)) (e_add o0).
  Definition ret_cs (mn : bool) := wsum_cons mn (e_lb o0) (e_ub o0) (e_n o0) (e_w o0) (map snd u ++ [ret_con]).
  Definition ret_prep (mn : bool) (v : R) : M ef unit :=
    (check_cov ;;
     set_objective (portfolio_variance_e (EVar (e_w o0)) (e_cov o0)) ;;
     mu <- need_mu ;;
     set_objective_full (portfolio_variance_e (EVar (e_w o0)) (e_cov o0)) ;;
     p <- new_param "target_return" false v ;;
     add_constraint (CFun (fun v => CIneq (EPar p) (portfolio_return_e (EVar v) mu false))) ;;
     make_weight_sum_constraint mn)%m.
  Lemma ret_prep_ok : forall mn v w o, pre w0 o0 w o ->
    exists w' o', ret_prep mn v w o = (w', o', Ok tt) /\ world_with "target_return" false w0 w' v /\
      obj_post mn o0 ret_e (ret_cs mn) w' o' /\ e_opt o' = None /\ e_maxret o' = e_maxret o.
  Proof.
    intros mn v w o [Es [Ep [mr Eo]]]. subst o.
    destruct Hopen as [Ho [[i [j Hc]] [Hl [Hu [Hn [Hq [Hm [Ha [Has Hus]]]]]]]]].
    unfold ret_prep. unfold bind at 1. rewrite check_cov_run by exact Hq.
    unfold bind at 1. rewrite set_objective_run. unfold bind at 1.
    rewrite (need_mu_run _ _ m) by (try exact Em; apply Hm; exact Em).
    unfold bind at 1. rewrite set_objective_full_run. unfold bind at 1. rewrite new_param_run by discriminate.
    unfold bind at 1. rewrite add_constraint_open by exact Ho. cbn [w_sizes w_val w_params w_next]. rewrite Es, Ep.
    set (w1 := mkWorld _ _ _ _). set (o1 := set_cons _ _).
    destruct (weight_sum_exact mn w1 o1 (u ++ [(S (S (w_next w)), ret_con)]) i j Ho)
      as [w' [o' [E [E1 [E2 [E3 [[S1 [S2 [S3 [S4 [S5 [S6 [S7 [S8 S9]]]]]]]] [E5 E6]]]]]]]].
    { unfold o1. cbn [e_cons set_cons set_obj set_maxret e_w e_lb e_ub]. rewrite Hc. reflexivity. }
    exists w', o'. split; [exact E|]. split; [|split; [|split; [rewrite S6; exact Ho|rewrite S9; reflexivity]]].
    - split; [rewrite E1; reflexivity|rewrite E2; reflexivity].
    - exists (S (w_next w)), (e_cons o'). rewrite S4, S1, S3, S8, S7, S5, E5. unfold o1 at 1.
      cbn [e_obj set_cons set_obj set_maxret e_w e_base e_add e_mu e_cov]. split; [reflexivity|].
      split; [unfold w1 in E3; cbn [w_next] in E3; lia|]. split; [reflexivity|]. split; [|repeat split].
      rewrite E6. unfold ret_cs. rewrite map_app. reflexivity.
  Qed.
  Lemma ret_occ : forall mn w v, unused_name w0 o0 "target_return" ->
    w_params w = w_params w0 ++ [mkParam "target_return" false v] ->
    filter (named w "target_return") (flat_map cpars (ret_cs mn) ++ epars ret_e) = [pid].
  Proof.
    intros mn w v Hun Ew. destruct (user_pars_none _ _ _ _ Hun Ew) as [N1 N2].
    unfold ret_cs, ret_e. rewrite wsum_pars, flat_map_app, epars_add_all, !filter_app, N1, N2. cbn.
    pose proof (named_last w w0 _ _ _ Ew) as HL. fold pid in HL. rewrite HL. reflexivity.
  Qed.

  (** the answer to the largest return problem *)
  Definition maxret_answer : answer :=
    sv (w_sizes w0) (par_values w0) (portfolio_return_e (EVar (e_w o0)) m true)
       (map snd (e_cons o0) ++ [CEq (ESum (EVar (e_w o0))) (EScalar 1)]).
  Definition maxret_result : res R :=
    match maxret_answer with
    | AOptimal _ v => Ok (- v)
    | ABad _ => Err OptimizationError
    | ARaise TypeError | ARaise DCPError => Err OptimizationError
    | ARaise e => Err e
    end.
  Lemma max_return_pre : forall w o, pre w0 o0 w o ->
    exists w', on_copy (max_return sv) w o = (w', o, maxret_result) /\ w_sizes w' = w_sizes w /\ w_params w' = w_params w.
  Proof.
    intros w o [Es [Ep [mr Eo]]].
    destruct Hopen as [Ho [[i [j Hc]] [Hl [Hu [Hn [Hq [Hm [Ha [Has Hus]]]]]]]]].
    assert (Em' : e_mu o = Some m) by (subst o; exact Em). assert (Ho' : e_opt o = None) by (subst o; exact Ho).
    assert (Hpv : par_values w = par_values w0) by (unfold par_values; rewrite Ep; reflexivity).
    unfold on_copy, deepcopy, max_return, bind, get. rewrite Em'.
    rewrite (need_mu_run w o m) by (auto; subst o; apply Hm; exact Em). rewrite set_objective_run.
    unfold sum_is. rewrite add_constraint_open by exact Ho'.
    unfold solve_opt, bind, get. cbn [e_obj set_cons set_obj e_opt e_w e_cons]. rewrite Ho'. unfold modify, ret, world_get.
    cbn [p_obj p_cons snd w_sizes w_next]. unfold par_values. cbn [w_params]. fold (par_values w). rewrite Es, Hpv.
    assert (E : map snd (e_cons o ++ [(S (w_next w), CEq (ESum (EVar (e_w o))) (EScalar 1))]) =
                map snd (e_cons o0) ++ [CEq (ESum (EVar (e_w o0))) (EScalar 1)]).
    { subst o. cbn [e_cons set_maxret e_w]. rewrite map_app. reflexivity. }
    assert (Ew : e_w o = e_w o0) by (subst o; reflexivity).
    rewrite E, Ew. unfold maxret_result. change (sv (w_sizes w0) (par_values w0) (portfolio_return_e (EVar (e_w o0)) m true)
       (map snd (e_cons o0) ++ [CEq (ESum (EVar (e_w o0))) (EScalar 1)])) with maxret_answer.
    destruct maxret_answer as [s v|upd|ex].
    - eexists. split; [reflexivity|]. cbn. auto.
    - eexists. split; [reflexivity|]. cbn. auto.
    - destruct ex; (eexists; split; [reflexivity|]; cbn; auto).
  Qed.

  Lemma ret_reopt : forall mn ts w1 o1 t wf of rf wh oh rh, unused_name w0 o0 "target_return" ->
    e_maxret o0 = None -> maxret_result <> Ok 0 ->
    after (fun t => efficient_return sv t mn) ts w0 o0 = (w1, o1) ->
    efficient_return sv t mn w0 o0 = (wf, of, rf) -> efficient_return sv t mn w1 o1 = (wh, oh, rh) ->
    rh = rf /\ (forall d, rf = Ok d -> e_weights oh = e_weights of).
  Proof.
    intros mn ts w1 o1 t wf of rf wh oh rh Hun Hmr0 Hnz Haf Hff Hhh.
    set (Inv := fun w o =>
      (pre w0 o0 w o /\ (e_maxret o = None \/ exists v, maxret_result = Ok v /\ e_maxret o = Some v)) \/
      (post "target_return" false mn w0 o0 ret_e (ret_cs mn) w o /\ exists v, maxret_result = Ok v /\ e_maxret o = Some v)).
    set (ans := fun v => spec sv w0 ret_e (ret_cs mn) v).
    refine (after_spec _ Inv
      (fun tg => match tg with
         | NFloat x => match maxret_result with
                       | Ok v => if Rltb v x then Err ValueError else outcome (b_tickers (e_base o0)) (e_w o0) (ans x)
                       | Err e => Err e end
         | _ => Err ValueError end)
      (fun tg => match tg with NFloat x => match ans x with AOptimal s _ => Some (map round16 (s (e_w o0))) | _ => None end | _ => None end)
      _ ts w0 o0 w1 o1 _ Haf t wf of rf wh oh rh Hff Hhh).
    - clear Haf Hff Hhh. intros tg w o HI. unfold efficient_return.
      destruct tg as [x|z|]; [|exists w, o; split; [reflexivity|split; [exact HI|discriminate]]|exists w, o; split; [reflexivity|split; [exact HI|discriminate]]].
      unfold bind at 1, get.
      assert (Hmid : (exists w' o' v, when (falsy (e_maxret o)) (bind (on_copy (max_return sv)) (fun v => modify (set_maxret (Some v)))) w o = (w', o', Ok tt) /\
          Inv w' o' /\ maxret_result = Ok v /\ e_maxret o' = Some v) \/
         (exists w' ex, when (falsy (e_maxret o)) (bind (on_copy (max_return sv)) (fun v => modify (set_maxret (Some v)))) w o = (w', o, Err ex) /\
          Inv w' o /\ maxret_result = Err ex)).
      { destruct HI as [[Hpre [Hn|[v [Ev Eo]]]]|[Hpost [v [Ev Eo]]]].
        - rewrite Hn. cbn [falsy when]. destruct (max_return_pre w o Hpre) as [w' [E1 [E2 E3]]].
          unfold bind. rewrite E1. destruct maxret_result as [v|ex] eqn:Er.
          + left. exists w', (set_maxret (Some v) o), v. split; [reflexivity|]. split; [|split; reflexivity].
            left. destruct Hpre as [P1 [P2 [mr ->]]]. split; [|right; exists v; split; reflexivity].
            split; [congruence|]. split; [congruence|]. exists (Some v). reflexivity.
          + right. exists w', ex. split; [reflexivity|]. split; [|reflexivity].
            left. split; [|left; exact Hn]. destruct Hpre as [P1 [P2 P3]]. split; [congruence|]. split; [congruence|exact P3].
        - left. rewrite Eo. cbn [falsy]. assert (Ez : Reqb v 0 = false) by (apply Reqb_false; intros ->; apply Hnz; exact Ev).
          rewrite Ez. cbn [when]. exists w, o, v. split; [reflexivity|]. split; [|split; [exact Ev|exact Eo]].
          left. split; [exact Hpre|right; exists v; split; assumption].
        - left. rewrite Eo. cbn [falsy]. assert (Ez : Reqb v 0 = false) by (apply Reqb_false; intros ->; apply Hnz; exact Ev).
          rewrite Ez. cbn [when]. exists w, o, v. split; [reflexivity|]. split; [|split; [exact Ev|exact Eo]].
          right. split; [exact Hpost|exists v; split; assumption]. }
      assert (Ew0 : e_w o = e_w o0 /\ e_cov o = e_cov o0).
      { destruct HI as [[[_ [_ [mr ->]]] _]|[[v [_ [[i [X H]] _]]] _]]; [split; reflexivity|]. split; apply H. }
      destruct Ew0 as [Ew0 Ec0]. rewrite Ew0, Ec0.
      destruct Hmid as [[w' [o' [v [Em1 [HI' [Ev Eo]]]]]]|[w' [ex [Em1 [HI' Ev]]]]]; rewrite Ev.
      2: { exists w', o. split; [|split; [exact HI'|discriminate]]. unfold bind at 1. rewrite Em1. reflexivity. }
      unfold bind at 1. rewrite Em1. unfold bind at 1. rewrite Eo.
      destruct (Rltb v x); [exists w', o'; split; [reflexivity|split; [exact HI'|discriminate]]|].
      assert (HI2 : pre w0 o0 w' o' \/ post "target_return" false mn w0 o0 ret_e (ret_cs mn) w' o').
      { destruct HI' as [[Hp _]|[Hp _]]; [left|right]; exact Hp. }
      destruct (tail_run sv "target_return" false mn w0 o0 ret_e (ret_cs mn) (ret_prep mn) (unused_fresh _ _ _ Hun)
                  (fun w v Hw => ret_occ mn w v Hun Hw) (fun v w o _ Hp => ret_prep_ok mn v w o Hp)
                  x w' o' (fun H => False_ind _ (diff_false_true H)) HI2) as [w2 [o2 [old [E1 [E2 [E3 E4]]]]]].
      exists w2, o2. split; [exact E1|]. split; [right; split; [exact E2|exists v; split; [exact Ev|congruence]]|].
      intros d Hd. rewrite E3. unfold ans, outcome in *.
      destruct (spec sv w0 ret_e (ret_cs mn) x) as [s v'|upd|ex]; [reflexivity|discriminate Hd|destruct ex; discriminate Hd].
    - left. split; [|left; exact Hmr0]. split; [reflexivity|]. split; [reflexivity|]. exists (e_maxret o0). destruct o0; reflexivity.
  Qed.

  (** C23: another objective on a solved object *)
  Definition stuck (w : world) (o : ef) (mn : bool) (cs : list con) : Prop :=
    exists i p X, e_obj o = Some (i, add_all (portfolio_variance_e (EVar (e_w o0)) (e_cov o0)) (e_add o0)) /\
      e_cons o = X /\ map snd X = cs /\ e_opt o = Some p /\ fst (p_obj p) <> i /\ e_mn o = Some mn /\
      e_w o = e_w o0 /\ e_cov o = e_cov o0 /\ e_mu o = e_mu o0 /\ b_tickers (e_base o) = b_tickers (e_base o0).
  Lemma min_vol_rejected : forall name nn mn e cs w o, post name nn mn w0 o0 e cs w o ->
    exists w' o', min_volatility sv w o = (w', o', Err InstantiationError) /\ e_weights o' = e_weights o /\
      w_params w' = w_params w /\ e_maxret o' = e_maxret o /\ stuck w' o' mn cs.
  Proof.
    intros name nn mn e cs w o [v [Hw [[i [X [P1 [P2 [P3 [P4 [P5 [P6 [P7 [P8 [P9 P10]]]]]]]]]]] [i' [Q1 Q2]]]]].
    destruct Hopen as [Ho [[i0 [j0 Hc]] [Hl [Hu [Hn [Hq [Hm [Ha [Has Hus]]]]]]]]].
    unfold min_volatility, bind, get. rewrite check_cov_run by (unfold e_n; rewrite P6, P9; exact Hq).
    rewrite set_objective_full_run. unfold add_constraint, sum_is, bind, get. cbn [e_opt set_obj]. rewrite Q2.
    eexists _, _. split; [reflexivity|]. split; [reflexivity|]. split; [reflexivity|]. split; [reflexivity|].
    exists (w_next w), (mkProblem (i', e) (e_cons o)), X. cbn [e_obj set_obj e_cons e_opt e_mn e_w e_cov].
    rewrite P7, P9, P10. split; [reflexivity|]. split; [exact P3|]. split; [exact P4|]. split; [exact Q2|].
    split; [cbn; assert (i' = i) by congruence; lia|]. split; [exact P5|]. repeat split; assumption.
  Qed.
  Lemma stuck_tail : forall name nn mn e cs prep v v0 w o, stuck w o mn cs ->
    w_params w = w_params w0 ++ [mkParam name nn v0] ->
    filter (named w name) (flat_map cpars cs ++ epars e) = [pid] ->
    filter (named w name) (epars e) = [] ->
    filter (named w name) (flat_map epars (e_add o0)) = [] ->
    (nn = true -> 0 <= v) ->
    exists w' o', tail sv name mn prep v w o = (w', o', Err InstantiationError) /\ e_weights o' = e_weights o.
  Proof.
    intros name nn mn e cs prep v v0 w o [i [p [X [H1 [H2 [H3 [H4 [H5 [H6 [H7 [H8 _]]]]]]]]]]] Ep Hocc Hne Hna Hv.
    assert (Eall : filter (named w name) (all_params o) = [pid]).
    { unfold all_params. rewrite H1, H2. rewrite flat_map_concat_map.
      rewrite <- (map_map snd cpars), H3, <- flat_map_concat_map.
      rewrite filter_app in Hocc |- *. rewrite Hne, app_nil_r in Hocc. rewrite Hocc.
      rewrite epars_add_all, filter_app, Hna. reflexivity. }
    assert (Edef : is_parameter_defined name w o = (w, o, Ok true)).
    { unfold is_parameter_defined, bind, get, world_get. rewrite Eall. reflexivity. }
    unfold tail, bind. rewrite Edef. unfold validate_market_neutral, bind, get. rewrite H6, Bool.eqb_reflx. unfold ret.
    unfold update_parameter_value, bind. rewrite Edef. unfold get, world_get. rewrite Eall. cbn [forM]. unfold bind, ret.
    unfold set_param, pid. rewrite Ep. rewrite nth_error_app2 by lia. rewrite Nat.sub_diag. cbn [nth_error p_nonneg p_name].
    assert (En : nn && Rltb v 0 = false).
    { destruct nn; [cbn [andb]; apply Rltb_false; auto|reflexivity]. }
    rewrite En. unfold solve_and_output, solve_opt, bind, get. rewrite H1, H4. cbn [fst].
    assert (Ei : (i =? fst (p_obj p))%nat = false) by (apply Nat.eqb_neq; congruence). rewrite Ei. cbn [negb].
    eexists _, _. split; reflexivity.
  Qed.
  Lemma risk_then_minvol : forall pinv mn t w1 o1 d w2 o2 r t' w3 o3 r', unused_name w0 o0 "target_variance" ->
    efficient_risk sv pinv t mn w0 o0 = (w1, o1, Ok d) ->
    min_volatility sv w1 o1 = (w2, o2, r) ->
    efficient_risk sv pinv t' mn w2 o2 = (w3, o3, r') ->
    r = Err InstantiationError /\ e_weights o2 = e_weights o1 /\
    (r' = Err InstantiationError \/ r' = Err ValueError) /\
    (r' = Err ValueError -> exists w' o', efficient_risk sv pinv t' mn w0 o0 = (w', o', Err ValueError)) /\
    e_weights o3 = e_weights o1.
  Proof.
    intros pinv mn t w1 o1 d w2 o2 r t' w3 o3 r' Hun H1 H2 H3.
    assert (Hpre : pre w0 o0 w0 o0).
    { split; [reflexivity|]. split; [reflexivity|]. exists (e_maxret o0). destruct o0; reflexivity. }
    assert (Hpost : post "target_variance" true mn w0 o0 risk_e (risk_cs mn) w1 o1).
    { unfold efficient_risk in H1. destruct (target_of t) as [x|]; [|discriminate H1].
      destruct (Rltb x 0) eqn:Ex; [discriminate H1|]. unfold bind at 1, get in H1.
      destruct (below_global_min pinv (e_cov o0) x); [discriminate H1|].
      assert (Hx : true = true -> 0 <= x * x) by (intros; apply Rltb_false in Ex; nra).
      destruct (tail_run sv "target_variance" true mn w0 o0 risk_e (risk_cs mn) (risk_prep mn) (unused_fresh _ _ _ Hun)
                  (fun w v Hw => risk_occ mn w v Hun Hw) (fun v w o Hv Hp => risk_prep_ok mn v w o (Hv eq_refl) Hp)
                  (x * x) w0 o0 Hx (or_introl Hpre)) as [w' [o' [old [E1 [E2 _]]]]].
      unfold tail, risk_prep in E1. rewrite E1 in H1. inversion H1; subst. exact E2. }
    destruct (min_vol_rejected _ _ _ _ _ _ _ Hpost) as [wa [oa [E [Ew [Epar [_ Hst]]]]]].
    rewrite E in H2. inversion H2; subst. split; [reflexivity|]. split; [exact Ew|].
    destruct Hpost as [v0 [[Hs Hp] _]].
    assert (Hp2 : w_params w2 = w_params w0 ++ [mkParam "target_variance" true v0]) by congruence.
    unfold efficient_risk in H3 |- *. destruct (target_of t') as [x|].
    2: { inversion H3; subst. split; [right; reflexivity|]. split; [intros _; exists w0, o0; reflexivity|exact Ew]. }
    destruct (Rltb x 0) eqn:Ex.
    { inversion H3; subst. split; [right; reflexivity|]. split; [intros _; exists w0, o0; reflexivity|exact Ew]. }
    unfold bind at 1, get in H3. unfold bind at 1, get.
    assert (Ec : e_cov o2 = e_cov o0 /\ e_w o2 = e_w o0).
    { destruct Hst as [i [p [X [S1 [S2 [S3 [S4 [S5 [S6 [S7 [S8 S9]]]]]]]]]]]. auto. }
    destruct Ec as [Ec Ew2]. rewrite Ec in H3. destruct (below_global_min pinv (e_cov o0) x) eqn:Eb.
    { inversion H3; subst. split; [right; reflexivity|]. split; [intros _; exists w0, o0; reflexivity|exact Ew]. }
    destruct (user_pars_none _ _ _ _ Hun Hp2) as [N1 N2].
    destruct (stuck_tail "target_variance" true mn risk_e (risk_cs mn) (risk_prep mn) (x * x) v0 w2 o2 Hst Hp2
                (risk_occ mn w2 v0 Hun Hp2)) as [w4 [o4 [T1 T2]]].
    - unfold risk_e. rewrite epars_add_all, filter_app, N2. reflexivity.
    - exact N2.
    - intros _. apply Rltb_false in Ex. nra.
    - unfold tail, risk_prep in T1. rewrite Ew2 in H3. rewrite T1 in H3. inversion H3; subst.
      split; [left; reflexivity|]. split; [discriminate|congruence].
  Qed.
  Lemma return_then_minvol : forall mn t w1 o1 d w2 o2 r t' w3 o3 r', unused_name w0 o0 "target_return" ->
    e_maxret o0 = None ->
    efficient_return sv (NFloat t) mn w0 o0 = (w1, o1, Ok d) ->
    min_volatility sv w1 o1 = (w2, o2, r) ->
    efficient_return sv (NFloat t') mn w2 o2 = (w3, o3, r') ->
    r = Err InstantiationError /\ e_weights o2 = e_weights o1 /\
    (r' = Err InstantiationError \/ r' = Err ValueError) /\
    (r' = Err ValueError -> exists w' o', efficient_return sv (NFloat t') mn w0 o0 = (w', o', Err ValueError)) /\
    e_weights o3 = e_weights o1.
  Proof.
    intros mn t w1 o1 d w2 o2 r t' w3 o3 r' Hun Hmr0 H1 H2 H3.
    assert (Hpre : pre w0 o0 w0 o0).
    { split; [reflexivity|]. split; [reflexivity|]. exists (e_maxret o0). destruct o0; reflexivity. }
    destruct (max_return_pre w0 o0 Hpre) as [wm [M1 [M2 M3]]].
    assert (Hpost : exists mv, maxret_result = Ok mv /\ e_maxret o1 = Some mv /\
              post "target_return" false mn w0 o0 ret_e (ret_cs mn) w1 o1).
    { unfold efficient_return in H1. unfold bind at 1, get in H1. rewrite Hmr0 in H1. cbn [falsy when] in H1.
      unfold bind at 1 2 in H1. rewrite M1 in H1. destruct maxret_result as [mv|ex] eqn:Er; [|discriminate H1].
      exists mv. split; [reflexivity|].
      unfold modify in H1. unfold bind at 1 in H1. cbn [e_maxret set_maxret] in H1.
      destruct (Rltb mv t); [discriminate H1|].
      assert (Hp2 : pre w0 o0 wm (set_maxret (Some mv) o0)).
      { split; [exact M2|]. split; [exact M3|]. exists (Some mv). reflexivity. }
      destruct (tail_run sv "target_return" false mn w0 o0 ret_e (ret_cs mn) (ret_prep mn) (unused_fresh _ _ _ Hun)
                  (fun w v Hw => ret_occ mn w v Hun Hw) (fun v w o _ Hp => ret_prep_ok mn v w o Hp)
                  t wm (set_maxret (Some mv) o0) (fun H => False_ind _ (diff_false_true H)) (or_introl Hp2)) as [wx [ox [old [T1 [T2 [T3 T4]]]]]].
      unfold tail, ret_prep in T1. rewrite T1 in H1. inversion H1; subst. split; [exact T4|exact T2]. }
    destruct Hpost as [mv [Er [Emr Hpost]]].
    destruct (min_vol_rejected _ _ _ _ _ _ _ Hpost) as [wa [oa [E [Ew [Epar [Emr2 Hst]]]]]].
    rewrite E in H2. inversion H2; subst. split; [reflexivity|]. split; [exact Ew|].
    destruct Hpost as [v0 [[Hs Hp] [[ip [Xp [P1 [P2 [P3 [P4 [P5 [P6 [P7 [P8 [P9 P10]]]]]]]]]]] _]]].
    assert (Hp2 : w_params w2 = w_params w0 ++ [mkParam "target_return" false v0]) by congruence.
    unfold efficient_return in H3. unfold bind at 1, get in H3. rewrite Emr2, Emr in H3. cbn [falsy] in H3.
    destruct (Reqb mv 0) eqn:Ez.
    { cbn [when] in H3. unfold on_copy, deepcopy, max_return in H3. unfold bind at 1 2 in H3. unfold bind at 1 in H3. unfold get in H3.
      assert (Hmt : e_mu o2 = Some m /\ b_tickers (e_base o2) = b_tickers (e_base o0)).
      { destruct Hst as [i [p [X [S1 [S2 [S3 [S4 [S5 [S6 [S7 [S8 [S9 S10]]]]]]]]]]]]. split; congruence. }
      destruct Hmt as [Emu Etk].
      rewrite Emu in H3. unfold bind in H3.
      rewrite (need_mu_run w2 o2 m Emu) in H3 by (unfold e_n; rewrite Etk; destruct Hopen as [_ [_ [_ [_ [_ [_ [Hm _]]]]]]]; apply Hm; exact Em).
      rewrite set_objective_run in H3. unfold add_constraint, sum_is, bind, get in H3. cbn [e_opt set_obj] in H3.
      destruct Hst as [i [p [X [S1 [S2 [S3 [S4 S5]]]]]]]. rewrite S4 in H3. inversion H3; subst.
      split; [left; reflexivity|]. split; [discriminate|exact Ew]. }
    cbn [when] in H3. unfold bind at 1, ret in H3. unfold bind at 1 in H3. rewrite Emr2, Emr in H3.
    assert (Ec : e_cov o2 = e_cov o0 /\ e_w o2 = e_w o0).
    { destruct Hst as [i [p [X [S1 [S2 [S3 [S4 [S5 [S6 [S7 [S8 S9]]]]]]]]]]]. auto. }
    destruct Ec as [Ec Ew2]. rewrite Ec, Ew2 in H3. destruct (Rltb mv t') eqn:Eb.
    { inversion H3; subst. split; [right; reflexivity|]. split; [|exact Ew]. intros _.
      unfold efficient_return. unfold bind at 1, get. rewrite Hmr0. cbn [falsy when]. unfold bind at 1 2. rewrite M1, Er.
      unfold modify. unfold bind at 1. cbn [e_maxret set_maxret]. rewrite Eb. eexists _, _. reflexivity. }
    destruct (user_pars_none _ _ _ _ Hun Hp2) as [N1 N2].
    destruct (stuck_tail "target_return" false mn ret_e (ret_cs mn) (ret_prep mn) t' v0 w2 o2 Hst Hp2
                (ret_occ mn w2 v0 Hun Hp2)) as [w4 [o4 [T1 T2]]].
    - unfold ret_e. rewrite epars_add_all, filter_app, N2. reflexivity.
    - exact N2.
    - discriminate.
    - unfold tail, ret_prep in T1. rewrite T1 in H3. inversion H3; subst.
      split; [left; reflexivity|]. split; [discriminate|congruence].
  Qed.

  (** C22: after a success with largest return zero, every further call fails *)
  Lemma zero_return_stuck : forall mn t w1 o1 d, unused_name w0 o0 "target_return" ->
    e_maxret o0 = None -> maxret_result = Ok 0 ->
    efficient_return sv (NFloat t) mn w0 o0 = (w1, o1, Ok d) ->
    forall ts w2 o2, after (fun t => efficient_return sv (NFloat t) mn) ts w1 o1 = (w2, o2) ->
    forall t' mn' , exists w3, efficient_return sv (NFloat t') mn' w2 o2 = (w3, o2, Err InstantiationError).
  Proof.
    intros mn t w1 o1 d Hun Hmr0 Hz H.
    assert (Hpre : pre w0 o0 w0 o0).
    { split; [reflexivity|]. split; [reflexivity|]. exists (e_maxret o0). destruct o0; reflexivity. }
    destruct (max_return_pre w0 o0 Hpre) as [w' [E1 [E2 E3]]].
    assert (Hst : e_maxret o1 = Some 0 /\ e_opt o1 <> None /\ e_mu o1 = Some m /\ List.length m = e_n o1).
    { unfold efficient_return in H. unfold bind at 1, get in H. rewrite Hmr0 in H. cbn [falsy when] in H.
      unfold bind at 1 2 in H. rewrite E1, Hz in H. unfold modify in H. unfold bind at 1 in H. cbn [e_maxret set_maxret] in H.
      destruct (Rltb 0 t); [discriminate H|].
      assert (Hp2 : pre w0 o0 w' (set_maxret (Some 0) o0)).
      { split; [exact E2|]. split; [exact E3|]. exists (Some 0). reflexivity. }
      destruct (tail_run sv "target_return" false mn w0 o0 ret_e (ret_cs mn) (ret_prep mn) (unused_fresh _ _ _ Hun)
                  (fun w v Hw => ret_occ mn w v Hun Hw) (fun v w o _ Hp => ret_prep_ok mn v w o Hp)
                  t w' (set_maxret (Some 0) o0) (fun H => False_ind _ (diff_false_true H)) (or_introl Hp2)) as [w2 [o2 [old [T1 [T2 [T3 T4]]]]]].
      unfold tail in T1. unfold ret_prep in T1. rewrite T1 in H. inversion H; subst. split; [exact T4|].
      destruct T2 as [v [_ [[i [X [P1 [P2 [P3 [P4 [P5 [P6 [P7 [P8 [P9 P10]]]]]]]]]]] [i' [_ Q]]]]]. split; [rewrite Q; discriminate|].
      split; [congruence|]. unfold e_n. rewrite P6. destruct Hopen as [_ [_ [_ [_ [_ [_ [Hm _]]]]]]]. apply Hm; exact Em. }
    assert (Hall : forall t' mn' w2 o2, e_maxret o2 = Some 0 /\ e_opt o2 <> None /\ e_mu o2 = Some m /\ List.length m = e_n o2 ->
       exists w3, efficient_return sv (NFloat t') mn' w2 o2 = (w3, o2, Err InstantiationError)).
    { intros t' mn' w2 o2 [A1 [A2 [A3 A4]]]. unfold efficient_return, bind, get. rewrite A1. cbn [falsy].
      assert (Ez : Reqb 0 0 = true) by (apply Reqb_true; reflexivity). rewrite Ez. cbn [when].
      unfold on_copy, deepcopy, max_return, bind, get. rewrite A3. rewrite (need_mu_run w2 o2 m A3 A4).
      rewrite set_objective_run. unfold add_constraint, sum_is, bind, get. cbn [e_opt set_obj].
      destruct (e_opt o2); [|congruence]. eexists. reflexivity. }
    intros ts. revert w1 o1 Hst H. induction ts as [|x ts IH]; intros w1 o1 Hst H w2 o2 Ha t' mn'; cbn [after] in Ha.
    - inversion Ha; subst. apply Hall. exact Hst.
    - clear H. destruct (Hall x mn w1 o1 Hst) as [w3 E]. rewrite E in Ha. clear E.
      revert w3 Ha. clear IH. induction ts as [|y ts IH2]; intros w3 Ha; cbn [after] in Ha.
      + inversion Ha; subst. apply Hall. exact Hst.
      + destruct (Hall y mn w3 o1 Hst) as [w4 E]. rewrite E in Ha. exact (IH2 w4 Ha).
  Qed.

  (** first calls *)
  Lemma pre_self : pre w0 o0 w0 o0.
  Proof. split; [reflexivity|]. split; [reflexivity|]. exists (e_maxret o0). destruct o0; reflexivity. Qed.
  Lemma return_first : forall mn t v, unused_name w0 o0 "target_return" -> e_maxret o0 = None ->
    maxret_result = Ok v -> t <= v ->
    exists w' o', efficient_return sv (NFloat t) mn w0 o0 =
      (w', o', outcome (b_tickers (e_base o0)) (e_w o0) (sv (w_sizes w0) (par_values w0 ++ [t]) ret_e (ret_cs mn))).
  Proof.
    intros mn t v Hun Hmr Hv Ht. destruct (max_return_pre w0 o0 pre_self) as [w' [E1 [E2 E3]]].
    assert (Hp2 : pre w0 o0 w' (set_maxret (Some v) o0)).
    { split; [exact E2|]. split; [exact E3|]. exists (Some v). reflexivity. }
    destruct (tail_run sv "target_return" false mn w0 o0 ret_e (ret_cs mn) (ret_prep mn) (unused_fresh _ _ _ Hun)
                (fun w v Hw => ret_occ mn w v Hun Hw) (fun v w o _ Hp => ret_prep_ok mn v w o Hp)
                t w' (set_maxret (Some v) o0) (fun H => False_ind _ (diff_false_true H)) (or_introl Hp2)) as [w2 [o2 [old [T1 _]]]].
    exists w2, o2. unfold efficient_return. unfold bind at 1, get. rewrite Hmr. cbn [falsy when].
    unfold bind at 1 2. rewrite E1, Hv. unfold modify. unfold bind at 1. cbn [e_maxret set_maxret].
    assert (E : Rltb v t = false) by (apply Rltb_false; lra). rewrite E. exact T1.
  Qed.
  Lemma risk_first : forall pinv mn tg t, unused_name w0 o0 "target_variance" -> target_of tg = Some t -> 0 <= t ->
    below_global_min pinv (e_cov o0) t = false ->
    exists w' o', efficient_risk sv pinv tg mn w0 o0 =
      (w', o', outcome (b_tickers (e_base o0)) (e_w o0) (sv (w_sizes w0) (par_values w0 ++ [t * t]) risk_e (risk_cs mn))).
  Proof.
    intros pinv mn tg t Hun Et Ht Hb.
    destruct (tail_run sv "target_variance" true mn w0 o0 risk_e (risk_cs mn) (risk_prep mn) (unused_fresh _ _ _ Hun)
                (fun w v Hw => risk_occ mn w v Hun Hw) (fun v w o Hv Hp => risk_prep_ok mn v w o (Hv eq_refl) Hp)
                (t * t) w0 o0 (fun _ => Rmult_le_pos t t Ht Ht) (or_introl pre_self)) as [w2 [o2 [old [T1 _]]]].
    exists w2, o2. unfold efficient_risk. rewrite Et. assert (E : Rltb t 0 = false) by (apply Rltb_false; lra). rewrite E.
    unfold bind at 1, get. rewrite Hb. exact T1.
  Qed.
  Lemma util_first : forall mn t, unused_name w0 o0 "risk_aversion" -> 0 < t ->
    exists w' o', max_quadratic_utility sv t mn w0 o0 =
      (w', o', outcome (b_tickers (e_base o0)) (e_w o0) (sv (w_sizes w0) (par_values w0 ++ [t]) util_e (util_cs mn))).
  Proof.
    intros mn t Hun Ht.
    destruct (tail_run sv "risk_aversion" true mn w0 o0 util_e (util_cs mn) (util_prep mn) (unused_fresh _ _ _ Hun)
                (fun w v Hw => util_occ mn w v Hun Hw) (fun v w o Hv Hp => util_prep_ok mn v w o (Hv eq_refl) Hp)
                t w0 o0 (fun _ => Rlt_le _ _ Ht) (or_introl pre_self)) as [w2 [o2 [old [T1 _]]]].
    exists w2, o2. unfold max_quadratic_utility. assert (E : Rleb t 0 = false) by (apply Rleb_false; lra). rewrite E. exact T1.
  Qed.

  (** C21 for efficient_return *)
  Lemma return_reopt : forall mn ts w1 o1 t wf of rf wh oh rh, unused_name w0 o0 "target_return" ->
    e_maxret o0 = None -> (forall w' o', on_copy (max_return sv) w0 o0 <> (w', o', Ok 0)) ->
    after (fun t => efficient_return sv t mn) ts w0 o0 = (w1, o1) ->
    efficient_return sv t mn w0 o0 = (wf, of, rf) -> efficient_return sv t mn w1 o1 = (wh, oh, rh) ->
    rh = rf /\ (forall d, rf = Ok d -> e_weights oh = e_weights of).
  Proof.
    intros mn ts w1 o1 t wf of rf wh oh rh Hun Hmr Hz. apply ret_reopt; try assumption.
    intros E. destruct (max_return_pre w0 o0 pre_self) as [w' [E1 _]]. rewrite E in E1. exact (Hz _ _ E1).
  Qed.
  (** C22 *)
  Lemma zero_max_return_stuck : forall mn t w1 o1 d, exact_solver sv -> unused_name w0 o0 "target_return" ->
    e_maxret o0 = None ->
    (exists s, admissible w0 o0 u (e_lb o0) (e_ub o0) 1 s /\ inner m (s (e_w o0)) = 0) ->
    (forall s, admissible w0 o0 u (e_lb o0) (e_ub o0) 1 s -> inner m (s (e_w o0)) <= 0) ->
    efficient_return sv (NFloat t) mn w0 o0 = (w1, o1, Ok d) ->
    forall ts w2 o2, after (fun t => efficient_return sv (NFloat t) mn) ts w1 o1 = (w2, o2) ->
    forall t' mn' , exists w3, efficient_return sv (NFloat t') mn' w2 o2 = (w3, o2, Err InstantiationError).
  Proof.
    intros mn t w1 o1 d Hsv Hun Hmr [s [Hs Hs0]] Hmax H.
    apply (zero_return_stuck mn t w1 o1 d); try assumption.
    destruct (max_return_pre w0 o0 pre_self) as [w' [E1 _]].
    unfold efficient_return in H. unfold bind at 1, get in H. rewrite Hmr in H. cbn [falsy when] in H.
    unfold bind at 1 2 in H. rewrite E1 in H. destruct maxret_result as [v|e]; [|discriminate H].
    destruct (max_return_copy sv w0 o0 u m w' o0 v Hsv Hopen Em E1) as [_ [_ [_ [[s' [A1 A2]] A3]]]].
    specialize (A3 s Hs). specialize (Hmax s' A1). f_equal. lra.
  Qed.
End Instances.
