(** * Re-optimising the downside-risk optimisers with new targets *)
From Coq Require Import ZArith List String Bool Reals Lra Lia.
From Verif Require Import Num Py RBase PyLemmas MBase MConvex MEF MDown MCalls SLin SBase SConvex SDown SCalls Sums PBase PConvex PEF PEF2 PEF3 PEF4 PDown PDown2 PDown3.
Import ListNotations.
Local Open Scope R_scope.

(** ** Objects between calls of one parametrised method that may add variables and may reject its argument *)
Section Param2.
  Context (sv : solver_t) (name : string) (nn : bool) (mn : bool) (w0 : world) (o0 : ef) (sz : list nat) (e : expr) (cs : list con).
  Context (prep : R -> M ef unit).

  Definition world2 (w : world) (v : R) : Prop :=
    w_sizes w = w_sizes w0 ++ sz /\ w_params w = w_params w0 ++ [mkParam name nn v].
  Definition no_name (ob : option (nat * expr)) : Prop :=
    forall p, In p (match ob with None => [] | Some (_, x) => epars x end) -> named w0 name p = false.
  Definition pre2 (w : world) (o : ef) : Prop :=
    w_sizes w = w_sizes w0 /\ w_params w = w_params w0 /\ exists ob, o = set_obj ob o0 /\ no_name ob.
  Definition post2 (w : world) (o : ef) : Prop := exists v, world2 w v /\ obj_post mn o0 e cs w o /\ has_problem e o.
  Definition bad (v : R) : bool := nn && Rltb v 0.

  Context (Hun : unused_name w0 o0 name).
  Context (Hocc : forall w v, w_params w = w_params w0 ++ [mkParam name nn v] ->
    filter (named w name) (flat_map cpars cs ++ epars e) = [List.length (w_params w0)]).
  Context (Hprep : forall v w o, bad v = false -> pre2 w o ->
    exists w' o', prep v w o = (w', o', Ok tt) /\ world2 w' v /\ obj_post mn o0 e cs w' o' /\ e_opt o' = None).
  Context (Hbad : forall v w o, bad v = true -> pre2 w o ->
    exists w' o', prep v w o = (w', o', Err ValueError) /\ pre2 w' o').

  Definition tail2 (v : R) : M ef (dict R) :=
    (upd <- is_parameter_defined name ;;
     (if upd then validate_market_neutral mn ;; update_parameter_value name v else prep v) ;;
     solve_and_output sv)%m.

  Definition spec2 (v : R) : answer := sv (w_sizes w0 ++ sz) (par_values w0 ++ [v]) e cs.
  Definition seen (v : R) (w : world) (o : ef) : Prop := forall s y, spec2 v = AOptimal s y ->
    e_weights o = Some (map round16 (s (e_w o0))) /\ e_mu o = e_mu o0 /\
    forall x, In x (evars e ++ flat_map cvars cs) -> w_val w x = Some (s x).

  Lemma solve_run_vals : forall w o i X, e_obj o = Some (i, e) -> e_cons o = X ->
    e_opt o = None \/ e_opt o = Some (mkProblem (i, e) X) ->
    forall w' o' r, solve_and_output sv w o = (w', o', r) -> forall s y, sv (w_sizes w) (par_values w) e (map snd X) = AOptimal s y ->
    forall x, In x (evars e ++ flat_map cvars (map snd X)) -> w_val w' x = Some (s x).
  Proof.
    intros w o i X He HX Hp w' o' r H s y Es x Hx.
    assert (Hst : forall p w1, p = mkProblem (i, e) X -> w_val (store_vals p (fun v => Some (s v)) w1) x = Some (s x)).
    { intros p w1 ->. unfold store_vals, prob_vars. cbn [w_val p_obj p_cons snd].
      assert (E : existsb (Nat.eqb x) (evars e ++ flat_map (fun c => cvars (snd c)) X) = true).
      { apply existsb_exists. exists x. split; [|apply Nat.eqb_refl]. rewrite flat_map_concat_map in *. rewrite map_map in Hx. exact Hx. }
      rewrite E. reflexivity. }
    unfold solve_and_output, solve_opt, bind, get in H. rewrite He in H. destruct Hp as [Hp|Hp].
    - rewrite Hp in H. unfold modify, ret, world_get in H. rewrite HX in H. cbn [p_obj p_cons snd] in H. rewrite Es in H.
      unfold output, bind, get, lift_res in H. cbn in H. injection H as H1 H2 H3. rewrite <- H1. apply Hst. reflexivity.
    - rewrite Hp in H. cbn [p_obj p_cons fst snd] in H. rewrite Nat.eqb_refl, HX, same_ids_refl in H. cbn [negb] in H.
      unfold ret, world_get, modify in H. cbn [p_obj p_cons fst snd] in H. rewrite Es in H.
      unfold output, bind, get, lift_res in H. cbn in H. injection H as H1 H2 H3. rewrite <- H1. apply Hst. reflexivity.
  Qed.

  Lemma tail2_run : forall v w o, pre2 w o \/ post2 w o ->
    exists w' o', tail2 v w o = (w', o', if bad v then Err ValueError else outcome (b_tickers (e_base o0)) (e_w o0) (spec2 v)) /\
      (pre2 w' o' \/ post2 w' o') /\ (bad v = false -> seen v w' o').
  Proof.
    intros v w o H. unfold tail2.
    assert (Hmid : exists w1 o1, bind (is_parameter_defined name) (fun upd =>
        if upd then bind (validate_market_neutral mn) (fun _ => update_parameter_value name v) else prep v) w o =
          (w1, o1, if bad v then Err ValueError else Ok tt) /\
      (bad v = true -> pre2 w1 o1 \/ post2 w1 o1) /\
      (bad v = false -> world2 w1 v /\ obj_post mn o0 e cs w1 o1 /\ (e_opt o1 = None \/ has_problem e o1))).
    { destruct H as [Hpre|Hpost].
      - pose proof Hpre as Hpre0. destruct Hpre as [Es [Ep [ob [Eo Hob]]]]. unfold bind. rewrite not_defined_run.
        2: { intros p Hp. unfold named. rewrite Ep. fold (named w0 name p). rewrite Eo in Hp. unfold all_params in Hp.
             cbn [e_cons e_obj set_obj] in Hp. apply in_app_or in Hp. destruct Hp as [Hp|Hp].
             - apply Hun. apply in_or_app. left. unfold all_params. apply in_or_app. left. exact Hp.
             - apply Hob. destruct ob as [[i x]|]; exact Hp. }
        destruct (bad v) eqn:Eb.
        + destruct (Hbad v w o Eb Hpre0) as [w' [o' [E1 E2]]]. exists w', o'. split; [exact E1|].
          split; [intros _; left; exact E2|discriminate].
        + destruct (Hprep v w o Eb Hpre0) as [w' [o' [E1 [E2 [E3 E4]]]]].
          exists w', o'. split; [exact E1|]. split; [discriminate|]. auto.
      - pose proof Hpost as Hpost0.
        destruct Hpost as [v0 [[Es Ep] [[i [X [H1 [H2 [H3 [H4 [H5 [H6 [H7 [H8 [H9 H10]]]]]]]]]]] Hprob]]].
        assert (Eall : filter (named w name) (all_params o) = [List.length (w_params w0)]).
        { unfold all_params. rewrite H1, H3. rewrite flat_map_concat_map.
          rewrite <- (map_map snd cpars), H4, <- flat_map_concat_map. eapply Hocc. exact Ep. }
        assert (Edef : is_parameter_defined name w o = (w, o, Ok true)).
        { unfold is_parameter_defined, bind, get, world_get. rewrite Eall. reflexivity. }
        unfold bind. rewrite Edef. unfold validate_market_neutral, bind, get. rewrite H5, Bool.eqb_reflx. unfold ret.
        unfold update_parameter_value, bind. rewrite Edef. unfold get, world_get. rewrite Eall. cbn [forM]. unfold bind, ret.
        unfold set_param. rewrite Ep. rewrite nth_error_app2 by lia. rewrite Nat.sub_diag. cbn [nth_error p_nonneg p_name].
        fold (bad v). destruct (bad v) eqn:Eb.
        + exists w, o. split; [reflexivity|]. split; [intros _; right; exact Hpost0|discriminate].
        + eexists _, o. split; [reflexivity|]. split; [discriminate|]. intros _. split.
          * split; [exact Es|]. cbn [w_params]. clear. induction (w_params w0); [reflexivity|]. cbn. f_equal. exact IHl.
          * split; [|right; exact Hprob]. exists i, X. cbn [w_next]. auto 14. }
    destruct Hmid as [w1 [o1 [E1 [Hb1 Hb2]]]].
    destruct (bad v) eqn:Eb.
    { exists w1, o1. split; [|split; [apply Hb1; reflexivity|discriminate]].
      unfold bind in E1 |- *. destruct (is_parameter_defined name w o) as [[wa oa] [upd|x]].
      - destruct upd.
        + destruct (validate_market_neutral mn wa oa) as [[wb ob] [y|x]].
          * rewrite E1. reflexivity.
          * injection E1 as -> -> ->. reflexivity.
        + rewrite E1. reflexivity.
      - injection E1 as -> -> ->. reflexivity. }
    destruct (Hb2 eq_refl) as [Hw [[i [X [H1 [H2 [H3 [H4 [H5 [H6 [H7 [H8 [H9 H10]]]]]]]]]]] Hopt]]. clear Hb1 Hb2.
    assert (Hopt' : e_opt o1 = None \/ e_opt o1 = Some (mkProblem (i, e) X)).
    { destruct Hopt as [Hn|[i' [Hi Hp]]]; [left; exact Hn|right]. rewrite Hp, H3. congruence. }
    destruct (solve_output_run sv w1 o1 i e X H1 H3 Hopt')
      as [w2 [o2 [R1 [R2 [R3 [R4 [R5 [R6 [R7 [R8 [R9 [R10 [R11 [R12 [R13 [R14 [R15 R16]]]]]]]]]]]]]]]]].
    exists w2, o2.
    assert (Esp : sv (w_sizes w1) (par_values w1) e (map snd X) = spec2 v).
    { unfold spec2. destruct Hw as [-> Hp]. unfold par_values. rewrite Hp, map_app, H4. reflexivity. }
    pose proof (solve_run_vals w1 o1 i X H1 H3 Hopt' _ _ _ R1) as Hvals.
    rewrite Esp, H6, H7 in *. split; [|split].
    - unfold bind in E1 |- *. destruct (is_parameter_defined name w o) as [[wa oa] [upd|x]]; [|discriminate E1].
      destruct upd.
      + destruct (validate_market_neutral mn wa oa) as [[wb ob] [y|x]]; [|discriminate E1]. rewrite E1. exact R1.
      + rewrite E1. exact R1.
    - right. exists v. split; [split; [rewrite R2; apply Hw|rewrite R3; apply Hw]|]. split.
      + exists i, X. rewrite R4. repeat split; congruence.
      + exists i. split; [congruence|]. rewrite R11. exact R12.
    - intros _ s y Es. rewrite Es in R5. cbn [out_weights] in R5. split; [exact R5|]. split; [congruence|].
      intros x Hx. eapply Hvals; [exact Es|]. rewrite H4. exact Hx.
  Qed.
End Param2.

(** a method whose result and visible outcome depend on the argument only, as long as the invariant holds *)
Lemma after_view : forall {X V} (F : X -> M ef (dict R)) (Inv : world -> ef -> Prop) (res_of : X -> res (dict R))
    (view : world -> ef -> V) (view_of : X -> V),
  (forall t w o, Inv w o -> exists w' o', F t w o = (w', o', res_of t) /\ Inv w' o' /\
     (forall d, res_of t = Ok d -> view w' o' = view_of t)) ->
  forall ts w o w1 o1, Inv w o -> after F ts w o = (w1, o1) ->
  forall t wf of rf wh oh rh, F t w o = (wf, of, rf) -> F t w1 o1 = (wh, oh, rh) ->
    rh = rf /\ (forall d, rf = Ok d -> view wh oh = view wf of).
Proof.
  intros X V F Inv res_of view view_of HF ts w o w1 o1 Hi Ha t wf of rf wh oh rh H1 H2.
  assert (Hi1 : Inv w1 o1).
  { clear H1 H2. revert w o Hi Ha. induction ts as [|x ts IH]; intros w o Hi Ha; cbn [after] in Ha.
    - inversion Ha; subst. exact Hi.
    - destruct (HF x w o Hi) as [w' [o' [E [Hi' _]]]]. rewrite E in Ha. exact (IH w' o' Hi' Ha). }
  destruct (HF t w o Hi) as [wa [oa [Ea [_ Hwa]]]]. destruct (HF t w1 o1 Hi1) as [wb [ob [Eb [_ Hwb]]]].
  rewrite Ea in H1. rewrite Eb in H2. inversion H1; inversion H2; subst. split; [reflexivity|].
  intros d Hd. rewrite (Hwa d Hd), (Hwb d Hd). reflexivity.
Qed.
Lemma bind_assoc : forall {X Y Z} (m : M ef X) (k : X -> M ef Y) (h : Y -> M ef Z) w o,
  bind (bind m k) h w o = bind m (fun x => bind (k x) h) w o.
Proof. intros X Y Z m k h w o. unfold bind. destruct (m w o) as [[w1 o1] [x|e]]; reflexivity. Qed.
Lemma bind_ext : forall {X Y} (m : M ef X) (k h : X -> M ef Y) w o, (forall x w o, k x w o = h x w o) -> bind m k w o = bind m h w o.
Proof. intros X Y m k h w o H. unfold bind. destruct (m w o) as [[w1 o1] [x|e]]; [apply H|reflexivity]. Qed.

(** re-optimising with any arguments gives what a fresh call gives *)
Lemma reopt_gen : forall {X V} sv name nn mn w0 o0 sz e cs prep (F : X -> M ef (dict R)) (arg : X -> option R)
    (view : world -> ef -> V) (view_of : env -> V),
  unused_name w0 o0 name ->
  (forall w v, w_params w = w_params w0 ++ [mkParam name nn v] ->
    filter (named w name) (flat_map cpars cs ++ epars e) = [List.length (w_params w0)]) ->
  (forall v w o, bad nn v = false -> pre2 name w0 o0 w o ->
    exists w' o', prep v w o = (w', o', Ok tt) /\ world2 name nn w0 sz w' v /\ obj_post mn o0 e cs w' o' /\ e_opt o' = None) ->
  (forall v w o, bad nn v = true -> pre2 name w0 o0 w o ->
    exists w' o', prep v w o = (w', o', Err ValueError) /\ pre2 name w0 o0 w' o') ->
  (forall t w o, e_mu o = e_mu o0 -> e_w o = e_w o0 ->
    F t w o = match arg t with None => (w, o, Err ValueError) | Some v => tail2 sv name mn prep v w o end) ->
  (forall v w o s y, spec2 sv w0 sz e cs v = AOptimal s y -> seen sv w0 o0 sz e cs v w o -> view w o = view_of s) ->
  forall ts w1 o1 t wf of rf wh oh rh, after F ts w0 o0 = (w1, o1) ->
  F t w0 o0 = (wf, of, rf) -> F t w1 o1 = (wh, oh, rh) ->
  rh = rf /\ (forall d, rf = Ok d -> view wh oh = view wf of).
Proof.
  intros X V sv name nn mn w0 o0 sz e cs prep F arg view view_of Hun Hocc Hprep Hbad HF Hview ts w1 o1 t wf of rf wh oh rh Ha H1 H2.
  set (Inv := fun w o => pre2 name w0 o0 w o \/ post2 name nn mn w0 o0 sz e cs w o).
  refine (after_view F Inv
    (fun t => match arg t with None => Err ValueError
              | Some v => if bad nn v then Err ValueError else outcome (b_tickers (e_base o0)) (e_w o0) (spec2 sv w0 sz e cs v) end)
    view (fun t => match arg t with
                   | None => view w0 o0
                   | Some v => match spec2 sv w0 sz e cs v with AOptimal s _ => view_of s | _ => view w0 o0 end end)
    _ ts w0 o0 w1 o1 _ Ha t wf of rf wh oh rh H1 H2).
  - clear Ha H1 H2. intros x w o HI.
    assert (Hkeep : e_mu o = e_mu o0 /\ e_w o = e_w o0).
    { destruct HI as [[_ [_ [ob [-> _]]]]|[v [_ [[i [Y H]] _]]]]; [split; reflexivity|]. split; apply H. }
    destruct Hkeep as [K1 K2]. rewrite (HF x w o K1 K2). destruct (arg x) as [v|].
    + destruct (tail2_run sv name nn mn w0 o0 sz e cs prep Hun Hocc Hprep Hbad v w o HI) as [w' [o' [E1 [E2 E3]]]].
      exists w', o'. split; [exact E1|]. split; [exact E2|]. intros dd Hd. destruct (bad nn v) eqn:Eb; [discriminate Hd|].
      specialize (E3 eq_refl). destruct (spec2 sv w0 sz e cs v) as [s y|upd|ex] eqn:Es.
      * exact (Hview v w' o' s y Es E3).
      * discriminate Hd.
      * destruct ex; discriminate Hd.
    + exists w, o. split; [reflexivity|]. split; [exact HI|discriminate].
  - left. split; [reflexivity|]. split; [reflexivity|]. exists (e_obj o0). split; [destruct o0; reflexivity|].
    intros p Hp. apply Hun. apply in_or_app. left. unfold all_params. apply in_or_app. right. destruct (e_obj o0) as [[i x]|]; exact Hp.
Qed.

(** what the user sees: weights and performance; for the tail measures the performance is read from solver values *)
Definition tview (e : expr) (w : world) (o : ef) : option (list R) * res (R * option R) := (e_weights o, tail_performance e w o).
Definition sview (w : world) (o : ef) : option (list R) * option (list R) := (e_weights o, e_mu o).

Section Instances2.
  Context (sv : solver_t) (w0 : world) (o0 : ef) (u : list (nat * con)) (m : list R).
  Context (Hopen : open_ef w0 o0 u) (Em : e_mu o0 = Some m).
  Let pid := List.length (w_params w0).

  (** user constraints [u] together with the method's constraints [X], which mention one parameter once *)
  Definition all_cs (mn : bool) (X : list con) : list con := wsum_cons mn (e_lb o0) (e_ub o0) (e_n o0) (e_w o0) (map snd u ++ X).
  Lemma occ2 : forall name nn mn X e w v, unused_name w0 o0 name -> flat_map cpars X ++ epars e = [pid] ->
    w_params w = w_params w0 ++ [mkParam name nn v] ->
    filter (named w name) (flat_map cpars (all_cs mn X) ++ epars (add_all e (e_add o0))) = [pid].
  Proof.
    intros name nn mn X e w v Hun HX Ew. destruct (user_pars_none w0 o0 u Hopen name nn v w Hun Ew) as [N1 N2].
    unfold all_cs. rewrite wsum_pars, flat_map_app, epars_add_all, !filter_app, N1, N2, app_nil_r. cbn [app].
    rewrite <- filter_app, HX. cbn [filter]. unfold pid. rewrite (named_last w w0 _ _ _ Ew). reflexivity.
  Qed.
  Lemma wsum_vars : forall mn X x, In x (flat_map cvars X) -> In x (flat_map cvars (all_cs mn X)).
  Proof.
    intros mn X x Hx. assert (H : In x (flat_map cvars (map snd u ++ X))) by (rewrite flat_map_app; apply in_or_app; right; exact Hx).
    unfold all_cs, wsum_cons. destruct (mn && _).
    - rewrite flat_map_app. apply in_or_app. left. exact H.
    - cbn [flat_map]. apply in_or_app. right. apply in_or_app. right. rewrite flat_map_app. apply in_or_app. left. exact H.
  Qed.
  Lemma vars_add_all : forall l e x, In x (evars e) -> In x (evars (add_all e l)).
  Proof.
    unfold add_all. induction l as [|a l IH]; intros e x H; cbn [fold_left]; [exact H|]. apply IH. cbn [evars]. apply in_or_app. left; exact H.
  Qed.

  (** the end of every preparation: the weight sum *)
  Lemma finish : forall mn name nn sz v e X ids w1 o1, e_opt o1 = None ->
    w_sizes w1 = w_sizes w0 ++ sz -> w_params w1 = w_params w0 ++ [mkParam name nn v] ->
    (exists i, e_obj o1 = Some (i, add_all e (e_add o0)) /\ (i < w_next w1)%nat) ->
    e_cons o1 = e_cons o0 ++ combine ids X -> List.length ids = List.length X ->
    e_w o1 = e_w o0 -> e_lb o1 = e_lb o0 -> e_ub o1 = e_ub o0 -> e_base o1 = e_base o0 -> e_mu o1 = e_mu o0 ->
    e_cov o1 = e_cov o0 -> e_add o1 = e_add o0 ->
    exists w' o', make_weight_sum_constraint mn w1 o1 = (w', o', Ok tt) /\ world2 name nn w0 sz w' v /\
      obj_post mn o0 (add_all e (e_add o0)) (all_cs mn X) w' o' /\ e_opt o' = None.
  Proof.
    intros mn name nn sz v e X ids w1 o1 Ho Hs Hp [i [Hob Hi]] Hc Hlen Hw Hlb Hub Hbase Hmu Hcov Hadd.
    destruct Hopen as [_ [[a [b Hc0]] _]].
    destruct (weight_sum_exact mn w1 o1 (u ++ combine ids X) a b Ho)
      as [w' [o' [E [E1 [E2 [E3 [[S1 [S2 [S3 [S4 [S5 [S6 [S7 [S8 S9]]]]]]]] [E5 E6]]]]]]]].
    { rewrite Hc, Hc0, Hlb, Hub, Hw. reflexivity. }
    exists w', o'. split; [exact E|]. split; [split; congruence|]. split; [|congruence].
    exists i, (e_cons o'). rewrite S4, S1, S3, S8, S7, S5, E5. split; [exact Hob|]. split; [lia|]. split; [reflexivity|]. split.
    - rewrite E6. unfold all_cs. rewrite Hlb, Hub, Hw. unfold e_n. rewrite Hbase. f_equal. rewrite map_app. f_equal.
      clear -Hlen. revert X Hlen. induction ids as [|k ids IH]; intros [|c X] H; try discriminate H; [reflexivity|].
      cbn [combine map snd]. f_equal. apply IH. injection H as H; exact H.
    - repeat split; congruence.
  Qed.
  Lemma Hopt0 : e_opt o0 = None. Proof. apply Hopen. Qed.
  Lemma Hlen0 : List.length m = e_n o0.
  Proof. destruct Hopen as [_ [_ [_ [_ [_ [_ [Hm _]]]]]]]. exact (Hm m Em). Qed.
  Lemma new_param_bad : forall {S} name v w (o : S), Rltb v 0 = true -> new_param name true v w o = (w, o, Err ValueError).
  Proof. intros S name v w o H. unfold new_param. rewrite H. reflexivity. Qed.
  Lemma cons_app4 : forall (l : list (nat * con)) a b, (l ++ a) ++ b = l ++ (a ++ b). Proof. intros. symmetry. apply app_assoc. Qed.
  Ltac start Hp := intros v w o Hb Hp; destruct Hp as [Es [Ep [ob [Eo Hob]]]]; subst o.
  Ltac one := unfold bind at 1; first
    [ rewrite set_objective_full_run
    | rewrite (need_mu_run _ _ m) by (first [exact Em | exact Hlen0])
    | rewrite (need_mu_T_run _ _ m) by (first [exact Em | exact Hlen0])
    | rewrite add_constraint_open by exact Hopt0
    | (rewrite new_param_run by (intros; first [discriminate | assumption | nra]))
    | unfold get at 1 ]; cbn [w_sizes w_val w_params w_next].
  Ltac conss := cbn [e_cons set_cons set_obj e_w combine]; rewrite ?cons_app4; reflexivity.
  Ltac fin ids0 := eapply finish with (ids := ids0);
    first [ exact Hopt0 | reflexivity | conss | (cbn [w_sizes w_params]; rewrite ?app_nil_r; congruence)
          | (eexists; split; [reflexivity|cbn [w_next]; lia]) | idtac ].


  Definition tview_of (T : nat) (beta : R) (alpha z : nat) (s : env) : option (list R) * res (R * option R) :=
    (Some (map round16 (s (e_w o0))), Ok (dot m (map round16 (s (e_w o0))), Some (evals s [] (tail_e T beta alpha z)))).
  Lemma view_tail : forall T beta alpha z e cs sz, In alpha (evars e ++ flat_map cvars cs) -> In z (evars e ++ flat_map cvars cs) ->
    forall v w o s y, spec2 sv w0 sz e cs v = AOptimal s y -> seen sv w0 o0 sz e cs v w o ->
    tview (tail_e T beta alpha z) w o = tview_of T beta alpha z s.
  Proof.
    intros T beta alpha z e cs sz Ha Hz v w o s y Es Hs. destruct (Hs s y Es) as [E1 [E2 E3]]. unfold tview, tview_of, tail_performance.
    rewrite E1, E2, Em. unfold value_of.
    change (evars (tail_e T beta alpha z)) with [alpha; z]. cbn [forallb]. rewrite (E3 _ Ha).
    rewrite (E3 _ Hz). cbn [andb].
    f_equal. f_equal. f_equal. f_equal.
    change (evals (fun v0 => match w_val w v0 with Some x => x | None => [] end) [] (tail_e T beta alpha z) = evals s [] (tail_e T beta alpha z)).
    unfold evals. rewrite (eval_agree _ s); [reflexivity|].
    intros x Hx. change (evars (tail_e T beta alpha z)) with [alpha; z] in Hx. destruct Hx as [<-|[<-|[]]]; [rewrite (E3 _ Ha)|rewrite (E3 _ Hz)]; reflexivity.
  Qed.
  Definition sview_of (s : env) : option (list R) * option (list R) := (Some (map round16 (s (e_w o0))), e_mu o0).
  Lemma view_semi : forall e cs sz v w o s y, spec2 sv w0 sz e cs v = AOptimal s y -> seen sv w0 o0 sz e cs v w o ->
    sview w o = sview_of s.
  Proof. intros e cs sz v w o s y Es Hs. destruct (Hs s y Es) as [E1 [E2 _]]. unfold sview, sview_of. rewrite E1, E2. reflexivity. Qed.
  Lemma in_all : forall mn X e x, In x (evars e) \/ In x (flat_map cvars X) ->
    In x (evars (add_all e (e_add o0)) ++ flat_map cvars (all_cs mn X)).
  Proof. intros mn X e x [H|H]; apply in_or_app; [left; apply vars_add_all|right; apply wsum_vars]; exact H. Qed.

  (** *** CVaR *)
  Section CVaR.
    Context (d : cvar_data).
    Let ret_con := CIneq (EPar pid) (EDot m (EVar (e_w o0))).
    Let tail2c := [nonneg_var (cv_u d); cvar_shortfall d (e_w o0)].
    Definition cvr_prep (mn : bool) (v : R) : M ef unit :=
      (set_objective_full (cvar_e d) ;;
       add_cvar d ;;
       m <- need_mu_T ;;
       par <- new_param "target_return" false v ;;
       add_constraint (CFun (fun x => CIneq (EPar par) (EDot m (EVar x)))) ;;
       make_weight_sum_constraint mn)%m.
    Lemma cvr_ok : forall mn v w o, bad false v = false -> pre2 "target_return" w0 o0 w o ->
      exists w' o', cvr_prep mn v w o = (w', o', Ok tt) /\ world2 "target_return" false w0 [] w' v /\
        obj_post mn o0 (add_all (cvar_e d) (e_add o0)) (all_cs mn (tail2c ++ [ret_con])) w' o' /\ e_opt o' = None.
    Proof.
      intros mn. start Hp. unfold cvr_prep. one. unfold bind at 1. rewrite add_cvar_run by exact Hopt0. do 3 one.
      fin [S (w_next w); S (S (w_next w)); S (S (S (w_next w)))].
      unfold tail2c, ret_con. cbn [e_cons set_cons set_obj e_w combine app]. rewrite ?cons_app4. rewrite Ep. reflexivity.
    Qed.
    Lemma cvr_reopt : forall mn ts w1 o1 t wf of rf wh oh rh, unused_name w0 o0 "target_return" ->
      after (fun t => cvar_efficient_return sv d t mn) ts w0 o0 = (w1, o1) ->
      cvar_efficient_return sv d t mn w0 o0 = (wf, of, rf) -> cvar_efficient_return sv d t mn w1 o1 = (wh, oh, rh) ->
      rh = rf /\ (forall dd, rf = Ok dd -> tview (cvar_e d) wh oh = tview (cvar_e d) wf of).
    Proof.
      intros mn ts w1 o1 t wf of rf wh oh rh Hun.
      refine (reopt_gen sv "target_return" false mn w0 o0 [] (add_all (cvar_e d) (e_add o0)) (all_cs mn (tail2c ++ [ret_con])) (cvr_prep mn)
        (fun t => cvar_efficient_return sv d t mn) (fun v => Some v) (tview (cvar_e d)) (tview_of (List.length (cv_returns d)) (cv_beta d) (cv_alpha d) (cv_u d)) _ _ _ _ _ _
        ts w1 o1 t wf of rf wh oh rh).
      - exact Hun.
      - intros w v Hw. refine (occ2 _ _ mn (tail2c ++ [ret_con]) (cvar_e d) _ v Hun _ Hw). reflexivity.
      - exact (cvr_ok mn).
      - discriminate.
      - reflexivity.
      - apply view_tail; apply in_all; left; cbn; auto.
    Qed.

    Let risk_con := CIneq (cvar_e d) (EPar pid).
    Definition cvk_prep (mn : bool) (v : R) : M ef unit :=
      (o <- get ;;
       m <- need_mu ;;
       set_objective_full (portfolio_return_e (EVar (e_w o)) m true) ;;
       par <- new_param "target_cvar" true v ;;
       add_constraint (CFun (fun _ => CIneq (cvar_e d) (EPar par))) ;;
       add_cvar d ;;
       make_weight_sum_constraint mn)%m.
    Lemma cvk_ok : forall mn v w o, bad true v = false -> pre2 "target_cvar" w0 o0 w o ->
      exists w' o', cvk_prep mn v w o = (w', o', Ok tt) /\ world2 "target_cvar" true w0 [] w' v /\
        obj_post mn o0 (add_all (portfolio_return_e (EVar (e_w o0)) m true) (e_add o0)) (all_cs mn (risk_con :: tail2c)) w' o' /\
        e_opt o' = None.
    Proof.
      intros mn. start Hp. apply Rltb_false in Hb. unfold cvk_prep. do 5 one. unfold bind at 1. rewrite add_cvar_run by exact Hopt0.
      cbn [w_sizes w_val w_params w_next].
      fin [S (w_next w); S (S (w_next w)); S (S (S (w_next w)))].
      unfold tail2c, risk_con. cbn [e_cons set_cons set_obj e_w combine app]. rewrite ?cons_app4. rewrite Ep. reflexivity.
    Qed.
    Lemma cvk_bad : forall mn v w o, unused_name w0 o0 "target_cvar" -> bad true v = true -> pre2 "target_cvar" w0 o0 w o ->
      exists w' o', cvk_prep mn v w o = (w', o', Err ValueError) /\ pre2 "target_cvar" w0 o0 w' o'.
    Proof.
      intros mn v w o Hun Hb [Es [Ep [ob [Eo Hob]]]]. subst o. unfold cvk_prep. do 3 one. unfold bind at 1.
      rewrite new_param_bad by exact Hb. eexists _, _. split; [reflexivity|]. split; [exact Es|]. split; [exact Ep|].
      eexists. split; [reflexivity|]. intros p Hpp. cbn [e_add set_obj] in Hpp. rewrite epars_add_all in Hpp. cbn in Hpp.
      apply Hun. apply in_or_app. right. exact Hpp.
    Qed.
    Lemma cvk_reopt : forall mn ts w1 o1 t wf of rf wh oh rh, unused_name w0 o0 "target_cvar" ->
      after (fun t => cvar_efficient_risk sv d t mn) ts w0 o0 = (w1, o1) ->
      cvar_efficient_risk sv d t mn w0 o0 = (wf, of, rf) -> cvar_efficient_risk sv d t mn w1 o1 = (wh, oh, rh) ->
      rh = rf /\ (forall dd, rf = Ok dd -> tview (cvar_e d) wh oh = tview (cvar_e d) wf of).
    Proof.
      intros mn ts w1 o1 t wf of rf wh oh rh Hun.
      refine (reopt_gen sv "target_cvar" true mn w0 o0 [] (add_all (portfolio_return_e (EVar (e_w o0)) m true) (e_add o0)) (all_cs mn (risk_con :: tail2c)) (cvk_prep mn)
        (fun t => cvar_efficient_risk sv d t mn) (fun v => Some v) (tview (cvar_e d)) (tview_of (List.length (cv_returns d)) (cv_beta d) (cv_alpha d) (cv_u d)) _ _ _ _ _ _
        ts w1 o1 t wf of rf wh oh rh).
      - exact Hun.
      - intros w v Hw. refine (occ2 _ _ mn (risk_con :: tail2c) (portfolio_return_e (EVar (e_w o0)) m true) _ v Hun _ Hw). reflexivity.
      - exact (cvk_ok mn).
      - intros v w o. exact (cvk_bad mn v w o Hun).
      - reflexivity.
      - apply view_tail; apply in_all; right; cbn; auto.
    Qed.
  End CVaR.

  (** *** CDaR *)
  Section CDaR.
    Context (d : cdar_data).
    Let ret_con := CIneq (EPar pid) (EDot m (EVar (e_w o0))).
    Let five := [cdar_con1 d; cdar_con2 d (e_w o0); cdar_con3 d; nonneg_var (cd_z d); CIneq (EScalar 0) (u_tail d)].
    Definition cdr_prep (mn : bool) (v : R) : M ef unit :=
      (m <- need_mu_T ;;
       par <- new_param "target_return" true v ;;
       add_constraint (CFun (fun x => CIneq (EPar par) (EDot m (EVar x)))) ;;
       set_objective_full (cdar_e d) ;;
       add_cdar d ;;
       make_weight_sum_constraint mn)%m.
    Lemma cdr_ok : forall mn v w o, bad true v = false -> pre2 "target_return" w0 o0 w o ->
      exists w' o', cdr_prep mn v w o = (w', o', Ok tt) /\ world2 "target_return" true w0 [] w' v /\
        obj_post mn o0 (add_all (cdar_e d) (e_add o0)) (all_cs mn (ret_con :: five)) w' o' /\ e_opt o' = None.
    Proof.
      intros mn. start Hp. apply Rltb_false in Hb. unfold cdr_prep. do 4 one. unfold bind at 1. rewrite add_cdar_run by exact Hopt0.
      cbn [w_sizes w_val w_params w_next].
      fin (w_next w :: map (fun i => (i + S (S (w_next w)))%nat) [0; 1; 2; 3; 4]%nat).
      unfold five, ret_con. cbn [e_cons set_cons set_obj e_w combine app map Nat.add]. rewrite ?cons_app4. rewrite Ep. reflexivity.
    Qed.
    Lemma cdr_bad : forall mn v w o, bad true v = true -> pre2 "target_return" w0 o0 w o ->
      exists w' o', cdr_prep mn v w o = (w', o', Err ValueError) /\ pre2 "target_return" w0 o0 w' o'.
    Proof.
      intros mn v w o Hb [Es [Ep [ob [Eo Hob]]]]. subst o. unfold cdr_prep. one. unfold bind at 1.
      rewrite new_param_bad by exact Hb. eexists _, _. split; [reflexivity|]. split; [exact Es|]. split; [exact Ep|].
      exists ob. split; [reflexivity|exact Hob].
    Qed.
    Lemma cdr_shape : forall mn v w o, cdar_efficient_return sv d v mn w o = tail2 sv "target_return" mn (cdr_prep mn) v w o.
    Proof.
      intros mn v w o. unfold cdar_efficient_return, tail2. apply bind_ext. intros [|] w1 o1.
      - rewrite bind_assoc. reflexivity.
      - unfold cdr_prep, min_cdar. rewrite bind_assoc. apply bind_ext. intros x w2 o2. rewrite bind_assoc. apply bind_ext.
        intros y w3 o3. rewrite bind_assoc. apply bind_ext. intros z w4 o4. rewrite bind_assoc. apply bind_ext.
        intros a w5 o5. rewrite bind_assoc. reflexivity.
    Qed.
    Lemma cdr_reopt : forall mn ts w1 o1 t wf of rf wh oh rh, unused_name w0 o0 "target_return" ->
      after (fun t => cdar_efficient_return sv d t mn) ts w0 o0 = (w1, o1) ->
      cdar_efficient_return sv d t mn w0 o0 = (wf, of, rf) -> cdar_efficient_return sv d t mn w1 o1 = (wh, oh, rh) ->
      rh = rf /\ (forall dd, rf = Ok dd -> tview (cdar_e d) wh oh = tview (cdar_e d) wf of).
    Proof.
      intros mn ts w1 o1 t wf of rf wh oh rh Hun.
      refine (reopt_gen sv "target_return" true mn w0 o0 [] (add_all (cdar_e d) (e_add o0)) (all_cs mn (ret_con :: five)) (cdr_prep mn)
        (fun t => cdar_efficient_return sv d t mn) (fun v => Some v) (tview (cdar_e d)) (tview_of (cd_T d) (cd_beta d) (cd_alpha d) (cd_z d)) _ _ _ _ _ _
        ts w1 o1 t wf of rf wh oh rh).
      - exact Hun.
      - intros w v Hw. refine (occ2 _ _ mn (ret_con :: five) (cdar_e d) _ v Hun _ Hw). reflexivity.
      - exact (cdr_ok mn).
      - exact (cdr_bad mn).
      - intros v w o _ _. apply cdr_shape.
      - apply view_tail; apply in_all; left; cbn; auto.
    Qed.

    Let risk_con := CIneq (cdar_e d) (EPar pid).
    Definition cdk_prep (mn : bool) (v : R) : M ef unit :=
      (o <- get ;;
       m <- need_mu ;;
       set_objective_full (portfolio_return_e (EVar (e_w o)) m true) ;;
       par <- new_param "target_cdar" true v ;;
       add_constraint (CFun (fun _ => CIneq (cdar_e d) (EPar par))) ;;
       add_cdar d ;;
       make_weight_sum_constraint mn)%m.
    Lemma cdk_ok : forall mn v w o, bad true v = false -> pre2 "target_cdar" w0 o0 w o ->
      exists w' o', cdk_prep mn v w o = (w', o', Ok tt) /\ world2 "target_cdar" true w0 [] w' v /\
        obj_post mn o0 (add_all (portfolio_return_e (EVar (e_w o0)) m true) (e_add o0)) (all_cs mn (risk_con :: five)) w' o' /\
        e_opt o' = None.
    Proof.
      intros mn. start Hp. apply Rltb_false in Hb. unfold cdk_prep. do 5 one. unfold bind at 1. rewrite add_cdar_run by exact Hopt0.
      cbn [w_sizes w_val w_params w_next].
      fin (map (fun i => (i + S (w_next w))%nat) [0; 1; 2; 3; 4; 5]%nat).
      unfold five, risk_con. cbn [e_cons set_cons set_obj e_w combine app map Nat.add]. rewrite ?cons_app4. rewrite Ep. reflexivity.
    Qed.
    Lemma cdk_bad : forall mn v w o, unused_name w0 o0 "target_cdar" -> bad true v = true -> pre2 "target_cdar" w0 o0 w o ->
      exists w' o', cdk_prep mn v w o = (w', o', Err ValueError) /\ pre2 "target_cdar" w0 o0 w' o'.
    Proof.
      intros mn v w o Hun Hb [Es [Ep [ob [Eo Hob]]]]. subst o. unfold cdk_prep. do 3 one. unfold bind at 1.
      rewrite new_param_bad by exact Hb. eexists _, _. split; [reflexivity|]. split; [exact Es|]. split; [exact Ep|].
      eexists. split; [reflexivity|]. intros p Hpp. cbn [e_add set_obj] in Hpp. rewrite epars_add_all in Hpp. cbn in Hpp.
      apply Hun. apply in_or_app. right. exact Hpp.
    Qed.
    Lemma cdk_reopt : forall mn ts w1 o1 t wf of rf wh oh rh, unused_name w0 o0 "target_cdar" ->
      after (fun t => cdar_efficient_risk sv d t mn) ts w0 o0 = (w1, o1) ->
      cdar_efficient_risk sv d t mn w0 o0 = (wf, of, rf) -> cdar_efficient_risk sv d t mn w1 o1 = (wh, oh, rh) ->
      rh = rf /\ (forall dd, rf = Ok dd -> tview (cdar_e d) wh oh = tview (cdar_e d) wf of).
    Proof.
      intros mn ts w1 o1 t wf of rf wh oh rh Hun.
      refine (reopt_gen sv "target_cdar" true mn w0 o0 [] (add_all (portfolio_return_e (EVar (e_w o0)) m true) (e_add o0)) (all_cs mn (risk_con :: five)) (cdk_prep mn)
        (fun t => cdar_efficient_risk sv d t mn) (fun v => Some v) (tview (cdar_e d)) (tview_of (cd_T d) (cd_beta d) (cd_alpha d) (cd_z d)) _ _ _ _ _ _
        ts w1 o1 t wf of rf wh oh rh).
      - exact Hun.
      - intros w v Hw. refine (occ2 _ _ mn (risk_con :: five) (portfolio_return_e (EVar (e_w o0)) m true) _ v Hun _ Hw). reflexivity.
      - exact (cdk_ok mn).
      - intros v w o. exact (cdk_bad mn v w o Hun).
      - reflexivity.
      - apply view_tail; apply in_all; right; cbn; auto.
    Qed.
  End CDaR.

  (** *** Semivariance *)
  Section Semi.
    Context (d : semi).
    Let pp := List.length (w_sizes w0).
    Let nv := S pp.
    Let sz := [sd_T d; sd_T d].
    Let split3 := [semi_split d pp nv (e_w o0); nonneg_var pp; nonneg_var nv].
    Lemma add_split_run : forall p n w o, e_opt o = None ->
      add_split d p n w o = (mkWorld (w_sizes w) (w_val w) (w_params w) (S (S (S (w_next w)))),
        set_cons (e_cons o ++ [(w_next w, semi_split d p n (e_w o)); (S (w_next w), nonneg_var p); (S (S (w_next w)), nonneg_var n)]) o, Ok tt).
    Proof.
      intros p n w o H. unfold add_split, bind. rewrite add_constraint_open by exact H.
      rewrite add_constraint_open by exact H. rewrite add_constraint_open by exact H.
      cbn [w_sizes w_val w_params w_next]. rewrite !set_cons_cons. cbn [e_cons set_cons e_w]. rewrite <- !app_assoc. reflexivity.
    Qed.
    Lemma new_var_run : forall n w (o : ef), new_var n w o =
      (mkWorld (w_sizes w ++ [n]) (w_val w) (w_params w) (w_next w), o, Ok (List.length (w_sizes w))).
    Proof. reflexivity. Qed.
    Ltac nvar := unfold bind at 1; rewrite new_var_run; cbn [w_sizes w_val w_params w_next].
    Ltac do_split := unfold bind at 1; rewrite add_split_run by exact Hopt0; cbn [w_sizes w_val w_params w_next].
    Ltac sizes := cbn [w_sizes]; rewrite <- ?app_assoc; reflexivity.
    Lemma len1 : forall w a, w_sizes w = w_sizes w0 -> List.length (w_sizes w ++ [a]) = nv.
    Proof. intros w a ->. rewrite app_length. cbn. unfold nv, pp. lia. Qed.

    Definition smu_prep (mn : bool) (v : R) : M ef unit :=
      (p <- new_var (sd_T d) ;;
       n <- new_var (sd_T d) ;;
       o <- get ;;
       mu <- need_mu ;;
       par <- new_param "risk_aversion" true v ;;
       set_objective_full
         (EAdd (EMul (portfolio_return_e (EVar (e_w o)) mu true) (EScalar (/ sd_freq d)))
               (EMul (EMul (EScalar (1/2)) (EPar par)) (ESumSq (EVar n)))) ;;
       add_split d p n ;;
       make_weight_sum_constraint mn)%m.
    Let util_e := EAdd (EMul (portfolio_return_e (EVar (e_w o0)) m true) (EScalar (/ sd_freq d)))
               (EMul (EMul (EScalar (1/2)) (EPar pid)) (ESumSq (EVar nv))).
    Lemma smu_ok : forall mn v w o, bad true v = false -> pre2 "risk_aversion" w0 o0 w o ->
      exists w' o', smu_prep mn v w o = (w', o', Ok tt) /\ world2 "risk_aversion" true w0 sz w' v /\
        obj_post mn o0 (add_all util_e (e_add o0)) (all_cs mn split3) w' o' /\ e_opt o' = None.
    Proof.
      intros mn. start Hp. apply Rltb_false in Hb. unfold smu_prep. nvar. nvar. do 4 one. do_split.
      rewrite (len1 w _ Es), Ep, Es. fold pp.
      fin [S (w_next w); S (S (w_next w)); S (S (S (w_next w)))].
      sizes.
    Qed.

    Definition smk_prep (mn : bool) (v : R) : M ef unit :=
      (o <- get ;;
       mu <- need_mu ;;
       set_objective_full (portfolio_return_e (EVar (e_w o)) mu true) ;;
       p <- new_var (sd_T d) ;;
       n <- new_var (sd_T d) ;;
       par <- new_param "target_semivariance" true v ;;
       add_constraint (CFun (fun _ => CIneq (EMul (EScalar (sd_freq d)) (ESumSq (EVar n))) (EPar par))) ;;
       add_split d p n ;;
       make_weight_sum_constraint mn)%m.
    Let srisk_con := CIneq (EMul (EScalar (sd_freq d)) (ESumSq (EVar nv))) (EPar pid).
    Lemma smk_ok : forall mn v w o, bad true v = false -> pre2 "target_semivariance" w0 o0 w o ->
      exists w' o', smk_prep mn v w o = (w', o', Ok tt) /\ world2 "target_semivariance" true w0 sz w' v /\
        obj_post mn o0 (add_all (portfolio_return_e (EVar (e_w o0)) m true) (e_add o0)) (all_cs mn (srisk_con :: split3)) w' o' /\
        e_opt o' = None.
    Proof.
      intros mn. start Hp. apply Rltb_false in Hb. unfold smk_prep. do 3 one. nvar. nvar. do 2 one. do_split.
      rewrite (len1 w _ Es), Ep, Es. fold pp.
      fin [S (w_next w); S (S (w_next w)); S (S (S (w_next w))); S (S (S (S (w_next w))))]. sizes.
    Qed.

    Definition smr_prep (mn : bool) (v : R) : M ef unit :=
      (p <- new_var (sd_T d) ;;
       n <- new_var (sd_T d) ;;
       set_objective_full (ESumSq (EVar n)) ;;
       par <- new_param "target_return" false v ;;
       need_mu ;;
       add_constraint (CFun (fun x => CIneq (EPar par) (ESum (EDot m (EVar x))))) ;;
       add_split d p n ;;
       make_weight_sum_constraint mn)%m.
    Let sret_con := CIneq (EPar pid) (ESum (EDot m (EVar (e_w o0)))).
    Lemma smr_ok : forall mn v w o, bad false v = false -> pre2 "target_return" w0 o0 w o ->
      exists w' o', smr_prep mn v w o = (w', o', Ok tt) /\ world2 "target_return" false w0 sz w' v /\
        obj_post mn o0 (add_all (ESumSq (EVar nv)) (e_add o0)) (all_cs mn (sret_con :: split3)) w' o' /\ e_opt o' = None.
    Proof.
      intros mn. start Hp. unfold smr_prep. nvar. nvar. do 4 one. do_split.
      rewrite (len1 w _ Es), Ep, Es. fold pp.
      fin [S (w_next w); S (S (w_next w)); S (S (S (w_next w))); S (S (S (S (w_next w))))]. sizes.
    Qed.
    (** the values these methods hand to their parameters are never rejected *)
    Definition guarded (nn : bool) (prep : R -> M ef unit) (v : R) : M ef unit := if bad nn v then raise ValueError else prep v.
    Lemma smu_reopt : forall mn ts w1 o1 (t : R) wf of rf wh oh rh, unused_name w0 o0 "risk_aversion" ->
      after (fun t => semi_max_quadratic_utility sv d t mn) ts w0 o0 = (w1, o1) ->
      semi_max_quadratic_utility sv d t mn w0 o0 = (wf, of, rf) -> semi_max_quadratic_utility sv d t mn w1 o1 = (wh, oh, rh) ->
      rh = rf /\ (forall dd, rf = Ok dd -> sview wh oh = sview wf of).
    Proof.
      intros mn ts w1 o1 t wf of rf wh oh rh Hun.
      refine (reopt_gen sv "risk_aversion" true mn w0 o0 sz (add_all util_e (e_add o0)) (all_cs mn (split3)) (guarded true (smu_prep mn))
        (fun t => semi_max_quadratic_utility sv d t mn) (fun ra => if Rleb ra 0 then None else Some ra)
        sview sview_of _ _ _ _ _ _ ts w1 o1 t wf of rf wh oh rh).
      - exact Hun.
      - intros w v Hw. refine (occ2 _ _ mn (split3) util_e _ v Hun _ Hw). reflexivity.
      - intros v w o Hb. unfold guarded. rewrite Hb. exact (smu_ok mn v w o Hb).
      - intros v w o Hb Hp. unfold guarded. rewrite Hb. exists w, o. split; [reflexivity|exact Hp].
      - intros ra w o _ _. unfold semi_max_quadratic_utility. destruct (Rleb ra 0) eqn:E; [reflexivity|].
        unfold tail2, guarded, bad. replace (Rltb ra 0) with false by (symmetry; apply Rleb_false in E; apply Rltb_false; lra).
        reflexivity.
      - apply view_semi.
    Qed.
    Lemma smk_reopt : forall mn ts w1 o1 (t : R) wf of rf wh oh rh, unused_name w0 o0 "target_semivariance" ->
      after (fun t => semi_efficient_risk sv d t mn) ts w0 o0 = (w1, o1) ->
      semi_efficient_risk sv d t mn w0 o0 = (wf, of, rf) -> semi_efficient_risk sv d t mn w1 o1 = (wh, oh, rh) ->
      rh = rf /\ (forall dd, rf = Ok dd -> sview wh oh = sview wf of).
    Proof.
      intros mn ts w1 o1 t wf of rf wh oh rh Hun.
      refine (reopt_gen sv "target_semivariance" true mn w0 o0 sz (add_all (portfolio_return_e (EVar (e_w o0)) m true) (e_add o0)) (all_cs mn (srisk_con :: split3)) (guarded true (smk_prep mn))
        (fun t => semi_efficient_risk sv d t mn) (fun t => Some (t * t))
        sview sview_of _ _ _ _ _ _ ts w1 o1 t wf of rf wh oh rh).
      - exact Hun.
      - intros w v Hw. refine (occ2 _ _ mn (srisk_con :: split3) (portfolio_return_e (EVar (e_w o0)) m true) _ v Hun _ Hw). reflexivity.
      - intros v w o Hb. unfold guarded. rewrite Hb. exact (smk_ok mn v w o Hb).
      - intros v w o Hb Hp. unfold guarded. rewrite Hb. exists w, o. split; [reflexivity|exact Hp].
      - intros x w o _ _. unfold semi_efficient_risk. unfold tail2, guarded, bad.
        replace (Rltb (x * x) 0) with false by (symmetry; apply Rltb_false; nra). reflexivity.
      - apply view_semi.
    Qed.
    Lemma smr_reopt : forall mn ts w1 o1 (t : num_arg) wf of rf wh oh rh, unused_name w0 o0 "target_return" ->
      after (fun t => semi_efficient_return sv d t mn) ts w0 o0 = (w1, o1) ->
      semi_efficient_return sv d t mn w0 o0 = (wf, of, rf) -> semi_efficient_return sv d t mn w1 o1 = (wh, oh, rh) ->
      rh = rf /\ (forall dd, rf = Ok dd -> sview wh oh = sview wf of).
    Proof.
      intros mn ts w1 o1 t wf of rf wh oh rh Hun.
      refine (reopt_gen sv "target_return" false mn w0 o0 sz (add_all (ESumSq (EVar nv)) (e_add o0)) (all_cs mn (sret_con :: split3)) (guarded false (smr_prep mn))
        (fun t => semi_efficient_return sv d t mn) (fun t => match t with
          | NFloat x => if Rltb x 0 then None else match list_max (map Rabs m) with
                        | None => None | Some mx => if Rltb mx x then None else Some x end
          | _ => None end)
        sview sview_of _ _ _ _ _ _ ts w1 o1 t wf of rf wh oh rh).
      - exact Hun.
      - intros w v Hw. refine (occ2 _ _ mn (sret_con :: split3) (ESumSq (EVar nv)) _ v Hun _ Hw). reflexivity.
      - intros v w o Hb. unfold guarded. rewrite Hb. exact (smr_ok mn v w o Hb).
      - intros v w o Hb Hp. unfold guarded. rewrite Hb. exists w, o. split; [reflexivity|exact Hp].
      - intros x w o Hmu _. unfold semi_efficient_return. destruct x as [x|z|]; [|reflexivity|reflexivity].
        destruct (Rltb x 0); [reflexivity|]. unfold bind at 1, get at 1. rewrite Hmu, Em. destruct (list_max (map Rabs m)) as [mx|]; [|reflexivity].
        destruct (Rltb mx x); reflexivity.
      - apply view_semi.
    Qed.
  End Semi.
End Instances2.

(** ** All three classes *)
Lemma sview_perf : forall d w o w' o', sview w o = sview w' o' ->
  e_weights o = e_weights o' /\ forall r, g_performance (DSemi d) r w o = g_performance (DSemi d) r w' o'.
Proof.
  intros d w o w' o' H. unfold sview in H. injection H as H1 H2. split; [exact H1|]. intros r. cbn [g_performance].
  unfold semi_performance. rewrite H1, H2. reflexivity.
Qed.
Lemma tview_cvar : forall d w o w' o', tview (cvar_e d) w o = tview (cvar_e d) w' o' ->
  e_weights o = e_weights o' /\ forall r, g_performance (DCVaR d) r w o = g_performance (DCVaR d) r w' o'.
Proof.
  intros d w o w' o' H. unfold tview in H. injection H as H1 H2. split; [exact H1|]. intros r. cbn [g_performance].
  unfold cvar_performance. rewrite H2. reflexivity.
Qed.
Lemma tview_cdar : forall d w o w' o', tview (cdar_e d) w o = tview (cdar_e d) w' o' ->
  e_weights o = e_weights o' /\ forall r, g_performance (DCDaR d) r w o = g_performance (DCDaR d) r w' o'.
Proof.
  intros d w o w' o' H. unfold tview in H. injection H as H1 H2. split; [exact H1|]. intros r. cbn [g_performance].
  unfold cdar_performance. rewrite H2. reflexivity.
Qed.

Lemma after_ext : forall {X Y} (g : X -> Y) (F : Y -> M ef (dict R)) (G : X -> M ef (dict R)), (forall x, G x = F (g x)) ->
  forall ts w o, after G ts w o = after F (map g ts) w o.
Proof.
  intros X Y g F G H. induction ts as [|t ts IH]; intros w o; cbn [after map]; [reflexivity|]. rewrite H.
  destruct (F (g t) w o) as [[w1 o1] r]. apply IH.
Qed.

Section All.
  Context (sv : solver_t) (k : dclass) (w0 : world) (o0 : ef) (u : list (nat * con)) (m : list R) (mn : bool)
    (Hopen : open_ef w0 o0 u) (Em : e_mu o0 = Some m).
  Lemma g_risk_reopt : unused_name w0 o0 (risk_name k) -> reoptimises k (fun t => g_risk sv k t mn) w0 o0.
  Proof.
    intros Hun ts w1 o1 Ha t wf of rf wh oh rh Hf Hh. destruct k as [d|d|d]; cbn [risk_name g_risk] in *.
    - destruct (smk_reopt sv w0 o0 u m Hopen Em d mn ts w1 o1 t wf of rf wh oh rh Hun Ha Hf Hh) as [E1 E2].
      split; [exact E1|]. intros dd Hd. apply sview_perf. exact (E2 dd Hd).
    - destruct (cvk_reopt sv w0 o0 u m Hopen Em d mn ts w1 o1 t wf of rf wh oh rh Hun Ha Hf Hh) as [E1 E2].
      split; [exact E1|]. intros dd Hd. apply tview_cvar. exact (E2 dd Hd).
    - destruct (cdk_reopt sv w0 o0 u m Hopen Em d mn ts w1 o1 t wf of rf wh oh rh Hun Ha Hf Hh) as [E1 E2].
      split; [exact E1|]. intros dd Hd. apply tview_cdar. exact (E2 dd Hd).
  Qed.
  Lemma g_return_reopt : unused_name w0 o0 "target_return" -> reoptimises k (fun t => g_return sv k t mn) w0 o0.
  Proof.
    intros Hun ts w1 o1 Ha t wf of rf wh oh rh Hf Hh. destruct k as [d|d|d]; cbn [g_return] in *.
    - rewrite (after_ext NFloat (fun t => semi_efficient_return sv d t mn)) in Ha by reflexivity.
      destruct (smr_reopt sv w0 o0 u m Hopen Em d mn (map NFloat ts) w1 o1 (NFloat t) wf of rf wh oh rh Hun Ha Hf Hh) as [E1 E2].
      split; [exact E1|]. intros dd Hd. apply sview_perf. exact (E2 dd Hd).
    - destruct (cvr_reopt sv w0 o0 u m Hopen Em d mn ts w1 o1 t wf of rf wh oh rh Hun Ha Hf Hh) as [E1 E2].
      split; [exact E1|]. intros dd Hd. apply tview_cvar. exact (E2 dd Hd).
    - destruct (cdr_reopt sv w0 o0 u m Hopen Em d mn ts w1 o1 t wf of rf wh oh rh Hun Ha Hf Hh) as [E1 E2].
      split; [exact E1|]. intros dd Hd. apply tview_cdar. exact (E2 dd Hd).
  Qed.
  Lemma g_utility_reopt : unused_name w0 o0 "risk_aversion" -> reoptimises k (fun t => g_utility sv k t mn) w0 o0.
  Proof.
    intros Hun ts w1 o1 Ha t wf of rf wh oh rh Hf Hh. destruct k as [d|d|d]; cbn [g_utility] in *.
    - destruct (smu_reopt sv w0 o0 u m Hopen Em d mn ts w1 o1 t wf of rf wh oh rh Hun Ha Hf Hh) as [E1 E2].
      split; [exact E1|]. intros dd Hd. apply sview_perf. exact (E2 dd Hd).
    - injection Hf as <- <- <-. injection Hh as <- <- <-. split; [reflexivity|discriminate].
    - injection Hf as <- <- <-. injection Hh as <- <- <-. split; [reflexivity|discriminate].
  Qed.
End All.

(** ** Negative targets *)
Section Neg.
  Context (sv : solver_t) (w0 : world) (o0 : ef) (u : list (nat * con)) (m : list R) (mn : bool)
    (Hopen : open_ef w0 o0 u) (Em : e_mu o0 = Some m).
  Lemma neg_tail : forall name prep t, unused_name w0 o0 name -> Rltb t 0 = true ->
    (exists w' o', prep t w0 o0 = (w', o', Err ValueError) /\ pre2 name w0 o0 w' o') ->
    exists w' o', tail2 sv name mn prep t w0 o0 = (w', o', Err ValueError).
  Proof.
    intros name prep t Hun Ht [w' [o' [E _]]]. exists w', o'. unfold tail2, bind. rewrite not_defined_run.
    - rewrite E. reflexivity.
    - intros p Hp. apply Hun. apply in_or_app. left. exact Hp.
  Qed.
  Lemma pre2_start : forall name, unused_name w0 o0 name -> pre2 name w0 o0 w0 o0.
  Proof.
    intros name Hun. split; [reflexivity|]. split; [reflexivity|]. exists (e_obj o0). split; [destruct o0; reflexivity|].
    intros p Hp. apply Hun. apply in_or_app. left. unfold all_params. apply in_or_app. right. destruct (e_obj o0) as [[i x]|]; exact Hp.
  Qed.
  Lemma neg_risk : forall k t, (forall d, k <> DSemi d) -> unused_name w0 o0 (risk_name k) -> t < 0 ->
    exists w' o', g_risk sv k t mn w0 o0 = (w', o', Err ValueError).
  Proof.
    intros k t Hk Hun Ht. apply Rltb_true in Ht. destruct k as [d|d|d]; [destruct (Hk d eq_refl)| |]; cbn [risk_name g_risk] in *.
    - apply (neg_tail "target_cvar" (cvk_prep d mn) t Hun Ht).
      apply (cvk_bad w0 o0 u m Hopen Em d mn t w0 o0 Hun); [exact Ht|apply pre2_start; exact Hun].
    - apply (neg_tail "target_cdar" (cdk_prep d mn) t Hun Ht).
      apply (cdk_bad w0 o0 u m Hopen Em d mn t w0 o0 Hun); [exact Ht|apply pre2_start; exact Hun].
  Qed.
  Lemma neg_return : forall k t, (forall d, k <> DCVaR d) -> unused_name w0 o0 "target_return" -> t < 0 ->
    exists w' o', g_return sv k t mn w0 o0 = (w', o', Err ValueError).
  Proof.
    intros k t Hk Hun Ht. apply Rltb_true in Ht. destruct k as [d|d|d]; [|destruct (Hk d eq_refl)|]; cbn [g_return] in *.
    - exists w0, o0. unfold semi_efficient_return. rewrite Ht. reflexivity.
    - rewrite cdr_shape. apply (neg_tail "target_return" (cdr_prep d mn) t Hun Ht).
      apply (cdr_bad w0 o0 u m Hopen Em d mn t w0 o0); [exact Ht|apply pre2_start; exact Hun].
  Qed.
End Neg.
Lemma semi_risk_sign : forall sv d t mn w o, g_risk sv (DSemi d) (- t) mn w o = g_risk sv (DSemi d) t mn w o.
Proof. intros. cbn [g_risk]. unfold semi_efficient_risk. replace (- t * - t) with (t * t) by ring. reflexivity. Qed.
Lemma min_blocked : forall sv k mn w o, e_opt o <> None ->
  exists w' o', g_min sv k mn w o = (w', o', Err InstantiationError) /\ e_weights o' = e_weights o.
Proof.
  intros sv k mn w o H. destruct (e_opt o) as [p|] eqn:E; [|congruence].
  assert (B : forall f w1 i e, add_constraint (CFun f) w1 (set_obj (Some (i, e)) o) = (w1, set_obj (Some (i, e)) o, Err InstantiationError)).
  { intros f w1 i e. unfold add_constraint, bind, get. cbn [e_opt set_obj]. rewrite E. reflexivity. }
  destruct k as [d|d|d]; cbn [g_min]; [unfold min_semivariance, add_split|unfold min_cvar, add_cvar|unfold min_cdar, add_cdar].
  - unfold bind. cbn [new_var]. rewrite set_objective_full_run, B. eexists _, _. split; reflexivity.
  - unfold bind. rewrite set_objective_full_run, B. eexists _, _. split; reflexivity.
  - unfold bind. rewrite set_objective_full_run, B. eexists _, _. split; reflexivity.
Qed.
