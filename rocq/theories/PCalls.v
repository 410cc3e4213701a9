(** * Call sequences on the downside-risk optimisers: errors, freezing, the unused covariance *)
From Coq Require Import ZArith List String Bool Reals Lra Lia.
From Verif Require Import Num Py RBase PyLemmas MBase MConvex MEF MDown MCalls SLin SBase SConvex SDown SCalls Sums PBase PConvex PEF PEF2.
Import ListNotations.
Local Open Scope R_scope.

(** ** errors keep the weights *)
Definition safe0 {X} (m : M ef X) : Prop := forall w o w' o' e, m w o = (w', o', Err e) -> same_weights o o'.
Lemma safe0_bind : forall {X Y} (m : M ef X) (k : X -> M ef Y), pres same_weights m -> (forall x, safe0 (k x)) -> safe0 (bind m k).
Proof.
  intros X Y m k Hm Hk w o w' o' e H. unfold bind in H. destruct (m w o) as [[w1 o1] [x|e1]] eqn:E.
  - eapply sw_trans; [eapply Hm; exact E|eapply Hk; eassumption].
  - inversion H; subst. eapply Hm; exact E.
Qed.
Lemma safe0_pres : forall {X} (m : M ef X), pres same_weights m -> safe0 m.
Proof. intros X m H w o w' o' e E. eapply H; exact E. Qed.
Lemma safe0_solve : forall sv, safe0 (solve_opt sv).
Proof.
  intros sv w o w' o' e H. unfold solve_opt, bind, get in H.
  destruct (e_obj o) as [ob|]; [|inversion H; subst; apply sw_refl].
  destruct (e_opt o) as [p|].
  - destruct (negb (fst ob =? fst (p_obj p))%nat); [inversion H; subst; apply sw_refl|].
    destruct (negb (same_ids (e_cons o) (p_cons p))); [inversion H; subst; apply sw_refl|].
    unfold ret, world_get in H. destruct (sv _ _ _ _) as [s v|upd|x].
    + inversion H.
    + inversion H; subst. reflexivity.
    + destruct x; inversion H; subst; reflexivity.
  - unfold modify, ret, world_get in H. destruct (sv _ _ _ _) as [s v|upd|x].
    + inversion H.
    + inversion H; subst. reflexivity.
    + destruct x; inversion H; subst; reflexivity.
Qed.
Lemma safe0_solve_output : forall sv, safe0 (solve_and_output sv).
Proof.
  intros sv w o w' o' e H. unfold solve_and_output, bind in H.
  destruct (solve_opt sv w o) as [[w1 o1] [x|e1]] eqn:E.
  - destruct (output_total w1 o1 (solve_sets _ _ _ _ _ _ E)) as [d Ed]. rewrite Ed in H. discriminate H.
  - inversion H; subst. eapply safe0_solve; exact E.
Qed.
Lemma safe0_drop : forall {X} (m : M ef X), safe0 m -> safe0 (drop m).
Proof.
  intros X m H w o w' o' e E. unfold drop, bind, ret in E. destruct (m w o) as [[w1 o1] [x|e1]] eqn:E1; inversion E; subst.
  eapply H; eassumption.
Qed.
Ltac s0 := repeat first
  [ apply safe0_solve_output
  | apply safe0_bind; [solve [sw]|intros]
  | match goal with |- safe0 (raise _) => apply safe0_pres; sw end
  | match goal with |- safe0 (match ?x with _ => _ end) => destruct x eqn:? end
  | match goal with |- safe0 (if ?x then _ else _) => destruct x eqn:? end
  | match goal with |- safe0 ?m => let h := head_of m in unfold h end ].
Lemma g_safe : forall sv ns k c, safe0 (g_run sv ns k c).
Proof.
  intros sv ns k c. destruct c; cbn [g_run]; try apply safe0_drop.
  1-3: apply safe0_pres; sw.
  - destruct k; cbn [g_set_weights]; [|apply safe0_pres; sw|apply safe0_pres; sw].
    intros w o w' o' e H. unfold set_weights in H. destruct (mapM _ _); inversion H; subst.
    destruct o as [[? ?] ? ? ? ? ? ? ? ? ? ? ? ?]; reflexivity.
  - apply safe0_pres; sw.
  - apply safe0_pres; sw.
  - unfold max_return. apply safe0_bind; [sw|intros o]. destruct (e_mu o).
    + do 3 (apply safe0_bind; [sw|intros]).
      intros w o1 w' o' e H. unfold bind in H. destruct (solve_opt sv w o1) as [[w1 o2] [x2|e1]] eqn:E.
      * destruct (output_total w1 o2 (solve_sets _ _ _ _ _ _ E)) as [d Ed]. rewrite Ed in H. discriminate H.
      * inversion H; subst. eapply safe0_solve; exact E.
    + apply safe0_pres; sw.
  - s0.
  - s0.
  - s0.
  - s0.
  - s0.
  - intros w o w' o' e H. unfold nonconvex_objective, bind, get, modify in H.
    match type of H with output ?w ?o = _ => destruct (output_total w o) as [d Ed] end; [discriminate|].
    rewrite Ed in H. discriminate H.
Qed.
Lemma g_error_keeps_weights : forall sv ns k c w o w' o' e, g_run sv ns k c w o = (w', o', Err e) -> e_weights o' = e_weights o.
Proof. intros sv ns k c w o w' o' e H. exact (g_safe sv ns k c w o w' o' e H). Qed.
Lemma g_forbidden : forall sv ns k c w o, forbidden k c -> g_run sv ns k c w o = (w, o, Err NotImplementedError).
Proof. intros sv ns k c w o H. destruct c, k; try contradiction; reflexivity. Qed.

(** ** freezing *)
Lemma g_ko : forall sv ns k c, pres keeps_opt (g_run sv ns k c).
Proof.
  intros sv ns k c. destruct c; cbn [g_run].
  4: { destruct k; cbn [g_set_weights].
       - intros w o w' o' r H p Hp. destruct (set_weights (e_base o) d) as [b x]. inversion H; subst. exact Hp.
       - pres_go ko_refl ko_trans ko_mod.
       - pres_go ko_refl ko_trans ko_mod. }
  all: pres_go ko_refl ko_trans ltac:(first [apply ko_solve | ko_mod]).
Qed.
Ltac mks := repeat first
  [ apply marks_solve_output
  | apply marks_bind; [solve [nev fail]|intros]
  | match goal with |- marks (raise _) => intros ? ? ? ? ? Hraise [[? Hx]|Hx]; inversion Hraise; subst; discriminate end
  | match goal with |- marks (match ?x with _ => _ end) => destruct x eqn:? end
  | match goal with |- marks (if ?x then _ else _) => destruct x eqn:? end
  | mk_leaf
  | match goal with |- marks ?m => let h := head_of m in unfold h end ].
Lemma g_marks : forall sv ns k c, g_attempts k c -> marks (g_run sv ns k c).
Proof.
  intros sv ns k c Hc. destruct c; try contradiction; cbn [g_run]; unfold drop;
    (apply marks_then; [|intros; pres_go ko_refl ko_trans ko_mod]).
  - unfold max_return. apply marks_bind; [nev fail|intros o]. destruct (e_mu o).
    + do 3 (apply marks_bind; [nev fail|intros]). mk_leaf.
    + intros w o1 w' o' r H [[x Hx]|Hx]; inversion H; subst; discriminate.
  - destruct k; mks.
  - destruct k; try contradiction; mks.
  - destruct k; mks.
  - destruct k; mks.
  - unfold convex_objective. mks.
Qed.
Lemma g_all_keeps : forall sv ns k cs w o w' o' rs, g_run_all sv ns k cs w o = (w', o', rs) -> keeps_opt o o'.
Proof.
  induction cs as [|c cs IH]; intros w o w' o' rs H; cbn [g_run_all] in H; [inversion H; subst; apply ko_refl|].
  destruct (g_run sv ns k c w o) as [[w1 o1] r] eqn:E. destruct (g_run_all sv ns k cs w1 o1) as [[w2 o2] rs2] eqn:E2.
  inversion H; subst. eapply ko_trans; [eapply g_ko; exact E|eapply IH; exact E2].
Qed.
Lemma g_frozen : forall sv ns k c w o w1 o1 r cs w2 o2 rs,
  g_run sv ns k c w o = (w1, o1, r) -> g_attempts k c -> r = Ok tt \/ r = Err OptimizationError ->
  g_run_all sv ns k cs w1 o1 = (w2, o2, rs) ->
  (forall f, add_objective f w2 o2 = (w2, o2, Err InstantiationError)) /\
  (forall f, add_constraint (CFun f) w2 o2 = (w2, o2, Err InstantiationError)) /\
  (forall mapper lower upper, lower ++ upper <> [] ->
     add_sector_constraints mapper lower upper w2 o2 = (w2, o2, Err InstantiationError)).
Proof.
  intros sv ns k c w o w1 o1 r cs w2 o2 rs H Ha Hr Hall. apply frozen.
  assert (H1 : e_opt o1 <> None).
  { eapply g_marks; [exact Ha|exact H|]. destruct Hr as [->| ->]; [left; eexists; reflexivity|right; reflexivity]. }
  destruct (e_opt o1) as [p|] eqn:E; [|congruence].
  rewrite (g_all_keeps _ _ _ _ _ _ _ _ _ Hall p E). discriminate.
Qed.

(** ** the covariance matrix plays no role *)
Section Cov.
  Context (C : list (list R)).
  Definition blind {X} (m : M ef X) : Prop := forall w o,
    m w (with_cov C o) = match m w o with (w', o', r) => (w', with_cov C o', r) end.
  Lemma blind_bind : forall {X Y} (m : M ef X) (k : X -> M ef Y), blind m -> (forall x, blind (k x)) -> blind (bind m k).
  Proof.
    intros X Y m k Hm Hk w o. unfold bind. rewrite Hm. destruct (m w o) as [[w1 o1] [x|e]]; [apply Hk|reflexivity].
  Qed.
  Lemma blind_get : forall {Y} (k : ef -> M ef Y), (forall o, blind (k o)) -> (forall o, k (with_cov C o) = k o) -> blind (bind get k).
  Proof. intros Y k Hk He w o. unfold bind, get. rewrite He. apply Hk. Qed.
  Lemma blind_ret : forall {X} (x : X), blind (ret x). Proof. intros X x w o; reflexivity. Qed.
  Lemma blind_raise : forall {X} e, blind (raise (X := X) e). Proof. intros X e w o; reflexivity. Qed.
  Lemma blind_modify : forall f, (forall o, f (with_cov C o) = with_cov C (f o)) -> blind (modify f).
  Proof. intros f H w o. unfold modify. rewrite H. reflexivity. Qed.
  Lemma blind_forM : forall {X} (l : list X) f, (forall x, blind (f x)) -> blind (forM l f).
  Proof. induction l as [|x l IH]; intros f Hf; cbn [forM]; [apply blind_ret|]. apply blind_bind; auto. Qed.
  Lemma blind_lift : forall {X} (r : res X), blind (lift_res r). Proof. intros X r w o; reflexivity. Qed.
  Lemma blind_new_param : forall a b c, blind (new_param a b c).
  Proof. intros a b c w o. unfold new_param. destruct (_ && _); reflexivity. Qed.
  Lemma blind_set_param : forall a b, blind (set_param a b).
  Proof. intros a b w o. unfold set_param. destruct (nth_error _ _); [destruct (_ && _)|]; reflexivity. Qed.
  Lemma blind_store : forall f, blind (fun w (o : ef) => (f w, o, Ok tt)). Proof. intros f w o; reflexivity. Qed.
  Lemma blind_world_get : blind (world_get (S := ef)). Proof. intros w o; reflexivity. Qed.
  Lemma blind_new_id : blind (new_id (S := ef)). Proof. intros w o; reflexivity. Qed.
  Lemma blind_new_var : forall n, blind (new_var n). Proof. intros n w o; reflexivity. Qed.
  Ltac blind_go := repeat first
    [ progress intros
    | match goal with
      | |- blind (bind get _) => apply blind_get; [|intros; reflexivity]
      | |- blind (bind _ _) => apply blind_bind
      | |- blind (ret _) => apply blind_ret
      | |- blind (raise _) => apply blind_raise
      | |- blind (lift_res _) => apply blind_lift
      | |- blind (modify _) => apply blind_modify; intros; reflexivity
      | |- blind (forM _ _) => apply blind_forM
      | |- blind (new_param _ _ _) => apply blind_new_param
      | |- blind (set_param _ _) => apply blind_set_param
      | |- blind world_get => apply blind_world_get
      | |- blind new_id => apply blind_new_id
      | |- blind (new_var _) => apply blind_new_var
      | |- blind (fun _ _ => _) => apply blind_store
      | |- blind (match ?x with _ => _ end) => destruct x eqn:?
      | |- blind ?m => let h := head_of m in unfold h
      end ].
  Lemma blind_solve : forall sv, blind (solve_opt sv).
  Proof. intros sv. unfold solve_opt. blind_go. Qed.
  Lemma blind_solve_output : forall sv, blind (solve_and_output sv).
  Proof. intros sv. unfold solve_and_output. apply blind_bind; [apply blind_solve|]. blind_go. Qed.
  Lemma g_blind : forall sv ns k c, blind (g_run sv ns k c).
  Proof.
    intros sv ns k c. destruct c; cbn [g_run]; unfold drop.
    4: { destruct k; cbn [g_set_weights]; [|apply blind_raise|apply blind_raise].
         intros w o. cbn [with_cov e_base]. destruct (set_weights (e_base o) d) as [b r]. reflexivity. }
    all: try (destruct k); blind_go.
  Qed.
  Lemma g_all_blind : forall sv ns k cs w o w' o' rs, g_run_all sv ns k cs w o = (w', o', rs) ->
    g_run_all sv ns k cs w (with_cov C o) = (w', with_cov C o', rs).
  Proof.
    induction cs as [|c cs IH]; intros w o w' o' rs H; cbn [g_run_all] in *; [inversion H; subst; reflexivity|].
    rewrite g_blind. destruct (g_run sv ns k c w o) as [[w1 o1] r].
    destruct (g_run_all sv ns k cs w1 o1) as [[w2 o2] rs2] eqn:E2. rewrite (IH _ _ _ _ _ E2). inversion H; subst. reflexivity.
  Qed.
  Lemma g_cov_unused : forall sv ns k cs w o w' o' rs, g_run_all sv ns k cs w o = (w', o', rs) ->
    exists o2, g_run_all sv ns k cs w (with_cov C o) = (w', o2, rs) /\ e_weights o2 = e_weights o' /\
      forall rf, g_performance k rf w' o2 = g_performance k rf w' o'.
  Proof.
    intros sv ns k cs w o w' o' rs H. exists (with_cov C o'). split; [exact (g_all_blind _ _ _ _ _ _ _ _ _ H)|].
    split; [reflexivity|]. intros rf. destruct k; reflexivity.
  Qed.
End Cov.
