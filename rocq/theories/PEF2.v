(** * Objects through sequences of calls (C20-C24) *)
From Coq Require Import ZArith List String Bool Reals Lra Lia.
From Verif Require Import Num Py RBase PyLemmas MBase MConvex MEF SLin SBase SConvex Sums PBase PConvex PEF.
Import ListNotations.
Local Open Scope R_scope.

(** ** Objects a user can build *)
Lemma columns_len : forall rows l u, columns rows = Ok (l, u) ->
  List.length l = List.length rows /\ List.length u = List.length rows.
Proof.
  intros [|r0 rows] l u H; [discriminate H|]. unfold columns in H.
  destruct (forallb _ _); [|discriminate H]. destruct (_ <? 2)%nat; [discriminate H|].
  inversion H; subst. cbn [List.length map]. rewrite !map_length. split; reflexivity.
Qed.
Lemma read_bounds_len : forall n b lb ub, read_bounds n b = Ok (lb, ub) ->
  List.length lb = n /\ List.length ub = n.
Proof.
  intros n b lb ub H. unfold read_bounds in H. destruct b as [l u|il rows|]; [| |discriminate H].
  - destruct (_ && _); [discriminate H|]. inversion H; subst. rewrite !repeat_length. split; reflexivity.
  - destruct (List.length rows =? n)%nat eqn:E.
    + apply Nat.eqb_eq in E. apply columns_len in H. rewrite E in H. exact H.
    + destruct rows as [|l [|u [|? ?]]]; try discriminate H. destruct il; [|discriminate H].
      destruct ((List.length l =? n)%nat && (List.length u =? n)%nat) eqn:E2; [|discriminate H].
      apply andb_prop in E2. rewrite !Nat.eqb_eq in E2. inversion H; subst. rewrite !map_length. exact E2.
Qed.

Lemma init_open : forall m c b w0 lb ub, init_shape_ok m c ->
  square (List.length (init_tickers m c)) (cov_values c) ->
  read_bounds (List.length (init_tickers m c)) b = Ok (lb, ub) ->
  open_ef (init_world w0 (List.length (init_tickers m c))) (init_ef m c lb ub w0) [].
Proof.
  intros m c b w0 lb ub Hs Hq Hb. pose proof (read_bounds_len _ _ _ _ Hb) as [L1 L2].
  unfold open_ef, e_n. cbn [init_ef e_opt e_cons e_lb e_ub e_w e_base b_tickers e_cov e_mu e_add init_world w_sizes w_params].
  split; [reflexivity|]. split; [eexists; eexists; reflexivity|]. split; [exact L1|]. split; [exact L2|].
  split. { rewrite nth_error_app2 by lia. rewrite Nat.sub_diag. reflexivity. }
  split; [exact Hq|]. split.
  { intros mm E. unfold init_shape_ok in Hs. rewrite E in Hs. destruct Hs as [Hs _], Hq as [Hq _]. congruence. }
  repeat constructor.
Qed.
Lemma add_constraint_keeps_open : forall w o u f, open_ef w o u ->
  (forall v, scoped_con (List.length (w_params w)) (f v)) ->
  exists w' o' i, add_constraint (CFun f) w o = (w', o', Ok tt) /\
    open_ef w' o' (u ++ [(i, f (e_w o))]) /\ e_w o' = e_w o /\ e_base o' = e_base o /\
    w_sizes w' = w_sizes w /\ w_params w' = w_params w.
Proof.
  intros w o u f [Ho [[i [j Hc]] [Hl [Hu [Hn [Hq [Hm [Ha [Has Hus]]]]]]]]] Hf.
  rewrite add_constraint_open by exact Ho. eexists _, _, (w_next w). split; [reflexivity|].
  split; [|repeat split]. unfold open_ef, e_n. cbn [set_cons e_opt e_cons e_lb e_ub e_w e_base e_cov e_mu e_add w_sizes w_params].
  split; [exact Ho|]. split; [exists i, j; rewrite Hc; reflexivity|].
  repeat split; try assumption; try apply Hq. apply Forall_app. split; [exact Hus|]. constructor; [apply Hf|constructor].
Qed.
Lemma add_objective_keeps_open : forall w o u f, open_ef w o u ->
  (forall v, scalar_expr (f v) /\ scoped_expr (List.length (w_params w)) (f v)) ->
  exists o', add_objective f w o = (w, o', Ok tt) /\ open_ef w o' u /\
    e_add o' = e_add o ++ [f (e_w o)] /\ e_w o' = e_w o /\ e_base o' = e_base o.
Proof.
  intros w o u f [Ho [[i [j Hc]] [Hl [Hu [Hn [Hq [Hm [Ha [Has Hus]]]]]]]]] Hf.
  unfold add_objective, bind, get. rewrite Ho. eexists. split; [reflexivity|].
  split; [|repeat split]. unfold open_ef, e_n. cbn [set_add e_opt e_cons e_lb e_ub e_w e_base e_cov e_mu e_add w_sizes w_params].
  split; [exact Ho|]. split; [exists i, j; exact Hc|].
  repeat split; try assumption; try apply Hq; apply Forall_app; (split; [assumption|constructor; [apply Hf|constructor]]).
Qed.

(** ** Preservation along the monad *)
Definition pres {X} (P : ef -> ef -> Prop) (m : M ef X) : Prop :=
  forall w o w' o' r, m w o = (w', o', r) -> P o o'.
Section Pres.
  Context (P : ef -> ef -> Prop) (Prefl : forall o, P o o) (Ptrans : forall a b c, P a b -> P b c -> P a c).
  Lemma pres_ret : forall {X} (x : X), pres P (ret x).
  Proof. intros X x w o w' o' r H. inversion H; subst. apply Prefl. Qed.
  Lemma pres_raise : forall {X} e, pres P (raise (X := X) e).
  Proof. intros X e w o w' o' r H. inversion H; subst. apply Prefl. Qed.
  Lemma pres_bind : forall {X Y} (m : M ef X) (k : X -> M ef Y), pres P m -> (forall x, pres P (k x)) -> pres P (bind m k).
  Proof.
    intros X Y m k Hm Hk w o w' o' r H. unfold bind in H. destruct (m w o) as [[w1 o1] [x|e]] eqn:E.
    - eapply Ptrans; [eapply Hm; exact E|eapply Hk; exact H].
    - inversion H; subst. eapply Hm; exact E.
  Qed.
  Lemma pres_get : pres P get. Proof. intros w o w' o' r H. inversion H; subst. apply Prefl. Qed.
  Lemma pres_world_get : pres P world_get. Proof. intros w o w' o' r H. inversion H; subst. apply Prefl. Qed.
  Lemma pres_lift : forall {X} (x : res X), pres P (lift_res x).
  Proof. intros X x w o w' o' r H. inversion H; subst. apply Prefl. Qed.
  Lemma pres_when : forall b m, pres P m -> pres P (when b m).
  Proof. intros [] m H; [exact H|apply pres_ret]. Qed.
  Lemma pres_new_id : pres P new_id. Proof. intros w o w' o' r H. inversion H; subst. apply Prefl. Qed.
  Lemma pres_new_var : forall n, pres P (new_var n). Proof. intros n w o w' o' r H. inversion H; subst. apply Prefl. Qed.
  Lemma pres_new_param : forall a b c, pres P (new_param a b c).
  Proof. intros a b c w o w' o' r H. unfold new_param in H. destruct (b && Rltb c 0); inversion H; subst; apply Prefl. Qed.
  Lemma pres_set_param : forall a b, pres P (set_param a b).
  Proof.
    intros a b w o w' o' r H. unfold set_param in H. destruct (nth_error _ _) as [q|]; [destruct (p_nonneg q && Rltb b 0)|];
      inversion H; subst; apply Prefl.
  Qed.
  Lemma pres_forM : forall {X} (l : list X) f, (forall x, pres P (f x)) -> pres P (forM l f).
  Proof. induction l as [|x l IH]; intros f Hf; cbn [forM]; [apply pres_ret|]. apply pres_bind; auto. Qed.
  Lemma pres_on_copy : forall {X} (m : M ef X), pres P (on_copy m).
  Proof. intros X m w o w' o' r H. unfold on_copy in H. destruct (m w (deepcopy o)) as [[? ?] ?]. inversion H; subst. apply Prefl. Qed.
  Lemma pres_modify : forall f, (forall o, P o (f o)) -> pres P (modify f).
  Proof. intros f Hf w o w' o' r H. inversion H; subst. apply Hf. Qed.
  Lemma pres_world_fun : forall (f : world -> world), pres P (fun w o => (f w, o, Ok tt)).
  Proof. intros f w o w' o' r H. inversion H; subst. apply Prefl. Qed.
End Pres.

Ltac pres_step Pr Pt :=
  first [ apply (pres_bind _ Pt) | apply (pres_ret _ Pr) | apply (pres_raise _ Pr) | apply (pres_get _ Pr)
        | apply (pres_world_get _ Pr) | apply (pres_lift _ Pr) | apply (pres_when _ Pr)
        | apply (pres_new_id _ Pr) | apply (pres_new_var _ Pr) | apply (pres_new_param _ Pr)
        | apply (pres_set_param _ Pr) | apply (pres_forM _ Pr Pt) | apply (pres_on_copy _ Pr)
        | apply (pres_world_fun _ Pr) ].

(** *** once a problem exists it stays *)
Definition keeps_opt (o o' : ef) : Prop := forall p, e_opt o = Some p -> e_opt o' = Some p.
Lemma ko_refl : forall o, keeps_opt o o. Proof. intros o p H; exact H. Qed.
Lemma ko_trans : forall a b c, keeps_opt a b -> keeps_opt b c -> keeps_opt a c.
Proof. intros a b c H1 H2 p H. auto. Qed.
Ltac head_of m := match m with ?f _ => head_of f | _ => m end.
Ltac pres_go Pr Pt leaf := repeat first
  [ progress intros
  | leaf
  | pres_step Pr Pt
  | match goal with |- pres _ (match ?x with _ => _ end) => destruct x eqn:? end
  | match goal with |- pres _ (if ?x then _ else _) => destruct x eqn:? end
  | match goal with |- pres _ ?m => let h := head_of m in unfold h end ].
Ltac ko_mod := apply pres_modify; intros ? ? ?; assumption.
Lemma ko_solve : forall sv, pres keeps_opt (solve_opt sv).
Proof.
  intros sv w o w' o' r H p Hp. unfold solve_opt, bind, get in H. destruct (e_obj o) as [ob|]; [|inversion H; subst; exact Hp].
  rewrite Hp in H. destruct (negb (fst ob =? fst (p_obj p))%nat); [inversion H; subst; exact Hp|].
  destruct (negb (same_ids (e_cons o) (p_cons p))); [inversion H; subst; exact Hp|].
  unfold ret, world_get in H. destruct (sv _ _ _ _) as [s v|upd|x].
  - inversion H; subst. exact Hp.
  - inversion H; subst. exact Hp.
  - destruct x; inversion H; subst; exact Hp.
Qed.
Lemma ko_transform : forall k cs, pres keeps_opt (transform_all k cs).
Proof. induction cs as [|[i c] cs IH]; cbn [transform_all]; pres_go ko_refl ko_trans ltac:(first [exact IH | ko_mod]). Qed.
Lemma ko_run : forall sv ns pinv c, pres keeps_opt (run sv ns pinv c).
Proof.
  intros sv ns pinv c. destruct c; cbn [run].
  4: { intros w o w' o' r H p Hp. destruct (set_weights (e_base o) d) as [b x]. inversion H; subst. exact Hp. }
  all: pres_go ko_refl ko_trans ltac:(first [apply ko_solve | apply ko_transform | ko_mod]).
Qed.

(** *** which calls leave a problem behind *)
Definition never {X} (e : exn) (m : M ef X) : Prop := forall w o w' o', m w o <> (w', o', Err e).
Lemma never_bind : forall e {X Y} (m : M ef X) (k : X -> M ef Y), never e m -> (forall x, never e (k x)) -> never e (bind m k).
Proof.
  intros e X Y m k Hm Hk w o w' o' H. unfold bind in H. destruct (m w o) as [[w1 o1] [x|e']] eqn:E.
  - eapply Hk; exact H.
  - inversion H; subst. eapply Hm; exact E.
Qed.
Lemma never_raise : forall e e' X, e <> e' -> never e (raise (X := X) e').
Proof. intros e e' X Hne w o w' o' H. inversion H; subst; congruence. Qed.
Lemma never_forM : forall e {X} (l : list X) f, (forall x, never e (f x)) -> never e (forM l f).
Proof.
  induction l as [|x l IH]; intros f Hf; cbn [forM]; [intros w o w' o' H; discriminate H|].
  apply never_bind; auto.
Qed.
Lemma never_simple : forall e {X} (m : M ef X), (forall w o, exists w' o' x, m w o = (w', o', Ok x)) -> never e m.
Proof. intros e X m H w o w' o' E. destruct (H w o) as [? [? [? E']]]. rewrite E' in E. discriminate E. Qed.
Lemma never_new_param : forall e a b c, e <> ValueError -> never e (new_param a b c).
Proof. intros e a b c He w o w' o' H. unfold new_param in H. destruct (_ && _); inversion H; subst; congruence. Qed.
Lemma never_set_param : forall e a b, e <> ValueError -> never e (set_param a b).
Proof.
  intros e a b He w o w' o' H. unfold set_param in H. destruct (nth_error _ _) as [q|]; [destruct (_ && _)|];
    inversion H; subst; congruence.
Qed.
Lemma never_read : forall n b, never OptimizationError (lift_res (read_bounds n b)).
Proof.
  intros n b w o w' o' H. unfold lift_res in H. inversion H as [[E1 E2 E]]. clear - E. unfold read_bounds, columns in E.
  repeat match type of E with
         | context[match ?x with _ => _ end] => destruct x; try discriminate E
         end.
Qed.
Lemma never_transform : forall k cs, never OptimizationError (transform_all k cs).
Proof.
  induction cs as [|[i c] cs IH]; cbn [transform_all]; [intros w o w' o' H; discriminate H|].
  apply never_bind.
  - intros w o w' o' H. unfold lift_res in H. inversion H as [[E1 E2 E]]. clear - E. unfold transform_con in E.
    destruct c as [a b| |]; [destruct a| |]; discriminate E.
  - intros c'. apply never_bind; [intros w o w' o' H; discriminate H|]. intros ic.
    apply never_bind; [exact IH|]. intros rest w o w' o' H; discriminate H.
Qed.
Ltac nev leaf := repeat first
  [ progress intros
  | leaf
  | apply never_bind
  | apply never_raise; discriminate
  | apply never_forM
  | apply never_new_param; discriminate
  | apply never_set_param; discriminate
  | apply never_read
  | apply never_transform
  | match goal with |- never _ (match ?x with _ => _ end) => destruct x eqn:? end
  | match goal with |- never _ (if ?x then _ else _) => destruct x eqn:? end
  | apply never_simple; intros; eexists; eexists; eexists; reflexivity
  | match goal with |- never _ ?m => let h := head_of m in unfold h end ].

Definition marks {X} (m : M ef X) : Prop :=
  forall w o w' o' r, m w o = (w', o', r) -> (exists x, r = Ok x) \/ r = Err OptimizationError -> e_opt o' <> None.
Definition marks_ok {X} (m : M ef X) : Prop :=
  forall w o w' o' x, m w o = (w', o', Ok x) -> e_opt o' <> None.
Lemma marks_bind : forall {X Y} (m : M ef X) (k : X -> M ef Y),
  never OptimizationError m -> (forall x, marks (k x)) -> marks (bind m k).
Proof.
  intros X Y m k Hm Hk w o w' o' r H Hr. unfold bind in H. destruct (m w o) as [[w1 o1] [x|e]] eqn:E.
  - eapply Hk; [exact H|exact Hr].
  - inversion H; subst. destruct Hr as [[x Hx]|Hr]; [discriminate Hx|]. inversion Hr; subst. exfalso. eapply Hm; exact E.
Qed.
Lemma marks_then : forall {X Y} (m : M ef X) (k : X -> M ef Y),
  marks m -> (forall x, pres keeps_opt (k x)) -> marks (bind m k).
Proof.
  intros X Y m k Hm Hk w o w' o' r H Hr. unfold bind in H. destruct (m w o) as [[w1 o1] [x|e]] eqn:E.
  - assert (Hs : e_opt o1 <> None) by (eapply Hm; [exact E|left; eexists; reflexivity]).
    destruct (e_opt o1) as [p|] eqn:Ep; [|congruence]. rewrite (Hk x _ _ _ _ _ H p Ep). discriminate.
  - inversion H; subst. eapply Hm; [exact E|]. destruct Hr as [[x Hx]|Hr]; [discriminate Hx|]. right. inversion Hr; reflexivity.
Qed.
Lemma marks_ok_bind : forall {X Y} (m : M ef X) (k : X -> M ef Y), (forall x, marks_ok (k x)) -> marks_ok (bind m k).
Proof.
  intros X Y m k Hk w o w' o' y H. unfold bind in H. destruct (m w o) as [[w1 o1] [x|e]] eqn:E; [|discriminate H].
  eapply Hk; exact H.
Qed.
Lemma marks_marks_ok : forall {X} (m : M ef X), marks m -> marks_ok m.
Proof. intros X m H w o w' o' x E. eapply H; [exact E|]. left; eexists; reflexivity. Qed.
Lemma marks_solve : forall sv, marks (solve_opt sv).
Proof.
  intros sv w o w' o' r H Hr. destruct (e_opt o) as [p|] eqn:Ep.
  - rewrite (ko_solve sv _ _ _ _ _ H p Ep). discriminate.
  - destruct (e_obj o) as [[i e]|] eqn:Eo.
    + apply (solve_open sv w o i e w' o' r Ep Eo) in H. destruct H as [H _]. rewrite H. discriminate.
    + unfold solve_opt, bind, get in H. rewrite Eo in H. inversion H; subst. destruct Hr as [[x Hx]|Hx]; discriminate Hx.
Qed.
Lemma ko_output : pres keeps_opt output.
Proof. pres_go ko_refl ko_trans ko_mod. Qed.
Lemma marks_solve_output : forall sv, marks (solve_and_output sv).
Proof. intros sv. apply marks_then; [apply marks_solve|intros _; apply ko_output]. Qed.

Ltac mk_leaf := first [ apply marks_solve_output | apply marks_then; [apply marks_solve|intros; pres_go ko_refl ko_trans ko_mod] ].
Lemma run_marks : forall sv ns pinv c, attempts c -> marks (run sv ns pinv c).
Proof.
  intros sv ns pinv c Hc. destruct c; try contradiction; cbn [run]; unfold drop;
    (apply marks_then; [|intros; pres_go ko_refl ko_trans ko_mod]).
  - unfold min_volatility. do 4 (apply marks_bind; [nev fail|intros]). apply marks_solve_output.
  - unfold max_return. apply marks_bind; [nev fail|intros o]. destruct (e_mu o).
    + do 3 (apply marks_bind; [nev fail|intros]). mk_leaf.
    + intros w o1 w' o' r H [[x Hx]|Hx]; inversion H; subst; discriminate.
  - unfold max_sharpe. destruct rf as [x|z|].
    3: { intros w o1 w' o' r H [[y Hx]|Hx]; inversion H; subst; discriminate. }
    all: apply marks_bind; [nev fail|intros o]; destruct (e_mu o) as [mu|];
      [|intros w o1 w' o' r H [[y Hx]|Hx]; inversion H; subst; discriminate];
      destruct (list_max mu) as [mx|]; [|intros w o1 w' o' r H [[y Hx]|Hx]; inversion H; subst; discriminate];
      match goal with |- marks (if ?b then _ else _) => destruct b end;
      [intros w o1 w' o' r H [[y Hx]|Hx]; inversion H; subst; discriminate|];
      do 10 (apply marks_bind; [nev fail|intros]); mk_leaf.
  - unfold max_quadratic_utility. destruct (Rleb ra 0); [intros w o1 w' o' r H [[y Hx]|Hx]; inversion H; subst; discriminate|].
    apply marks_bind; [nev fail|intros]. apply marks_bind; [nev fail|intros]. apply marks_solve_output.
  - unfold efficient_risk. destruct (target_of t) as [t'|]; [|intros w o1 w' o' r H [[y Hx]|Hx]; inversion H; subst; discriminate].
    destruct (Rltb t' 0); [intros w o1 w' o' r H [[y Hx]|Hx]; inversion H; subst; discriminate|].
    apply marks_bind; [nev fail|intros o].
    destruct (below_global_min pinv (e_cov o) t'); [intros w o1 w' o' r H [[y Hx]|Hx]; inversion H; subst; discriminate|].
    apply marks_bind; [nev fail|intros]. apply marks_bind; [nev fail|intros]. apply marks_solve_output.
  - unfold convex_objective. do 3 (apply marks_bind; [nev fail|intros]). apply marks_solve_output.
Qed.
Lemma run_return_marks : forall sv ns pinv t mn w o w' o', run sv ns pinv (KReturn t mn) w o = (w', o', Ok tt) -> e_opt o' <> None.
Proof.
  intros sv ns pinv t mn. cbn [run]. unfold drop, efficient_return.
  assert (H : marks_ok (bind (efficient_return sv t mn) (fun _ => ret tt))).
  { intros w o w' o' x H. unfold bind, ret in H. destruct (efficient_return sv t mn w o) as [[w1 o1] [y|e]] eqn:E; inversion H; subst.
    revert E. generalize w o w' o' y. change (marks_ok (efficient_return sv t mn)).
    unfold efficient_return. destruct t as [t| |]; try (intros ? ? ? ? ? Hd; discriminate Hd).
    do 2 (apply marks_ok_bind; intros). apply marks_ok_bind. intros o2. destruct (match e_maxret o2 with Some v => Rltb v t | None => false end).
    - intros ? ? ? ? ? Hd; discriminate Hd.
    - do 2 (apply marks_ok_bind; intros). apply marks_marks_ok. apply marks_solve_output. }
  exact (fun w o w' o' E => H w o w' o' tt E).
Qed.

(** C20 *)
Lemma frozen : forall w o, e_opt o <> None ->
  (forall f, add_objective f w o = (w, o, Err InstantiationError)) /\
  (forall f, add_constraint (CFun f) w o = (w, o, Err InstantiationError)) /\
  (forall mapper lower upper, lower ++ upper <> [] ->
     add_sector_constraints mapper lower upper w o = (w, o, Err InstantiationError)).
Proof.
  intros w o H. destruct (e_opt o) as [p|] eqn:E; [|congruence]. split; [|split].
  - intros f. unfold add_objective, bind, get. rewrite E. reflexivity.
  - intros f. unfold add_constraint, bind, get. rewrite E. reflexivity.
  - intros mapper lower upper Hne. unfold add_sector_constraints, bind, get. destruct upper as [|x upper].
    + cbn [forM]. unfold ret. destruct lower as [|y lower]; [exfalso; apply Hne; reflexivity|].
      cbn [forM]. unfold bind, add_constraint, get, bind. rewrite E. reflexivity.
    + cbn [forM]. unfold bind, add_constraint, get, bind. rewrite E. reflexivity.
Qed.
Lemma run_all_keeps : forall sv ns pinv cs w o w' o', run_all sv ns pinv cs w o = (w', o') -> keeps_opt o o'.
Proof.
  induction cs as [|c cs IH]; intros w o w' o' H; cbn [run_all] in H; [inversion H; subst; apply ko_refl|].
  destruct (run sv ns pinv c w o) as [[w1 o1] r] eqn:E. eapply ko_trans; [eapply ko_run; exact E|eapply IH; exact H].
Qed.
Lemma frozen_forever : forall sv ns pinv c w o w1 o1 r cs w2 o2,
  run sv ns pinv c w o = (w1, o1, r) ->
  (attempts c /\ (r = Ok tt \/ r = Err OptimizationError)) \/ ((exists t mn, c = KReturn t mn) /\ r = Ok tt) ->
  run_all sv ns pinv cs w1 o1 = (w2, o2) ->
  (forall f, add_objective f w2 o2 = (w2, o2, Err InstantiationError)) /\
  (forall f, add_constraint (CFun f) w2 o2 = (w2, o2, Err InstantiationError)) /\
  (forall mapper lower upper, lower ++ upper <> [] ->
     add_sector_constraints mapper lower upper w2 o2 = (w2, o2, Err InstantiationError)).
Proof.
  intros sv ns pinv c w o w1 o1 r cs w2 o2 H Hc Hall. apply frozen.
  assert (H1 : e_opt o1 <> None).
  { destruct Hc as [[Ha Hr]|[[t [mn ->]] ->]].
    - eapply run_marks; [exact Ha|exact H|]. destruct Hr as [->| ->]; [left; eexists; reflexivity|right; reflexivity].
    - eapply run_return_marks; exact H. }
  destruct (e_opt o1) as [p|] eqn:E; [|congruence].
  rewrite (run_all_keeps _ _ _ _ _ _ _ _ Hall p E). discriminate.
Qed.

(** C24 *)
Definition same_weights (o o' : ef) : Prop := e_weights o' = e_weights o.
Lemma sw_refl : forall o, same_weights o o. Proof. reflexivity. Qed.
Lemma sw_trans : forall a b c, same_weights a b -> same_weights b c -> same_weights a c.
Proof. unfold same_weights; intros; congruence. Qed.
Definition safe {X} (m : M ef X) : Prop :=
  forall w o w' o' e, m w o = (w', o', Err e) -> e <> FloatSpecial -> same_weights o o'.
Lemma safe_bind : forall {X Y} (m : M ef X) (k : X -> M ef Y), pres same_weights m -> (forall x, safe (k x)) -> safe (bind m k).
Proof.
  intros X Y m k Hm Hk w o w' o' e H He. unfold bind in H. destruct (m w o) as [[w1 o1] [x|e1]] eqn:E.
  - eapply sw_trans; [eapply Hm; exact E|eapply Hk; eassumption].
  - inversion H; subst. eapply Hm; exact E.
Qed.
Lemma safe_pres : forall {X} (m : M ef X), pres same_weights m -> safe m.
Proof. intros X m H w o w' o' e E _. eapply H; exact E. Qed.
Lemma safe_solve : forall sv, safe (solve_opt sv).
Proof.
  intros sv w o w' o' e H _. unfold solve_opt, bind, get in H.
  destruct (e_obj o) as [ob|]; [|inversion H; subst; apply sw_refl].
  destruct (e_opt o) as [p|].
  - destruct (negb (fst ob =? fst (p_obj p))%nat); [inversion H; subst; apply sw_refl|].
    destruct (negb (same_ids (e_cons o) (p_cons p))); [inversion H; subst; apply sw_refl|].
    unfold ret, world_get in H. destruct (sv _ _ _ _) as [s v|upd|x].
    + inversion H.
    + inversion H; subst. reflexivity.
    + destruct x; inversion H; subst; reflexivity.
  - unfold modify, ret, world_get in H. destruct (sv _ _ _ _) as [s v|upd|x].
    + inversion H.
    + inversion H; subst. reflexivity.
    + destruct x; inversion H; subst; reflexivity.
Qed.
Lemma solve_sets : forall sv w o w' o' x, solve_opt sv w o = (w', o', Ok x) -> e_weights o' <> None.
Proof.
  intros sv w o w' o' x H. unfold solve_opt, bind, get in H.
  destruct (e_obj o) as [ob|]; [|discriminate H].
  destruct (e_opt o) as [p|].
  - destruct (negb (fst ob =? fst (p_obj p))%nat); [discriminate H|].
    destruct (negb (same_ids (e_cons o) (p_cons p))); [discriminate H|].
    unfold ret, world_get, modify in H. destruct (sv _ _ _ _) as [s v|upd|e]; [|discriminate H|destruct e; discriminate H].
    inversion H; subst. discriminate.
  - unfold modify, ret, world_get in H. destruct (sv _ _ _ _) as [s v|upd|e]; [|discriminate H|destruct e; discriminate H].
    inversion H; subst. discriminate.
Qed.
Lemma output_total : forall w o, e_weights o <> None -> exists d, output w o = (w, o, Ok d).
Proof.
  intros w o H. unfold output, bind, get, lift_res, make_output_weights. unfold e_weights in H.
  destruct (b_weights (e_base o)); [eexists; reflexivity|congruence].
Qed.
Lemma safe_solve_output : forall sv, safe (solve_and_output sv).
Proof.
  intros sv w o w' o' e H He. unfold solve_and_output, bind in H.
  destruct (solve_opt sv w o) as [[w1 o1] [x|e1]] eqn:E.
  - destruct (output_total w1 o1 (solve_sets _ _ _ _ _ _ E)) as [d Ed]. rewrite Ed in H. discriminate H.
  - inversion H; subst. eapply safe_solve; [exact E|exact He].
Qed.
Ltac sw_mod := apply pres_modify; intros ?; reflexivity.
Lemma sw_transform : forall k cs, pres same_weights (transform_all k cs).
Proof. induction cs as [|[i c] cs IH]; cbn [transform_all]; pres_go sw_refl sw_trans ltac:(first [exact IH | sw_mod]). Qed.
Ltac sw := pres_go sw_refl sw_trans ltac:(first [apply sw_transform | sw_mod]).
Lemma safe_drop : forall {X} (m : M ef X), safe m -> safe (drop m).
Proof.
  intros X m H w o w' o' e E He. unfold drop, bind, ret in E. destruct (m w o) as [[w1 o1] [x|e1]] eqn:E1; inversion E; subst.
  eapply H; eassumption.
Qed.
Lemma safe_run : forall sv ns pinv c, safe (run sv ns pinv c).
Proof.
  intros sv ns pinv c. destruct c; cbn [run]; try apply safe_drop.
  - apply safe_pres. sw.
  - apply safe_pres. sw.
  - apply safe_pres. sw.
  - intros w o w' o' e H _. unfold set_weights in H. destruct (mapM _ _); inversion H; subst. destruct o as [[? ?] ? ? ? ? ? ? ? ? ? ? ? ?]; reflexivity.
  - unfold min_volatility. do 4 (apply safe_bind; [sw|intros]). apply safe_solve_output.
  - unfold max_return. apply safe_bind; [sw|intros o]. destruct (e_mu o).
    + do 3 (apply safe_bind; [sw|intros]).
      intros w o1 w' o' e H He. unfold bind in H. destruct (solve_opt sv w o1) as [[w1 o2] [x2|e1]] eqn:E.
      * destruct (output_total w1 o2 (solve_sets _ _ _ _ _ _ E)) as [d Ed]. rewrite Ed in H. discriminate H.
      * inversion H; subst. eapply safe_solve; [exact E|exact He].
    + apply safe_pres; sw.
  - unfold max_sharpe. destruct rf as [x|z|]; [| |apply safe_pres; sw].
    all: apply safe_bind; [sw|intros o]; destruct (e_mu o) as [mu|]; [|apply safe_pres; sw];
      destruct (list_max mu) as [mx|]; [|apply safe_pres; sw];
      match goal with |- safe (if ?b then _ else _) => destruct b end; [apply safe_pres; sw|];
      do 10 (apply safe_bind; [sw|intros]);
      (intros w o1 w' o' e H He; unfold bind in H; destruct (solve_opt sv w o1) as [[w1 o2] [y|e1]] eqn:E;
       [|inversion H; subst; eapply safe_solve; [exact E|exact He]];
       destruct (Reqb _ 0); [inversion H; subst; congruence|];
       unfold modify in H; match type of H with output ?w ?o = _ => destruct (output_total w o) as [d Ed] end;
       [discriminate|rewrite Ed in H; discriminate H]).
  - unfold max_quadratic_utility. destruct (Rleb ra 0); [apply safe_pres; sw|].
    do 2 (apply safe_bind; [sw|intros]). apply safe_solve_output.
  - unfold efficient_risk. destruct (target_of t) as [t'|]; [|apply safe_pres; sw].
    destruct (Rltb t' 0); [apply safe_pres; sw|]. apply safe_bind; [sw|intros o].
    destruct (below_global_min pinv (e_cov o) t'); [apply safe_pres; sw|].
    do 2 (apply safe_bind; [sw|intros]). apply safe_solve_output.
  - unfold efficient_return. destruct t as [t| |]; [|apply safe_pres; sw|apply safe_pres; sw].
    do 2 (apply safe_bind; [sw|intros]). apply safe_bind; [sw|intros o1].
    destruct (match e_maxret o1 with Some v => Rltb v t | None => false end); [apply safe_pres; sw|].
    do 2 (apply safe_bind; [sw|intros]). apply safe_solve_output.
  - unfold convex_objective. do 3 (apply safe_bind; [sw|intros]). apply safe_solve_output.
  - intros w o w' o' e H He. unfold nonconvex_objective, bind, get, modify in H.
    match type of H with output ?w ?o = _ => destruct (output_total w o) as [d Ed] end; [discriminate|].
    rewrite Ed in H. discriminate H.
Qed.
