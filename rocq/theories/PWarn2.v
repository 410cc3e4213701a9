(** * Which calls warn *)
From Coq Require Import ZArith List String Bool Reals Lia Lra.
From Verif Require Import Num RBase Py SLin Sums MConvex MEF MDown MCalls MPlot MFrame MBase MArray MWarn PEF2 PDown PWarn1.
Import ListNotations.
Local Open Scope R_scope.
Local Open Scope m_scope.

(** ** Calls that do not touch the bounds *)
Definition kb (o o' : ef) : Prop := e_lb o' = e_lb o /\ e_ub o' = e_ub o /\ b_tickers (e_base o') = b_tickers (e_base o).
Lemma kb_refl : forall o, kb o o. Proof. repeat split. Qed.
Lemma kb_trans : forall a b c, kb a b -> kb b c -> kb a c.
Proof. intros a b c (A & B & C) (D & E & F). repeat split; congruence. Qed.
Ltac kb_mod := apply pres_modify; intros; repeat split; reflexivity.
Lemma kb_solve : forall sv, pres kb (solve_opt sv).
Proof.
  intros sv. unfold solve_opt. pres_go kb_refl kb_trans kb_mod.
Qed.
Lemma kb_transform : forall k cs, pres kb (transform_all k cs).
Proof. induction cs as [|[i c] cs IH]; cbn [transform_all]; pres_go kb_refl kb_trans ltac:(first [exact IH | kb_mod]). Qed.
Ltac kbs := pres_go kb_refl kb_trans ltac:(first [apply kb_solve | apply kb_transform | kb_mod]).
Lemma set_weights_tickers : forall (b b' : base R) d r, set_weights b d = (b', r) -> b_tickers b' = b_tickers b.
Proof. intros b b' d r H. unfold set_weights in H. repeat match type of H with context[match ?x with _ => _ end] => destruct x end; inversion H; subst; reflexivity. Qed.
Lemma kb_set_weights : forall d, pres kb (fun w o => match set_weights (e_base o) d with (b, r) => (w, set_base b o, r) end).
Proof.
  intros d w o w' o' r H. destruct (set_weights (e_base o) d) as [b x] eqn:E. inversion H; subst. repeat split. cbn. eapply set_weights_tickers. exact E.
Qed.

(** ** A silent computation, one that may amend the bounds, one that may warn about objectives *)
Definition silent {X} (mw : M wef X) : Prop :=
  forall w ws o w' s' r, mw w (ws, o) = (w', s', r) -> fst s' = ws /\ kb o (snd s').
Lemma si_quiet : forall X (m : M ef X), pres kb m -> silent (quietly m).
Proof.
  intros X m H w ws o w' s' r E. unfold quietly in E. cbn [fst snd] in E. destruct (m w o) as [[w1 o1] r1] eqn:Em. inversion E; subst. cbn.
  split; [reflexivity|]. eapply H. exact Em.
Qed.
Lemma si_raise : forall X e, silent (@raise wef X e).
Proof. intros X e w ws o w' s' r E. inversion E; subst. split; [reflexivity|apply kb_refl]. Qed.
Lemma si_ret : forall X (x : X), silent (ret x).
Proof. intros X e w ws o w' s' r E. inversion E; subst. split; [reflexivity|apply kb_refl]. Qed.
Lemma si_bind : forall X Y (m : M wef X) (k : X -> M wef Y), silent m -> (forall x, silent (k x)) -> silent (bind m k).
Proof.
  intros X Y m k Hm Hk w ws o w' s' r E. unfold bind in E. destruct (m w (ws, o)) as [[w1 [ws1 o1]] [x|e]] eqn:Em.
  - destruct (Hm _ _ _ _ _ _ Em) as [A B]. cbn in A, B. subst ws1. destruct (Hk x _ _ _ _ _ _ E) as [C D]. split; [exact C|eapply kb_trans; eassumption].
  - inversion E; subst. apply (Hm _ _ _ _ _ _ Em).
Qed.
Lemma si_when : forall b m, silent m -> silent (when b m).
Proof. intros [] m H; [exact H|apply si_ret]. Qed.

Definition amended (o : ef) (new : list warning) (o' : ef) : Prop :=
  (new = [] /\ kb o o') \/
  (new = [WBounds] /\ any_negative (e_lb o) = false /\ e_lb o' = repeat (Some (-1)) (e_n o) /\ e_ub o' = repeat (Some 1) (e_n o) /\
   b_tickers (e_base o') = b_tickers (e_base o)).
Definition amends {X} (mw : M wef X) : Prop :=
  forall w ws o w' s' r, mw w (ws, o) = (w', s', r) -> exists new, fst s' = ws ++ new /\ amended o new (snd s').
Lemma am_silent : forall X (m : M wef X), silent m -> amends m.
Proof. intros X m H w ws o w' s' r E. destruct (H _ _ _ _ _ _ E) as [A B]. exists []. rewrite app_nil_r. split; [exact A|]. left. auto. Qed.
Lemma am_l : forall X Y (m : M wef X) (k : X -> M wef Y), silent m -> (forall x, amends (k x)) -> amends (bind m k).
Proof.
  intros X Y m k Hm Hk w ws o w' s' r E. unfold bind in E. destruct (m w (ws, o)) as [[w1 [ws1 o1]] [x|e]] eqn:Em.
  - destruct (Hm _ _ _ _ _ _ Em) as [A B]. cbn in A, B. subst ws1. destruct (Hk x _ _ _ _ _ _ E) as (new & C & D). exists new. split; [exact C|].
    destruct B as (B1 & B2 & B3). destruct D as [[-> D]|(-> & D1 & D2 & D3 & D4)].
    + left. split; [reflexivity|]. eapply kb_trans; [|exact D]. repeat split; assumption.
    + right. unfold e_n in *. rewrite B1 in D1. rewrite B3 in D2, D3, D4. auto.
  - inversion E; subst. exists []. rewrite app_nil_r. destruct (Hm _ _ _ _ _ _ Em) as [A B]. split; [exact A|left; auto].
Qed.
Lemma am_r : forall X Y (m : M wef X) (k : X -> M wef Y), amends m -> (forall x, silent (k x)) -> amends (bind m k).
Proof.
  intros X Y m k Hm Hk w ws o w' s' r E. unfold bind in E. destruct (m w (ws, o)) as [[w1 [ws1 o1]] [x|e]] eqn:Em.
  - destruct (Hm _ _ _ _ _ _ Em) as (new & A & B). cbn in A, B. destruct (Hk x _ _ _ _ _ _ E) as [C D]. exists new. split; [congruence|].
    destruct B as [[-> B]|(-> & B1 & B2 & B3 & B4)].
    + left. split; [reflexivity|]. eapply kb_trans; eassumption.
    + right. destruct D as (D1 & D2 & D3). repeat split; congruence.
  - inversion E; subst. apply (Hm _ _ _ _ _ _ Em).
Qed.
Lemma am_sum : forall mn, amends (make_weight_sum_constraint_w mn).
Proof.
  intros mn. unfold make_weight_sum_constraint_w. apply am_r; [|intros; apply si_quiet; kbs].
  destruct mn; [|apply am_silent; apply si_quiet; kbs].
  intros w ws o w' s' r E. unfold bind at 1 in E. unfold quietly at 1, get at 1 in E. cbn [fst snd] in E.
  destruct (any_negative (e_lb o)) eqn:N; cbn [negb when] in E.
  - revert E. generalize w ws o w' s' r. clear. intros w ws o w' s' r E.
    assert (S : silent (ret tt ;; quietly (add_constraint (sum_is 0)))) by (apply si_bind; [apply si_ret|intros; apply si_quiet; kbs]).
    destruct (S _ _ _ _ _ _ E) as [A B]. exists []. rewrite app_nil_r. split; [exact A|left; auto].
  - assert (S : forall w s w' s' r, (((quietly (map_bounds (BPair (Some (-1)) (Some 1)))) ;; quietly (modify (fun o => set_cons (skipn 2 (e_cons o)) o))) ;; quietly (add_constraint (sum_is 0))) w s = (w', s', r) ->
      fst s' = fst s /\ e_lb (snd s') = repeat (Some (-1)) (e_n (snd s)) /\ e_ub (snd s') = repeat (Some 1) (e_n (snd s)) /\ b_tickers (e_base (snd s')) = b_tickers (e_base (snd s))).
    { clear. intros w [ws o] w' s' r E. cbn [fst snd].
      assert (S : silent (quietly (add_constraint (sum_is 0)))) by (apply si_quiet; kbs).
      assert (Smod : silent (quietly (modify (fun o => set_cons (skipn 2 (e_cons o)) o)))) by (apply si_quiet; kbs).
      assert (MB : forall w o w1 o1 r1, map_bounds (BPair (Some (-1)) (Some 1)) w o = (w1, o1, r1) ->
        e_lb o1 = repeat (Some (-1)) (e_n o) /\ e_ub o1 = repeat (Some 1) (e_n o) /\ b_tickers (e_base o1) = b_tickers (e_base o)).
      { clear. intros w o w1 o1 r1 E. unfold map_bounds in E. unfold bind at 1 in E. unfold get at 1 in E. unfold bind at 1 in E. unfold lift_res at 1 in E.
        cbn [read_bounds] in E. rewrite andb_false_r in E. cbn [or_default] in E. unfold bind at 1 in E. unfold modify at 1 in E. cbn [fst snd] in E.
        match type of E with ?m _ ?s = _ => assert (K : pres kb m) by kbs; pose proof (K _ _ _ _ _ E) as (A & B & C) end.
        rewrite A, B, C. repeat split. }
      unfold bind in E. unfold quietly at 1 in E. cbn [fst snd] in E.
      destruct (map_bounds (BPair (Some (-1)) (Some 1)) w o) as [[w1 o1] [x|e]] eqn:Em.
      - destruct (MB _ _ _ _ _ Em) as (A & B & C).
        destruct (quietly (modify (fun o => set_cons (skipn 2 (e_cons o)) o)) w1 (ws, o1)) as [[w2 [ws2 o2]] [x2|e2]] eqn:E2.
        + destruct (Smod _ _ _ _ _ _ E2) as (A2 & B2 & C2 & D2). cbn in A2, B2, C2, D2. subst ws2.
          destruct (S _ _ _ _ _ _ E) as (A3 & B3 & C3 & D3). split; [exact A3|]. repeat split; congruence.
        + destruct (Smod _ _ _ _ _ _ E2) as (A2 & B2 & C2 & D2). inversion E; subst. cbn in *. repeat split; congruence.
      - destruct (MB _ _ _ _ _ Em) as (A & B & C). inversion E; subst. cbn. auto. }
    unfold bind at 1 in E. unfold bind at 1 in E. unfold warn at 1 in E. cbn [fst snd] in E.
    destruct (S w (ws ++ [WBounds], o) w' s' r) as (A & B & C & D).
    { rewrite <- E. unfold bind. reflexivity. }
    exists [WBounds]. split; [exact A|]. right. auto.
Qed.
Ltac am := repeat first
  [ progress intros
  | apply am_sum
  | solve [apply am_silent; repeat first [progress intros | apply si_raise | apply si_ret | apply si_bind | apply si_when | apply si_quiet; kbs]]
  | apply am_l; [solve [repeat first [progress intros | apply si_raise | apply si_ret | apply si_bind | apply si_when | apply si_quiet; kbs]]|]
  | apply am_r; [|solve [repeat first [progress intros | apply si_raise | apply si_ret | apply si_bind | apply si_when | apply si_quiet; kbs]]]
  | match goal with |- amends (match ?x with _ => _ end) => destruct x eqn:? end
  | match goal with |- amends (if ?x then _ else _) => destruct x eqn:? end ].
Lemma am_utility : forall sv a mn, amends (max_quadratic_utility_w sv a mn).
Proof. intros. unfold max_quadratic_utility_w. am. Qed.
Lemma am_risk : forall sv pinv t mn, amends (efficient_risk_w sv pinv t mn).
Proof. intros. unfold efficient_risk_w. am. Qed.
Lemma am_return : forall sv t mn, amends (efficient_return_w sv t mn).
Proof. intros. unfold efficient_return_w. am. Qed.
Lemma am_g_min : forall sv k mn, amends (g_min_w sv k mn).
Proof. intros. unfold g_min_w. am. Qed.
Lemma am_g_utility : forall sv k a mn, amends (g_utility_w sv k a mn).
Proof. intros. unfold g_utility_w. am. Qed.
Lemma am_g_risk : forall sv k a mn, amends (g_risk_w sv k a mn).
Proof. intros. unfold g_risk_w. am. Qed.
Lemma am_g_return : forall sv k a mn, amends (g_return_w sv k a mn).
Proof. intros. unfold g_return_w. destruct k; am. Qed.
Ltac kbm := apply si_quiet; first [apply kb_set_weights | kbs].
Lemma si_nonconvex : forall ns f b cs g, pres kb (nonconvex_objective ns f b cs g).
Proof. intros. kbs. Qed.
Lemma si_max_return : forall sv, pres kb (max_return sv).
Proof. intros. kbs. Qed.

(** ** max_sharpe *)
Definition objective_warning {X} (b : bool) (mw : M wef X) : Prop :=
  forall w ws o w' s' r, mw w (ws, o) = (w', s', r) -> exists new, fst s' = ws ++ new /\ kb o (snd s') /\
    (new = [] \/ new = [WObjectives] /\ b = true) /\ (forall x, r = Ok x -> b = true -> new = [WObjectives]).
Lemma ow_raise : forall X b e, objective_warning b (@raise wef X e).
Proof. intros X b e w ws o w' s' r E. inversion E; subst. exists []. rewrite app_nil_r. cbn. split; [reflexivity|]. split; [apply kb_refl|]. split; [auto|discriminate]. Qed.
Lemma ow_l : forall X Y b (m : M wef X) (k : X -> M wef Y), silent m -> (forall x, objective_warning b (k x)) -> objective_warning b (bind m k).
Proof.
  intros X Y b m k Hm Hk w ws o w' s' r E. unfold bind in E. destruct (m w (ws, o)) as [[w1 [ws1 o1]] [x|e]] eqn:Em.
  - destruct (Hm _ _ _ _ _ _ Em) as [A B]. cbn in A, B. subst ws1. destruct (Hk x _ _ _ _ _ _ E) as (new & C & D & F). exists new. split; [exact C|].
    split; [eapply kb_trans; eassumption|exact F].
  - inversion E; subst. destruct (Hm _ _ _ _ _ _ Em) as [A B]. exists []. rewrite app_nil_r. split; [exact A|]. split; [exact B|]. split; [auto|discriminate].
Qed.
Lemma ow_here : forall X b (m : M wef X), silent m -> objective_warning b (when b (warn WObjectives) ;; m).
Proof.
  intros X b m Hm w ws o w' s' r E. unfold bind in E. destruct b; cbn [when] in E.
  - unfold warn in E. cbn [fst snd] in E. destruct (Hm _ _ _ _ _ _ E) as [A B]. exists [WObjectives]. split; [exact A|]. split; [exact B|]. auto.
  - unfold ret in E. destruct (Hm _ _ _ _ _ _ E) as [A B]. exists []. rewrite app_nil_r. split; [exact A|]. split; [exact B|]. split; [auto|discriminate].
Qed.
Ltac sis := repeat first [progress intros | apply si_raise | apply si_ret | apply si_bind | apply si_when | apply si_quiet; kbs
  | match goal with |- silent (match ?x with _ => _ end) => destruct x eqn:? end | match goal with |- silent (if ?x then _ else _) => destruct x eqn:? end].
Lemma max_sharpe_warns : forall sv rf w ws o w' s' r, max_sharpe_w sv rf w (ws, o) = (w', s', r) -> exists new, fst s' = ws ++ new /\ kb o (snd s') /\
  (new = [] \/ new = [WObjectives] /\ e_add o <> []) /\ (forall x, r = Ok x -> e_add o <> [] -> new = [WObjectives]).
Proof.
  intros sv rf w ws o w' s' r E.
  assert (G : exists new, fst s' = ws ++ new /\ kb o (snd s') /\
    (new = [] \/ new = [WObjectives] /\ negb (List.length (e_add o) =? 0)%nat = true) /\
    (forall x, r = Ok x -> negb (List.length (e_add o) =? 0)%nat = true -> new = [WObjectives])).
  { unfold max_sharpe_w in E. destruct rf; [| |apply (ow_raise _ _ _ _ _ _ _ _ _ E)].
    all: unfold bind at 1 in E; unfold quietly at 1, get at 1 in E; cbn [fst snd] in E;
      match type of E with ?m _ _ = _ => assert (H : objective_warning (negb (List.length (e_add o) =? 0)%nat) m) end; [|exact (H _ _ _ _ _ _ E)].
    all: destruct (e_mu o) as [mu|]; [|apply ow_raise]; destruct (list_max mu); [|apply ow_raise];
      match goal with |- objective_warning _ (if ?c then _ else _) => destruct c; [apply ow_raise|] end.
    all: do 3 (apply ow_l; [apply si_quiet; kbs|intros ?]); apply ow_here; sis. }
  destruct G as (new & A & B & C & D). exists new. split; [exact A|]. split; [exact B|].
  assert (N : negb (List.length (e_add o) =? 0)%nat = true <-> e_add o <> []) by (destruct (e_add o); cbn; split; congruence).
  rewrite N in C. split; [exact C|]. intros x Hx Ho. apply (D x Hx). apply N. exact Ho.
Qed.
