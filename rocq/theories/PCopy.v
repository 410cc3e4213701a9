(** * C40: copies are independent, except for the values of variables *)
From Coq Require Import ZArith String List Bool Reals Lra Lia.
From Verif Require Import Num Py PyLemmas MBase MConvex MEF MDown MCopy SConvex SDown SCopy PEF2.
Import ListNotations.
Local Open Scope nat_scope.

Lemma replace_list_set : forall {X} i (v : X) l, list_set i v l = put_at i v l.
Proof. intros X i v l. revert i. induction l as [|x l IH]; intros [|i]; cbn; [reflexivity..|]. rewrite IH. reflexivity. Qed.
Lemma replace_length : forall {X} i (v : X) l, length (put_at i v l) = length l.
Proof. intros X i v l. revert i. induction l as [|x l IH]; intros [|i]; cbn; auto. Qed.
Lemma nth_error_replace : forall {X} i j (v : X) l, i < length l ->
  nth_error (put_at i v l) j = if Nat.eq_dec j i then Some v else nth_error l j.
Proof.
  intros X i j v l. revert i j. induction l as [|x l IH]; intros i j H; [cbn in H; lia|].
  destruct i as [|i], j as [|j]; cbn [put_at nth_error].
  - reflexivity.
  - reflexivity.
  - reflexivity.
  - rewrite IH by (cbn in H; lia). destruct (Nat.eq_dec j i), (Nat.eq_dec (S j) (S i)); try lia; reflexivity.
Qed.
Lemma map_replace : forall {X Y} (f : X -> Y) i v l, map f (put_at i v l) = put_at i (f v) (map f l).
Proof. intros X Y f i v l. revert i. induction l as [|x l IH]; intros [|i]; cbn; [reflexivity..|]. rewrite IH. reflexivity. Qed.
Lemma replace_same : forall {X} i (v : X) l, nth_error l i = Some v -> put_at i v l = l.
Proof. intros X i v l. revert i. induction l as [|x l IH]; intros [|i] H; cbn in *; try discriminate; [congruence|]. rewrite IH by exact H. reflexivity. Qed.
Lemma nth_replace : forall {X} (d : X) i j v l, nth j (put_at i v l) d = if Nat.eq_dec j i then if lt_dec i (length l) then v else d else nth j l d.
Proof.
  intros X d i j v l. revert i j. induction l as [|x l IH]; intros i j; cbn [put_at].
  - cbn [length]. destruct (lt_dec i 0); [lia|]. destruct i, (Nat.eq_dec j _), j; reflexivity.
  - destruct i as [|i], j as [|j]; cbn [put_at nth length].
    + destruct (lt_dec 0 (S (length l))); [reflexivity|lia].
    + reflexivity.
    + reflexivity.
    + rewrite IH. destruct (Nat.eq_dec j i), (Nat.eq_dec (S j) (S i)); try lia; try reflexivity.
    destruct (lt_dec i (length l)), (lt_dec (S i) (S (length l))); try lia; reflexivity.
Qed.
Lemma nth_snoc : forall {X} (d : X) i (l : list X) v, nth i (l ++ [v]) d = if Nat.eq_dec i (length l) then v else nth i l d.
Proof.
  intros X d i l v. destruct (Nat.eq_dec i (length l)) as [->|Hn].
  - rewrite app_nth2 by lia. rewrite Nat.sub_diag. reflexivity.
  - destruct (lt_dec i (length l)); [apply app_nth1; assumption|]. rewrite app_nth2 by lia. rewrite (nth_overflow l) by lia.
    destruct (i - length l) as [|[|k]] eqn:E; [lia| |]; reflexivity.
Qed.
Lemma NoDup_snoc : forall (l : list nat) v, NoDup l -> ~ In v l -> NoDup (l ++ [v]).
Proof. intros l v H Hn. apply NoDup_rev in H. rewrite <- (rev_involutive (l ++ [v])). apply NoDup_rev. rewrite rev_app_distr. cbn. constructor; [rewrite <- in_rev; exact Hn|exact H]. Qed.
Lemma NoDup_replace : forall l i (v : nat), NoDup l -> ~ In v l -> NoDup (put_at i v l).
Proof.
  induction l as [|x l IH]; intros i v H Hn; cbn; [constructor|]. inversion H; subst. destruct i as [|i].
  - constructor; [intros Hi; apply Hn; right; exact Hi|assumption].
  - constructor; [|apply IH; [assumption|intros Hi; apply Hn; right; exact Hi]].
    intros Hi. assert (Hx : In x l \/ x = v).
    { clear -Hi. revert i Hi. induction l as [|y l IH]; intros [|i] Hi; cbn in *; auto; destruct Hi as [Hi|Hi]; auto. destruct (IH _ Hi); auto. }
    destruct Hx as [Hx|Hx]; [contradiction|]. apply Hn. left. exact Hx.
Qed.

Lemma nth_error_ext' : forall {X} (a b : list X), (forall j, nth_error a j = nth_error b j) -> a = b.
Proof.
  induction a as [|x a IH]; intros [|y b] H; [reflexivity|specialize (H 0); discriminate H|specialize (H 0); discriminate H|].
  f_equal; [specialize (H 0); cbn in H; congruence|]. apply IH. intros j. exact (H (S j)).
Qed.

Lemma load_ext : forall h h' x, nth (r_add x) (h_adds h') [] = nth (r_add x) (h_adds h) [] ->
  nth (r_cons x) (h_conss h') [] = nth (r_cons x) (h_conss h) [] -> load h' x = load h x.
Proof. intros h h' x H1 H2. unfold load. rewrite H1, H2. reflexivity. Qed.
Lemma set_back : forall o, set_cons (e_cons o) (set_add (e_add o) o) = o.
Proof. intros []. reflexivity. Qed.

Lemma nodup_ne : forall (f : obj -> nat) xs i j x y, NoDup (map f xs) -> nth_error xs i = Some x -> nth_error xs j = Some y -> i <> j -> f x <> f y.
Proof.
  intros f xs i j x y Hd Hi Hj Hn He. apply Hn. apply (NoDup_nth_error (map f xs)); [exact Hd| |].
  - rewrite map_length. apply nth_error_Some. congruence.
  - rewrite !nth_error_map, Hi, Hj. cbn. congruence.
Qed.

(** one step keeps everybody's lists apart and changes exactly what the step says *)
Lemma step_values : forall a w h xs w' h' xs' r, own_lists h xs -> step a w h xs = (w', h', xs', r) ->
  own_lists h' xs' /\
  values [a] w (map (load h) xs) = (w', map (load h') xs', [r]).
Proof.
  intros a w h xs w' h' xs' r [D1 [D2 HB]] H. destruct a as [i|i m b]; cbn [step values] in *; rewrite nth_error_map; destruct (nth_error xs i) as [x|] eqn:E; cbn [option_map].
  2, 4: inversion H; subst; split; [split; [assumption|split; assumption]|reflexivity].
  - cbn in H. inversion H; subst w' h' xs' r; clear H.
    assert (HA : forall y, In y xs -> r_add y < length (h_adds h) /\ r_cons y < length (h_conss h)) by (apply Forall_forall; exact HB).
    split.
    + split; [|split].
      * rewrite map_app. cbn. apply NoDup_snoc; [exact D1|]. intros Hi. apply in_map_iff in Hi. destruct Hi as [y [Hy Hi]].
        destruct (HA y Hi). lia.
      * rewrite map_app. cbn. apply NoDup_snoc; [exact D2|]. intros Hi. apply in_map_iff in Hi. destruct Hi as [y [Hy Hi]].
        destruct (HA y Hi). lia.
      * cbn. rewrite !app_length. cbn. apply Forall_app. split; [|constructor; [cbn; lia|constructor]].
        eapply Forall_impl; [|exact HB]. cbn. intros y Hy. lia.
    + rewrite map_app. cbn [map]. f_equal. f_equal. f_equal.
      * apply map_ext_in. intros y Hy. destruct (HA y Hy). symmetry. apply load_ext; cbn; rewrite nth_snoc; destruct (Nat.eq_dec _ _); try lia; reflexivity.
      * f_equal. unfold load. cbn. rewrite !nth_snoc. destruct (Nat.eq_dec (length (h_adds h)) (length (h_adds h))); [|lia].
        destruct (Nat.eq_dec (length (h_conss h)) (length (h_conss h))); [|lia]. reflexivity.
  - destruct (m w (load h x)) as [[w1 o] rr]. assert (Hi : i < length xs) by (apply nth_error_Some; congruence).
    assert (HA : forall j y, nth_error xs j = Some y -> r_add y < length (h_adds h) /\ r_cons y < length (h_conss h)).
    { intros j y Hy. apply nth_error_In in Hy. revert y Hy. apply Forall_forall. exact HB. }
    destruct (HA i x E) as [A1 A2]. unfold store in H. destruct b.
    + inversion H; subst w' h' xs' r; clear H. rewrite !replace_list_set. split.
      * split; [|split].
        -- rewrite map_replace. cbn [r_add]. rewrite replace_same; [exact D1|]. rewrite nth_error_map, E. reflexivity.
        -- rewrite map_replace. cbn [r_cons]. apply NoDup_replace; [exact D2|]. intros Hin. apply in_map_iff in Hin. destruct Hin as [y [Hy Hin]].
           apply In_nth_error in Hin. destruct Hin as [j Hj]. destruct (HA j y Hj). lia.
        -- apply Forall_forall. intros y Hy. apply In_nth_error in Hy. destruct Hy as [j Hj]. rewrite nth_error_replace in Hj by exact Hi.
           cbn. rewrite replace_length, app_length. cbn. destruct (Nat.eq_dec j i); [inversion Hj; subst; cbn; lia|]. destruct (HA j y Hj). lia.
      * f_equal. f_equal. apply nth_error_ext'. intros j. rewrite nth_error_replace by (rewrite map_length; exact Hi).
        rewrite !nth_error_map, nth_error_replace by exact Hi. destruct (Nat.eq_dec j i) as [->|Hn].
        -- cbn. f_equal. unfold load. cbn. rewrite nth_replace, nth_snoc. destruct (Nat.eq_dec _ _); [|lia]. destruct (lt_dec _ _); [|lia].
           destruct (Nat.eq_dec _ _); [|lia]. rewrite set_back. reflexivity.
        -- destruct (nth_error xs j) as [y|] eqn:Ej; [|reflexivity]. cbn. f_equal. destruct (HA j y Ej).
           pose proof (nodup_ne r_add xs i j x y D1 E Ej ltac:(congruence)).
           symmetry. apply load_ext; cbn; [rewrite nth_replace|rewrite nth_snoc]; destruct (Nat.eq_dec _ _); try lia; reflexivity.
    + inversion H; subst w' h' xs' r; clear H. rewrite !replace_list_set. split.
      * split; [|split].
        -- rewrite map_replace. cbn [r_add]. rewrite replace_same; [exact D1|]. rewrite nth_error_map, E. reflexivity.
        -- rewrite map_replace. cbn [r_cons]. rewrite replace_same; [exact D2|]. rewrite nth_error_map, E. reflexivity.
        -- apply Forall_forall. intros y Hy. apply In_nth_error in Hy. destruct Hy as [j Hj]. rewrite nth_error_replace in Hj by exact Hi.
           cbn. rewrite !replace_length. destruct (Nat.eq_dec j i); [inversion Hj; subst; cbn; lia|]. destruct (HA j y Hj). lia.
      * f_equal. f_equal. apply nth_error_ext'. intros j. rewrite nth_error_replace by (rewrite map_length; exact Hi).
        rewrite !nth_error_map, nth_error_replace by exact Hi. destruct (Nat.eq_dec j i) as [->|Hn].
        -- cbn. f_equal. unfold load. cbn. rewrite !nth_replace. destruct (Nat.eq_dec (r_add x) _); [|lia]. destruct (lt_dec (r_add x) _); [|lia].
           destruct (Nat.eq_dec _ _); [|lia]. destruct (lt_dec _ _); [|lia]. rewrite set_back. reflexivity.
        -- destruct (nth_error xs j) as [y|] eqn:Ej; [|reflexivity]. cbn. f_equal. destruct (HA j y Ej).
           pose proof (nodup_ne r_add xs i j x y D1 E Ej ltac:(congruence)). pose proof (nodup_ne r_cons xs i j x y D2 E Ej ltac:(congruence)).
           symmetry. apply load_ext; cbn; rewrite nth_replace; destruct (Nat.eq_dec _ _); try lia; reflexivity.
Qed.

Lemma values_cons : forall a l w os w' os' rs, values (a :: l) w os = (w', os', rs) <->
  exists w1 os1 r rs', values [a] w os = (w1, os1, [r]) /\ values l w1 os1 = (w', os', rs') /\ rs = r :: rs'.
Proof.
  intros a l w os w' os' rs. destruct a as [i|i m b]; cbn [values]; destruct (nth_error os i) as [o|].
  - destruct (values l w (os ++ [o])) as [[w2 os2] rs2] eqn:E. split.
    + intros H. inversion H; subst. repeat eexists. exact E.
    + intros [w1 [os1 [r [rs' [H1 [H2 H3]]]]]]. inversion H1; subst. rewrite E in H2. inversion H2; subst. reflexivity.
  - destruct (values l w os) as [[w2 os2] rs2] eqn:E. split.
    + intros H. inversion H; subst. repeat eexists. exact E.
    + intros [w1 [os1 [r [rs' [H1 [H2 H3]]]]]]. inversion H1; subst. rewrite E in H2. inversion H2; subst. reflexivity.
  - destruct (m w o) as [[w1 o'] r]. destruct (values l w1 (put_at i o' os)) as [[w2 os2] rs2] eqn:E. split.
    + intros H. inversion H; subst. repeat eexists. exact E.
    + intros [w3 [os1 [r3 [rs' [H1 [H2 H3]]]]]]. inversion H1; subst. rewrite E in H2. inversion H2; subst. reflexivity.
  - destruct (values l w os) as [[w2 os2] rs2] eqn:E. split.
    + intros H. inversion H; subst. repeat eexists. exact E.
    + intros [w1 [os1 [r [rs' [H1 [H2 H3]]]]]]. inversion H1; subst. rewrite E in H2. inversion H2; subst. reflexivity.
Qed.

Theorem copies_are_values : forall l w h xs w' h' xs' rs, own_lists h xs -> steps l w h xs = (w', h', xs', rs) ->
  own_lists h' xs' /\ values l w (map (load h) xs) = (w', map (load h') xs', rs).
Proof.
  induction l as [|a l IH]; intros w h xs w' h' xs' rs HO H.
  - cbn in *. inversion H; subst. split; [exact HO|reflexivity].
  - cbn [steps] in H. destruct (step a w h xs) as [[[w1 h1] xs1] r] eqn:E. destruct (steps l w1 h1 xs1) as [[[w2 h2] xs2] rs2] eqn:E2.
    inversion H; subst w' h' xs' rs; clear H. destruct (step_values _ _ _ _ _ _ _ _ HO E) as [HO1 HV].
    destruct (IH _ _ _ _ _ _ _ HO1 E2) as [HO2 HV2]. split; [exact HO2|]. apply values_cons. repeat eexists; eassumption.
Qed.

Lemma values_spares : forall l w os w' os' rs i o, spares i l -> nth_error os i = Some o -> values l w os = (w', os', rs) -> nth_error os' i = Some o.
Proof.
  induction l as [|a l IH]; intros w os w' os' rs i o Hs Ho H.
  - cbn in H. inversion H; subst. exact Ho.
  - apply values_cons in H. destruct H as [w1 [os1 [r [rs' [H1 [H2 H3]]]]]]. inversion Hs; subst. eapply (IH _ _ _ _ _ _ _ H5); [|exact H2].
    assert (Hi : i < length os) by (apply nth_error_Some; congruence).
    destruct a as [j|j m b]; cbn in H1; destruct (nth_error os j) as [o1|] eqn:Ej.
    + inversion H1; subst. rewrite nth_error_app1 by exact Hi. exact Ho.
    + inversion H1; subst. exact Ho.
    + destruct (m w o1) as [[w3 o3] r3]. inversion H1; subst. assert (Hj : j < length os) by (apply nth_error_Some; congruence).
      rewrite nth_error_replace by exact Hj. destruct (Nat.eq_dec i j); [congruence|exact Ho].
    + inversion H1; subst. exact Ho.
Qed.

Lemma grows_refl : forall w, grows w w.
Proof. intros w. split; [exists []; rewrite app_nil_r; reflexivity|lia]. Qed.
Lemma grows_trans : forall a b c, grows a b -> grows b c -> grows a c.
Proof. intros a b c [[x Hx] H1] [[y Hy] H2]. split; [exists (x ++ y); rewrite Hy, Hx, app_assoc; reflexivity|lia]. Qed.

Lemma values_grow : forall l w os w' os' rs, all_growing l -> values l w os = (w', os', rs) -> grows w w'.
Proof.
  induction l as [|a l IH]; intros w os w' os' rs Hg H.
  - cbn in H. inversion H; subst. apply grows_refl.
  - apply values_cons in H. destruct H as [w1 [os1 [r [rs' [H1 [H2 H3]]]]]]. inversion Hg; subst. eapply grows_trans; [|eapply IH; eassumption].
    destruct a as [j|j m b]; cbn in H1; destruct (nth_error os j) as [o1|] eqn:Ej; try (inversion H1; subst; apply grows_refl).
    destruct (m w o1) as [[w3 o3] r3] eqn:Em. inversion H1; subst. eapply H4. exact Em.
Qed.

Lemma nth_error_grown : forall w w' i n, grows w w' -> nth_error (w_sizes w) i = Some n -> nth_error (w_sizes w') i = Some n.
Proof. intros w w' i n [[a Ha] _] H. rewrite Ha. rewrite nth_error_app1; [exact H|]. apply nth_error_Some. congruence. Qed.
Lemma open_grown : forall w w' o u, grows w w' -> open_ef w o u -> open_ef w' o u.
Proof.
  intros w w' o u Hg [H1 [H2 [H3 [H4 [H5 [H6 [H7 [H8 [H9 H10]]]]]]]]]. destruct Hg as [Ha Hp]. repeat split; try assumption; try apply H6.
  - eapply nth_error_grown; [split; eassumption|exact H5].
  - eapply Forall_impl; [|exact H9]. intros e. apply Forall_impl. intros; lia.
  - eapply Forall_impl; [|exact H10]. intros e. apply Forall_impl. intros; lia.
Qed.
Lemma cvar_ready_grown : forall w w' o u d, grows w w' -> cvar_ready w o u d -> cvar_ready w' o u d.
Proof.
  intros w w' o u d Hg [H1 [H2 [H3 [H4 H5]]]]. split; [exact H1|]. split; [exact H2|].
  split; [eapply nth_error_grown; eassumption|]. split; [eapply nth_error_grown; eassumption|exact H5].
Qed.

(** ** Every method only adds variables and parameters *)
Definition wgrow {X} (m : M ef X) : Prop := forall w o w' o' r, m w o = (w', o', r) -> grows w w'.
Lemma g_ret : forall {X} (x : X), wgrow (ret x). Proof. intros X x w o w' o' r H. inversion H; subst. apply grows_refl. Qed.
Lemma g_raise : forall {X} e, wgrow (raise (X := X) e). Proof. intros X e w o w' o' r H. inversion H; subst. apply grows_refl. Qed.
Lemma g_bind : forall {X Y} (m : M ef X) (k : X -> M ef Y), wgrow m -> (forall x, wgrow (k x)) -> wgrow (bind m k).
Proof.
  intros X Y m k Hm Hk w o w' o' r H. unfold bind in H. destruct (m w o) as [[w1 o1] [x|e]] eqn:E.
  - eapply grows_trans; [eapply Hm; exact E|eapply Hk; exact H].
  - inversion H; subst. eapply Hm; exact E.
Qed.
Lemma g_get : wgrow get. Proof. intros w o w' o' r H. inversion H; subst. apply grows_refl. Qed.
Lemma g_world_get : wgrow world_get. Proof. intros w o w' o' r H. inversion H; subst. apply grows_refl. Qed.
Lemma g_lift : forall {X} (x : res X), wgrow (lift_res x). Proof. intros X x w o w' o' r H. inversion H; subst. apply grows_refl. Qed.
Lemma g_when : forall b m, wgrow m -> wgrow (when b m). Proof. intros [] m H; [exact H|apply g_ret]. Qed.
Lemma g_new_id : wgrow new_id. Proof. intros w o w' o' r H. inversion H; subst. split; [exists []; cbn; rewrite app_nil_r; reflexivity|cbn; lia]. Qed.
Lemma g_new_var : forall n, wgrow (new_var n). Proof. intros n w o w' o' r H. inversion H; subst. split; [exists [n]; reflexivity|cbn; lia]. Qed.
Lemma g_new_param : forall a b c, wgrow (new_param a b c).
Proof.
  intros a b c w o w' o' r H. unfold new_param in H. destruct (b && Rltb c 0); inversion H; subst; [apply grows_refl|].
  split; [exists []; cbn; rewrite app_nil_r; reflexivity|cbn; rewrite app_length; lia].
Qed.
Lemma g_set_param : forall a b, wgrow (set_param a b).
Proof.
  intros a b w o w' o' r H. unfold set_param in H. destruct (nth_error _ _) as [q|]; [destruct (p_nonneg q && Rltb b 0)|];
    inversion H; subst; try apply grows_refl. split; [exists []; cbn; rewrite app_nil_r; reflexivity|]. cbn. rewrite replace_list_set, replace_length. lia.
Qed.
Lemma g_forM : forall {X} (l : list X) f, (forall x, wgrow (f x)) -> wgrow (forM l f).
Proof. induction l as [|x l IH]; intros f Hf; cbn [forM]; [apply g_ret|]. apply g_bind; auto. Qed.
Lemma g_on_copy : forall {X} (m : M ef X), wgrow m -> wgrow (on_copy m).
Proof. intros X m Hm w o w' o' r H. unfold on_copy in H. destruct (m w (deepcopy o)) as [[? ?] ?] eqn:E. inversion H; subst. eapply Hm. exact E. Qed.
Lemma g_modify : forall f, wgrow (modify f). Proof. intros f w o w' o' r H. inversion H; subst. apply grows_refl. Qed.
Lemma g_store : forall p f, wgrow (fun w o => (store_vals p (f w) w, o, Ok tt)).
Proof. intros p f w o w' o' r H. inversion H; subst. split; [exists []; cbn; rewrite app_nil_r; reflexivity|cbn; lia]. Qed.
Ltac g_step := first [ apply g_bind | apply g_ret | apply g_raise | apply g_get | apply g_world_get | apply g_lift | apply g_when
   | apply g_new_id | apply g_new_var | apply g_new_param | apply g_set_param | apply g_forM | apply g_on_copy | apply g_modify
   | apply (g_store _ (fun _ => _)) ].
Ltac g_go leaf := repeat first
  [ progress intros | leaf | g_step
  | match goal with |- wgrow (match ?x with _ => _ end) => destruct x eqn:? end
  | match goal with |- wgrow (if ?x then _ else _) => destruct x eqn:? end
  | match goal with |- wgrow ?m => let h := head_of m in unfold h end ].
Lemma g_transform : forall k cs, wgrow (transform_all k cs).
Proof. induction cs as [|[i c] cs IH]; cbn [transform_all]; g_go ltac:(exact IH). Qed.
Theorem run_grows : forall sv ns pinv c, growing (run sv ns pinv c).
Proof.
  intros sv ns pinv c. change (wgrow (run sv ns pinv c)). destruct c; cbn [run].
  4: { intros w o w' o' r H. destruct (set_weights (e_base o) d) as [b x]. inversion H; subst. apply grows_refl. }
  all: g_go ltac:(apply g_transform).
Qed.
Lemma drop_grows : forall X (m : M ef X), wgrow m -> growing (drop m).
Proof. intros X m H. change (wgrow (drop m)). unfold drop. apply g_bind; [exact H|intros; apply g_ret]. Qed.
Theorem down_grows : forall sv, 
  (forall d mn, growing (drop (min_semivariance sv d mn))) /\
  (forall d x mn, growing (drop (semi_max_quadratic_utility sv d x mn)) /\ growing (drop (semi_efficient_risk sv d x mn))) /\
  (forall d x mn, growing (drop (semi_efficient_return sv d x mn))) /\
  (forall d mn, growing (drop (min_cvar sv d mn))) /\
  (forall d x mn, growing (drop (cvar_efficient_return sv d x mn)) /\ growing (drop (cvar_efficient_risk sv d x mn))) /\
  (forall d mn, growing (drop (min_cdar sv d mn))) /\
  (forall d x mn, growing (drop (cdar_efficient_return sv d x mn)) /\ growing (drop (cdar_efficient_risk sv d x mn))).
Proof.
  intros sv. split; [|split; [|split; [|split; [|split; [|split]]]]]; intros;
    try match goal with |- _ /\ _ => split end; apply drop_grows; g_go fail.
Qed.


(** ** The original after any program that does not call its methods *)
Theorem original_untouched : forall l w h xs w' h' xs' rs i x, own_lists h xs -> spares i l -> nth_error xs i = Some x ->
  steps l w h xs = (w', h', xs', rs) ->
  exists x', nth_error xs' i = Some x' /\ load h' x' = load h x.
Proof.
  intros l w h xs w' h' xs' rs i x HO Hs Hx H. destruct (copies_are_values _ _ _ _ _ _ _ _ HO H) as [_ HV].
  pose proof (values_spares l w (map (load h) xs) w' (map (load h') xs') rs i (load h x) Hs) as HP.
  rewrite !nth_error_map, Hx in HP. specialize (HP eq_refl HV). destruct (nth_error xs' i) as [x'|]; [|discriminate HP].
  exists x'. split; [reflexivity|]. cbn in HP. congruence.
Qed.
Theorem original_open : forall l w h xs w' h' xs' rs i x u, own_lists h xs -> spares i l -> all_growing l -> nth_error xs i = Some x ->
  steps l w h xs = (w', h', xs', rs) -> open_ef w (load h x) u ->
  exists x', nth_error xs' i = Some x' /\ load h' x' = load h x /\ open_ef w' (load h' x') u.
Proof.
  intros l w h xs w' h' xs' rs i x u HO Hs Hg Hx H Hop. destruct (original_untouched _ _ _ _ _ _ _ _ _ _ HO Hs Hx H) as [x' [E1 E2]].
  exists x'. split; [exact E1|]. split; [exact E2|]. rewrite E2. eapply open_grown; [|exact Hop].
  destruct (copies_are_values _ _ _ _ _ _ _ _ HO H) as [_ HV]. eapply values_grow; eassumption.
Qed.
