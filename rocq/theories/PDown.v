(** * Optimisation with auxiliary variables: the general argument *)
From Coq Require Import ZArith List String Bool Reals Lra Lia.
From Verif Require Import Num Py RBase PyLemmas MBase MConvex MEF MDown SLin SBase SConvex SDown Sums PBase PConvex PEF PEF2 PEF3 PEF4 PRisk.
Import ListNotations.
Local Open Scope R_scope.

Lemma solve_output_vals : forall sv w o i e w' o' d, e_opt o = None -> e_obj o = Some (i, e) ->
  solve_and_output sv w o = (w', o', Ok d) ->
  exists s v, sv (w_sizes w) (par_values w) e (map snd (e_cons o)) = AOptimal s v /\
    e_weights o' = Some (map round16 (s (e_w o))) /\
    d = make_output_of (e_base o) (map round16 (s (e_w o))) /\ e_mu o' = e_mu o /\
    forall x, In x (evars e ++ flat_map cvars (map snd (e_cons o))) -> w_val w' x = Some (s x).
Proof.
  intros sv w o i e w' o' d Ho He H. unfold solve_and_output, bind at 1, solve_opt in H.
  unfold bind at 1, get in H. rewrite He, Ho in H. unfold bind, modify, ret, world_get in H. cbn [snd p_obj p_cons] in H.
  destruct (sv (w_sizes w) (par_values w) e (map snd (e_cons o))) as [s v|upd|x]; [|discriminate H|destruct x; discriminate H].
  exists s, v. split; [reflexivity|]. unfold output, bind, get, lift_res in H. inversion H; subst; clear H.
  split; [reflexivity|]. split; [reflexivity|]. split; [reflexivity|]. intros x Hx.
  unfold store_vals, prob_vars. cbn [w_val p_obj p_cons snd].
  assert (E : existsb (Nat.eqb x) (evars e ++ flat_map (fun c => cvars (snd c)) (e_cons o)) = true).
  { apply existsb_exists. exists x. split; [|apply Nat.eqb_refl]. rewrite flat_map_concat_map in *. rewrite map_map in Hx. exact Hx. }
  rewrite E. reflexivity.
Qed.

Lemma well_sized_app : forall a b s, well_sized (a ++ b) s -> well_sized a s.
Proof.
  intros a b s H v Hv. rewrite H by (rewrite app_length; lia). apply app_nth1. exact Hv.
Qed.
Lemma penalty_agree : forall s s' ps l, (forall v, In v (flat_map evars l) -> s v = s' v) -> penalty s ps l = penalty s' ps l.
Proof.
  intros s s' ps l H. unfold penalty. f_equal. apply map_ext_in. intros e He. unfold evals.
  rewrite (eval_agree s s'); [reflexivity|]. intros v Hv. apply H. apply in_flat_map. exists e. split; assumption.
Qed.

Section Aux.
  Context (sv : solver_t) (mn : bool) (w w1 : world) (o o1 : ef) (u X : list (nat * con)) (i0 j0 io : nat) (e : expr)
    (ok : list R -> Prop) (cost : list R -> R) (aux : env -> R) (pe : list R) (more : list nat).
  Context (Hsv : exact_solver sv) (Hop : open_ef w o u).
  Context (Ho1 : e_opt o1 = None) (He1 : e_obj o1 = Some (io, e)) (Hw1 : e_w o1 = e_w o) (Hb1 : e_base o1 = e_base o)
    (Hl1 : e_lb o1 = e_lb o) (Hu1 : e_ub o1 = e_ub o).
  Context (Hc1 : e_cons o1 = (i0, lower_con (e_lb o) (e_w o)) :: (j0, upper_con (e_ub o) (e_w o)) :: u ++ X).
  Context (Hs1 : w_sizes w1 = w_sizes w ++ more) (Hp1 : par_values w1 = par_values w ++ pe).
  Context (Hobj : forall s, well_sized (w_sizes w1) s ->
     evals s (par_values w1) e = aux s + penalty s (par_values w) (e_add o)).
  Let sum := if mn then 0 else 1.
  Context (Hsound : forall s, well_sized (w_sizes w1) s -> total (s (e_w o)) = sum ->
     Forall (fun ic => sat s (par_values w1) (snd ic)) X -> ok (s (e_w o)) /\ cost (s (e_w o)) <= aux s).
  Context (Hcompl : forall s, well_sized (w_sizes w) s -> total (s (e_w o)) = sum -> ok (s (e_w o)) ->
     exists s', well_sized (w_sizes w1) s' /\ (forall v, uses o u v -> s' v = s v) /\
       Forall (fun ic => sat s' (par_values w1) (snd ic)) X /\ aux s' <= cost (s (e_w o))).

  Lemma weight_sum_aux : forall w' o' d,
    bind (make_weight_sum_constraint mn) (fun _ => solve_and_output sv) w1 o1 = (w', o', Ok d) ->
    exists lb ub s, bounds_in_force mn o lb ub /\ best_at w o u lb ub sum ok cost (e_weights o') d s /\
      aux s = cost (s (e_w o)) /\ well_sized (w_sizes w1) s /\
      Forall (fun ic => sat s (par_values w1) (snd ic)) X /\ e_mu o' = e_mu o1 /\
      forall x, In x (flat_map cvars (map snd X)) -> w_val w' x = Some (s x).
  Proof.
    intros w' o' d H. destruct Hop as [Ho [_ [Hl [Hu [Hn [Hq [Hm [Ha [Has Hus]]]]]]]]].
    assert (En : e_n o1 = e_n o) by (unfold e_n; rewrite Hb1; reflexivity).
    destruct (weight_sum_run mn w1 o1 (u ++ X) i0 j0 Ho1) as
      [w2 [o2 [lb [ub [E [Es [Ep [Hsame [Hmn [Elb [Eub [Hbf [Hll [Hlu Hall]]]]]]]]]]]]]];
      [rewrite Hc1, Hl1, Hu1, Hw1; reflexivity|rewrite Hl1, En; exact Hl|rewrite Hu1, En; exact Hu|].
    unfold bind in H. rewrite E in H. destruct Hsame as [S1 [S2 [S3 [S4 [S5 [S6 [S7 [S8 S9]]]]]]]].
    assert (Epv : par_values w2 = par_values w ++ pe) by (unfold par_values at 1; rewrite Ep; exact Hp1).
    destruct (solve_output_vals sv w2 o2 io e w' o' d) as [s [v [V1 [V2 [V3 [V4 V5]]]]]]; [congruence|congruence|exact H|].
    destruct (Hsv _ _ _ _ _ _ V1) as [[[Hs2 Hs3] Hopt] _].
    exists lb, ub, s. rewrite En in Hll, Hlu. rewrite Hw1 in Hall.
    assert (Hbf' : bounds_in_force mn o lb ub).
    { unfold bounds_in_force in *. rewrite Hl1, Hu1, En in Hbf. exact Hbf. }
    split; [exact Hbf'|].
    assert (Hcons : forall s, well_sized (w_sizes w1) s ->
      (Forall (sat s (par_values w2)) (map snd (e_cons o2)) <->
       admissible w o u lb ub sum s /\ Forall (fun ic => sat s (par_values w1) (snd ic)) X)).
    { intros t Ht. rewrite Hall, Forall_app, Epv. pose proof Ht as Ht'. rewrite Hs1 in Ht'. apply well_sized_app in Ht'.
      rewrite (admissible_iff w o u lb ub sum t Hll Hlu Hn Ht').
      assert (Hsc : forall c, scoped_con (List.length (w_params w)) c -> (sat t (par_values w ++ pe) c <-> sat t (par_values w) c)).
      { intros c Hc. apply sat_scope. unfold par_values. rewrite map_length. exact Hc. }
      rewrite (Hsc (lower_con lb (e_w o))) by constructor. rewrite (Hsc (upper_con ub (e_w o))) by constructor.
      rewrite (Hsc (CEq _ _)) by constructor. rewrite <- Hp1.
      assert (Hiff : Forall (fun ic => sat t (par_values w1) (snd ic)) u <-> Forall (fun ic => sat t (par_values w) (snd ic)) u).
      { rewrite !Forall_forall. rewrite Forall_forall in Hus. split; intros G ic Hin; specialize (G ic Hin); specialize (Hus ic Hin);
          rewrite Hp1 in *; apply Hsc in Hus; apply Hus; exact G. }
      unfold sum in *. tauto. }
    rewrite Es in Hs2. destruct (proj1 (Hcons s Hs2) Hs3) as [Hadm HX].
    assert (Htot : total (s (e_w o)) = sum) by apply Hadm.
    destruct (Hsound s Hs2 Htot HX) as [Hok Hle].
    assert (Hall' : forall s', admissible w o u lb ub sum s' -> ok (s' (e_w o)) ->
      aux s + penalty s (par_values w) (e_add o) <= cost (s' (e_w o)) + penalty s' (par_values w) (e_add o)).
    { intros s' Hadm' Hok'. destruct (Hcompl s' (proj1 Hadm') (proj1 (proj2 (proj2 Hadm'))) Hok') as [s'' [W [Hag [HX'' Hc'']]]].
      assert (Hpen : penalty s'' (par_values w) (e_add o) = penalty s' (par_values w) (e_add o)).
      { apply penalty_agree. intros x Hx. apply Hag. right. right. exact Hx. }
      assert (Hadm'' : admissible w o u lb ub sum s'').
      { destruct Hadm' as [A1 [A2 [A3 A4]]]. unfold admissible. rewrite Hag by (left; reflexivity).
        split; [rewrite Hs1 in W; apply well_sized_app in W; exact W|]. split; [exact A2|]. split; [exact A3|].
        rewrite Forall_forall in *. intros ic Hin. apply (sat_agree s''  s'); [|apply A4; exact Hin].
        intros x Hx. apply Hag. right. left. apply in_flat_map. exists ic. split; assumption. }
      assert (Hf : feasible (w_sizes w2) (par_values w2) (map snd (e_cons o2)) s'').
      { split; [rewrite Es; exact W|]. apply Hcons; [exact W|]. split; assumption. }
      specialize (Hopt s'' Hf). rewrite Epv, <- Hp1 in Hopt. rewrite !Hobj in Hopt by assumption. rewrite Hpen in Hopt. lra. }
    split.
    { exists (map round16 (s (e_w o2))). rewrite S3, Hw1 in *. split; [exact V2|]. split; [apply round16_rounded|].
      split; [rewrite V3; unfold make_output_of; rewrite S1, Hb1; reflexivity|].
      split; [exact Hadm|]. split; [exact Hok|]. intros s' Ha' Hk'. specialize (Hall' s' Ha' Hk'). lra. }
    split; [specialize (Hall' s Hadm Hok); lra|]. split; [exact Hs2|]. split; [exact HX|].
    split; [congruence|]. intros x Hx. apply V5. apply in_or_app. right.
    apply in_flat_map in Hx. destruct Hx as [c [Hc1' Hc2']]. apply in_flat_map. exists c. split; [|exact Hc2'].
    assert (Hin : Forall (fun c => In c (map snd (e_cons o2))) (map snd (e_cons o2))) by (apply Forall_forall; auto).
    apply Hall in Hin. destruct Hin as [_ [_ [_ Hin]]]. apply Forall_app in Hin. destruct Hin as [_ Hin].
    rewrite Forall_forall in Hin. apply in_map_iff in Hc1'. destruct Hc1' as [ic [<- Hic]]. apply Hin. exact Hic.
  Qed.
End Aux.

(** if there is a best portfolio, a complete solver finds one *)
Section Answers.
  Context (sv : solver_t) (mn : bool) (w w1 : world) (o o1 : ef) (u X : list (nat * con)) (i0 j0 io : nat) (e : expr)
    (ok : list R -> Prop) (cost : list R -> R) (aux : env -> R) (pe : list R) (more : list nat).
  Context (Hsv : complete_solver sv) (Hop : open_ef w o u).
  Context (Ho1 : e_opt o1 = None) (He1 : e_obj o1 = Some (io, e)) (Hw1 : e_w o1 = e_w o) (Hb1 : e_base o1 = e_base o)
    (Hl1 : e_lb o1 = e_lb o) (Hu1 : e_ub o1 = e_ub o).
  Context (Hc1 : e_cons o1 = (i0, lower_con (e_lb o) (e_w o)) :: (j0, upper_con (e_ub o) (e_w o)) :: u ++ X).
  Context (Hs1 : w_sizes w1 = w_sizes w ++ more) (Hp1 : par_values w1 = par_values w ++ pe).
  Context (Hobj : forall s, well_sized (w_sizes w1) s ->
     evals s (par_values w1) e = aux s + penalty s (par_values w) (e_add o)).
  Let sum := if mn then 0 else 1.
  Context (Hsound : forall s, well_sized (w_sizes w1) s -> total (s (e_w o)) = sum ->
     Forall (fun ic => sat s (par_values w1) (snd ic)) X -> ok (s (e_w o)) /\ cost (s (e_w o)) <= aux s).
  Context (Hcompl : forall s, well_sized (w_sizes w) s -> total (s (e_w o)) = sum -> ok (s (e_w o)) ->
     exists s', well_sized (w_sizes w1) s' /\ (forall v, uses o u v -> s' v = s v) /\
       Forall (fun ic => sat s' (par_values w1) (snd ic)) X /\ aux s' <= cost (s (e_w o))).

  Lemma weight_sum_answers : forall lb0 ub0 s0, bounds_in_force mn o lb0 ub0 -> least w o u lb0 ub0 sum ok cost s0 ->
    exists w' o' d, bind (make_weight_sum_constraint mn) (fun _ => solve_and_output sv) w1 o1 = (w', o', Ok d).
  Proof.
    intros lb0 ub0 s0 Hb0 [Hadm0 [Hok0 Hleast]]. destruct Hop as [Ho [_ [Hl [Hu [Hn [Hq [Hm [Ha [Has Hus]]]]]]]]].
    assert (En : e_n o1 = e_n o) by (unfold e_n; rewrite Hb1; reflexivity).
    destruct (weight_sum_run mn w1 o1 (u ++ X) i0 j0 Ho1) as
      [w2 [o2 [lb [ub [E [Es [Ep [Hsame [Hmn [Elb [Eub [Hbf [Hll [Hlu Hall]]]]]]]]]]]]]];
      [rewrite Hc1, Hl1, Hu1, Hw1; reflexivity|rewrite Hl1, En; exact Hl|rewrite Hu1, En; exact Hu|].
    unfold bind at 1. rewrite E. destruct Hsame as [S1 [S2 [S3 [S4 [S5 [S6 [S7 [S8 S9]]]]]]]].
    assert (Epv : par_values w2 = par_values w ++ pe) by (unfold par_values at 1; rewrite Ep; exact Hp1).
    rewrite En in Hll, Hlu. rewrite Hw1 in Hall.
    assert (Hbe : lb0 = lb /\ ub0 = ub).
    { unfold bounds_in_force in *. rewrite Hl1, Hu1, En in Hbf.
      destruct Hb0 as [[B1 [B2 [-> ->]]]|[B1 [-> ->]]], Hbf as [[C1 [C2 [-> ->]]]|[C1 [-> ->]]]; auto;
        exfalso; [destruct C1; [congruence|contradiction]|destruct B1; [congruence|contradiction]]. }
    destruct Hbe as [-> ->].
    assert (Hcons : forall s, well_sized (w_sizes w1) s ->
      (Forall (sat s (par_values w2)) (map snd (e_cons o2)) <->
       admissible w o u lb ub sum s /\ Forall (fun ic => sat s (par_values w1) (snd ic)) X)).
    { intros t Ht. rewrite Hall, Forall_app, Epv. pose proof Ht as Ht'. rewrite Hs1 in Ht'. apply well_sized_app in Ht'.
      rewrite (admissible_iff w o u lb ub sum t Hll Hlu Hn Ht').
      assert (Hsc : forall c, scoped_con (List.length (w_params w)) c -> (sat t (par_values w ++ pe) c <-> sat t (par_values w) c)).
      { intros c Hc. apply sat_scope. unfold par_values. rewrite map_length. exact Hc. }
      rewrite (Hsc (lower_con lb (e_w o))) by constructor. rewrite (Hsc (upper_con ub (e_w o))) by constructor.
      rewrite (Hsc (CEq _ _)) by constructor. rewrite <- Hp1.
      assert (Hiff : Forall (fun ic => sat t (par_values w1) (snd ic)) u <-> Forall (fun ic => sat t (par_values w) (snd ic)) u).
      { rewrite !Forall_forall. rewrite Forall_forall in Hus. split; intros G ic Hin; specialize (G ic Hin); specialize (Hus ic Hin);
          rewrite Hp1 in *; apply Hsc in Hus; apply Hus; exact G. }
      unfold sum in *. tauto. }
    destruct (Hcompl s0 (proj1 Hadm0) (proj1 (proj2 (proj2 Hadm0))) Hok0) as [s1 [W [Hag [HX1 Hc1']]]].
    assert (Hpen : penalty s1 (par_values w) (e_add o) = penalty s0 (par_values w) (e_add o)).
    { apply penalty_agree. intros x Hx. apply Hag. right. right. exact Hx. }
    assert (Hadm1 : admissible w o u lb ub sum s1).
    { destruct Hadm0 as [A1 [A2 [A3 A4]]]. unfold admissible. rewrite Hag by (left; reflexivity).
      split; [rewrite Hs1 in W; apply well_sized_app in W; exact W|]. split; [exact A2|]. split; [exact A3|].
      rewrite Forall_forall in *. intros ic Hin. apply (sat_agree s1 s0); [|apply A4; exact Hin].
      intros x Hx. apply Hag. right. left. apply in_flat_map. exists ic. split; assumption. }
    assert (Hopt : optimal (w_sizes w2) (par_values w2) e (map snd (e_cons o2)) s1).
    { split; [split; [rewrite Es; exact W|]; apply Hcons; [exact W|]; split; assumption|].
      intros s' [Hs' Hf]. rewrite Es in Hs'. apply Hcons in Hf; [|exact Hs']. destruct Hf as [Hf1 Hf2].
      destruct (Hsound s' Hs' (proj1 (proj2 (proj2 Hf1))) Hf2) as [Hk Hle]. specialize (Hleast s' Hf1 Hk).
      rewrite Epv, <- Hp1, !Hobj by assumption. lra. }
    destruct (Hsv _ _ _ _ _ Hopt) as [s' [v V]].
    destruct (solve_output_run sv w2 o2 io e (e_cons o2)) as [w' [o' [Er _]]]; [congruence|reflexivity|left; congruence|].
    rewrite V in Er. cbn [outcome] in Er. rewrite Er. eauto.
  Qed.
End Answers.
