(** * Hierarchical risk parity: the bisection loop *)
From Coq Require Import ZArith List Bool Lia Permutation Arith.
From Verif Require Import Num Py PyLemmas MFrame MHRP.
Import ListNotations.

Lemma nodup_app : forall {X} (l m : list X), NoDup (l ++ m) <-> NoDup l /\ NoDup m /\ (forall x, In x l -> ~ In x m).
Proof.
  induction l as [|x l IH]; cbn [app]; intros m.
  - split; [intros H; repeat split; [constructor|exact H|intros x []]|intros [_ [H _]]; exact H].
  - rewrite !NoDup_cons_iff, IH, in_app_iff. split.
    + intros [H1 [H2 [H3 H4]]]. repeat split; try tauto. intros y [<-|Hy]; [tauto|auto].
    + intros [[H1 H2] [H3 H4]]. repeat split; try tauto.
      * intros [H|H]; [tauto|]. exact (H4 x (or_introl eq_refl) H).
      * intros y Hy. apply H4. right; exact Hy.
Qed.

Section Loop.
  Context {A : Type} {N : Num A} (cov : frame A).
  Local Open Scope num_scope.
  Implicit Types (w : dict A) (l : list label) (cl : list (list label)).

  (** the loop's recursion, for any arithmetic *)
  Inductive cut_weights : A -> list label -> dict A -> Prop :=
  | cut_leaf : forall acc l, (List.length l <= 1)%nat -> cut_weights acc l (map (fun t => (t, acc)) l)
  | cut_node : forall acc l1 l2 a d1 d2, (1 < List.length (l1 ++ l2))%nat -> List.length l1 = (List.length (l1 ++ l2) / 2)%nat ->
      split_share cov l1 l2 = Ok a -> cut_weights (acc * a) l1 d1 -> cut_weights (acc * (n1 - a)) l2 d2 ->
      cut_weights acc (l1 ++ l2) (d1 ++ d2).

  Lemma existsb_label : forall t l, existsb (label_eqb t) l = true <-> In t l.
  Proof.
    intros t l. rewrite existsb_exists. split.
    - intros [u [H1 H2]]. destruct (label_eqb_spec t u); [subst; exact H1|discriminate].
    - intros H. exists t. split; [exact H|apply label_eqb_refl].
  Qed.
  Lemma scale_keys : forall l a w, map fst (scale_items l a w) = map fst w.
  Proof. intros. unfold scale_items. rewrite map_map. reflexivity. Qed.
  Lemma dget_scale : forall l a w t,
    dget t (scale_items l a w) = option_map (fun v => if existsb (label_eqb t) l then v * a else v) (dget t w).
  Proof.
    induction w as [|[k v] w IH]; intros t; [reflexivity|]. cbn [scale_items map fst snd dget].
    destruct (label_eqb_spec t k) as [->|_]; [reflexivity|apply IH].
  Qed.
  Lemma dget_scale_in : forall l a w t v, In t l -> dget t w = Some v -> dget t (scale_items l a w) = Some (v * a).
  Proof. intros l a w t v Hi Hv. rewrite dget_scale, Hv. cbn [option_map]. rewrite (proj2 (existsb_label t l) Hi). reflexivity. Qed.
  Lemma dget_scale_out : forall l a w t, ~ In t l -> dget t (scale_items l a w) = dget t w.
  Proof.
    intros l a w t Hi. rewrite dget_scale. destruct (dget t w) as [v|]; [|reflexivity]. cbn [option_map].
    destruct (existsb (label_eqb t) l) eqn:E; [|reflexivity]. apply existsb_label in E. contradiction.
  Qed.

  Definition left_half l : list label := firstn (List.length l / 2) l.
  Definition right_half l : list label := skipn (List.length l / 2) l.
  Lemma halves : forall l, left_half l ++ right_half l = l. Proof. intros. apply firstn_skipn. Qed.
  Lemma left_length : forall l, List.length (left_half l) = (List.length l / 2)%nat.
  Proof. intros l. unfold left_half. rewrite firstn_length. pose proof (Nat.div_le_upper_bound (List.length l) 2 (List.length l)). lia. Qed.
  Lemma right_length : forall l, List.length (right_half l) = (List.length l - List.length l / 2)%nat.
  Proof. intros l. unfold right_half. apply skipn_length. Qed.
  Lemma half_bounds : forall n, (2 <= n)%nat -> (1 <= n / 2)%nat /\ (n / 2 < n)%nat.
  Proof. intros n H. split; [apply Nat.div_le_lower_bound; lia|apply Nat.div_lt; lia]. Qed.
  Lemma bisect_cons : forall l cl, bisect (l :: cl) =
    (if (1 <? List.length l)%nat then [left_half l; right_half l] else []) ++ bisect cl.
  Proof. reflexivity. Qed.
  Lemma bisect_incl : forall cl t, In t (concat (bisect cl)) -> In t (concat cl).
  Proof.
    induction cl as [|l cl IH]; intros t; [tauto|]. rewrite bisect_cons. cbn [concat]. rewrite concat_app, !in_app_iff.
    intros [H|H]; [left|right; auto]. destruct (1 <? List.length l)%nat; [|destruct H].
    cbn [concat] in H. rewrite app_nil_r, halves in H. exact H.
  Qed.
  Lemma bisect_nodup : forall cl, NoDup (concat cl) -> NoDup (concat (bisect cl)).
  Proof.
    induction cl as [|l cl IH]; intros H; [constructor|]. cbn [concat] in H. apply nodup_app in H. destruct H as [H1 [H2 H3]].
    rewrite bisect_cons, concat_app. apply nodup_app. split; [|split; [auto|]].
    - destruct (1 <? List.length l)%nat; [|constructor]. cbn [concat]. rewrite app_nil_r, halves. exact H1.
    - intros t Ht Hb. apply bisect_incl in Hb. apply (H3 t); [|exact Hb].
      destruct (1 <? List.length l)%nat; [|destruct Ht]. cbn [concat] in Ht. rewrite app_nil_r, halves in Ht. exact Ht.
  Qed.
  Lemma bisect_in : forall cl l, In l cl -> (1 < List.length l)%nat -> In (left_half l) (bisect cl) /\ In (right_half l) (bisect cl).
  Proof.
    induction cl as [|l0 cl IH]; intros l Hin Hl; [destruct Hin|]. rewrite bisect_cons, !in_app_iff. destruct Hin as [->|Hin].
    - apply Nat.ltb_lt in Hl. rewrite Hl. cbn [In]. auto.
    - destruct (IH l Hin Hl). auto.
  Qed.
  Lemma bisect_from : forall cl m, In m (bisect cl) -> exists l, In l cl /\ (1 < List.length l)%nat /\ (m = left_half l \/ m = right_half l).
  Proof.
    induction cl as [|l0 cl IH]; intros m Hin; [destruct Hin|]. rewrite bisect_cons, in_app_iff in Hin. destruct Hin as [Hin|Hin].
    - destruct (Nat.ltb_spec 1 (List.length l0)) as [Hl|_]; [|destruct Hin]. exists l0. cbn [In] in Hin. destruct Hin as [<-|[<-|[]]]; cbn [In]; auto.
    - destruct (IH m Hin) as [l [H1 H2]]. exists l. cbn [In]. auto.
  Qed.

  Lemma pair_steps_two : forall f s rest w w', pair_steps cov (f :: s :: rest) w = Ok w' ->
    exists a, split_share cov f s = Ok a /\ pair_steps cov rest (scale_items s (n1 - a) (scale_items f a w)) = Ok w'.
  Proof.
    intros f s rest w w' H. cbn [pair_steps] in H. destruct (split_share cov f s) as [a|e]; [|discriminate H]. exists a. auto.
  Qed.

  Lemma pair_steps_keys : forall cl w w', pair_steps cov (bisect cl) w = Ok w' -> map fst w' = map fst w.
  Proof.
    induction cl as [|l cl IH]; intros w w' H; [inversion H; reflexivity|]. rewrite bisect_cons in H.
    destruct (1 <? List.length l)%nat; cbn [app] in H; [|auto].
    apply pair_steps_two in H. destruct H as [a [_ H]]. apply IH in H. rewrite !scale_keys in H. exact H.
  Qed.
  Lemma pair_steps_out : forall cl w w', pair_steps cov (bisect cl) w = Ok w' ->
    forall t, ~ In t (concat (bisect cl)) -> dget t w' = dget t w.
  Proof.
    induction cl as [|l cl IH]; intros w w' H t Ht; [inversion H; reflexivity|]. rewrite bisect_cons in H, Ht.
    rewrite concat_app, in_app_iff in Ht.
    destruct (1 <? List.length l)%nat; cbn [app] in H; [|auto].
    apply pair_steps_two in H. destruct H as [a [_ H]]. rewrite (IH _ _ H) by tauto. cbn [concat] in Ht. rewrite app_nil_r, in_app_iff in Ht.
    rewrite !dget_scale_out by tauto. reflexivity.
  Qed.
  Lemma pair_steps_in : forall cl w w', pair_steps cov (bisect cl) w = Ok w' -> NoDup (concat cl) ->
    forall l acc, In l cl -> (1 < List.length l)%nat -> (forall t, In t l -> dget t w = Some acc) ->
    exists a, split_share cov (left_half l) (right_half l) = Ok a /\
      (forall t, In t (left_half l) -> dget t w' = Some (acc * a)) /\
      (forall t, In t (right_half l) -> dget t w' = Some (acc * (n1 - a))).
  Proof.
    induction cl as [|l0 cl IH]; intros w w' H Hnd l acc Hin Hl Hacc; [destruct Hin|].
    pose proof Hnd as Hnd'. cbn [concat] in Hnd. apply nodup_app in Hnd. destruct Hnd as [H0 [H1 H2]]. rewrite bisect_cons in H.
    destruct Hin as [->|Hin].
    - rewrite (proj2 (Nat.ltb_lt _ _) Hl) in H. cbn [app] in H. apply pair_steps_two in H. destruct H as [a [Ha H]].
      exists a. split; [exact Ha|].
      pose proof H0 as Hd. rewrite <- (halves l) in Hd. apply nodup_app in Hd. destruct Hd as [_ [_ Hd]].
      assert (Hout : forall t, In t l -> ~ In t (concat (bisect cl))) by (intros t Ht Hb; apply bisect_incl in Hb; exact (H2 t Ht Hb)).
      assert (Hsub : forall t, In t (left_half l) \/ In t (right_half l) -> In t l)
        by (intros t Ht; rewrite <- (halves l); apply in_app_iff; exact Ht).
      split; intros t Ht; rewrite (pair_steps_out _ _ _ H) by (apply Hout, Hsub; auto).
      + rewrite dget_scale_out by (intros Hr; exact (Hd t Ht Hr)). apply dget_scale_in; auto.
      + apply dget_scale_in; [exact Ht|]. rewrite dget_scale_out by (intros Hr; exact (Hd t Hr Ht)). auto.
    - assert (Hnot : forall t, In t l -> ~ In t l0).
      { intros t Ht Ht0. apply (H2 t Ht0). apply in_concat. exists l. auto. }
      destruct (1 <? List.length l0)%nat; cbn [app] in H; [|apply (IH w); auto].
      apply pair_steps_two in H. destruct H as [a [Ha H]]. apply (IH _ _ H); auto.
      intros t Ht. rewrite !dget_scale_out; [auto| |]; intros Hb; apply (Hnot t Ht); rewrite <- (halves l0); apply in_app_iff; auto.
  Qed.

  Lemma loop_cut : forall fuel cl w w', hrp_loop fuel cov cl w = Ok w' -> NoDup (concat cl) ->
    map fst w' = map fst w /\ (forall t, ~ In t (concat cl) -> dget t w' = dget t w) /\
    (forall l acc, In l cl -> (forall t, In t l -> dget t w = Some acc) ->
       exists d, cut_weights acc l d /\ map fst d = l /\ forall t v, In (t, v) d -> dget t w' = Some v).
  Proof.
    induction fuel as [|fuel IH]; intros cl w w' H Hnd; [discriminate H|]. cbn [hrp_loop] in H.
    destruct cl as [|l0 cl0] eqn:Ecl; [inversion H; subst; repeat split; intros; contradiction|]. rewrite <- Ecl in *. clear Ecl l0 cl0.
    destruct (pair_steps cov (bisect cl) w) as [w1|e] eqn:E1; [|discriminate H]. cbn [rbind] in H.
    destruct (IH _ _ _ H (bisect_nodup cl Hnd)) as [Hk [Hout Hin]]. split; [|split].
    - rewrite Hk. apply (pair_steps_keys cl). exact E1.
    - intros t Ht. rewrite Hout by (intros Hb; apply Ht, bisect_incl, Hb). apply (pair_steps_out cl); [exact E1|].
      intros Hb. apply Ht, bisect_incl, Hb.
    - intros l acc Hl Hacc. destruct (le_lt_dec (List.length l) 1) as [Hs|Hs].
      + exists (map (fun t => (t, acc)) l). split; [apply cut_leaf; exact Hs|]. split; [rewrite map_map; apply map_id|].
        intros t v Hv. apply in_map_iff in Hv. destruct Hv as [t' [Et Ht]]. inversion Et; subst t' v.
        assert (Hn : ~ In t (concat (bisect cl))).
        { intros Hb. apply in_concat in Hb. destruct Hb as [m [Hm Htm]]. apply bisect_from in Hm. destruct Hm as [l' [Hl' [Hlen Hm]]].
          assert (Htl' : In t l') by (rewrite <- (halves l'); apply in_app_iff; destruct Hm; subst m; auto).
          assert (l' = l); [|subst; lia].
          clear -Hnd Hl Hl' Htl' Ht. induction cl as [|k cl IHc]; [destruct Hl|]. cbn [concat] in Hnd. apply nodup_app in Hnd.
          destruct Hnd as [_ [H2 H3]]. destruct Hl as [->|Hl], Hl' as [->|Hl']; auto; exfalso.
          - apply (H3 t Ht). apply in_concat. eauto.
          - apply (H3 t Htl'). apply in_concat. eauto. }
        rewrite Hout by exact Hn. rewrite (pair_steps_out cl _ _ E1 t Hn). apply Hacc. exact Ht.
      + destruct (pair_steps_in cl _ _ E1 Hnd l acc Hl Hs Hacc) as [a [Ha [Hleft Hright]]].
        destruct (bisect_in cl l Hl Hs) as [Hbl Hbr].
        destruct (Hin _ _ Hbl Hleft) as [d1 [C1 [K1 D1]]]. destruct (Hin _ _ Hbr Hright) as [d2 [C2 [K2 D2]]].
        exists (d1 ++ d2). split; [|split].
        * pose proof (cut_node acc (left_half l) (right_half l) a d1 d2) as Hc. rewrite (halves l) in Hc. apply Hc; auto.
          rewrite left_length. reflexivity.
        * rewrite map_app, K1, K2. apply halves.
        * intros t v Hv. apply in_app_iff in Hv. destruct Hv; auto.
  Qed.

  Lemma dict_ext : forall (d e : dict A), NoDup (map fst d) -> map fst d = map fst e -> (forall t v, In (t, v) d -> dget t e = Some v) -> d = e.
  Proof.
    induction d as [|[k v] d IH]; intros [|[k' v'] e] Hnd Hk Hv; try discriminate Hk; [reflexivity|].
    cbn [map fst] in Hk, Hnd. injection Hk as <- Hk. apply NoDup_cons_iff in Hnd. destruct Hnd as [Hni Hnd].
    pose proof (Hv k v (or_introl eq_refl)) as H0. cbn [dget] in H0. rewrite label_eqb_refl in H0. injection H0 as <-. f_equal.
    apply IH; auto. intros t x Hx. pose proof (Hv t x (or_intror Hx)) as H1. cbn [dget] in H1.
    rewrite label_eqb_neq in H1; [exact H1|]. intros ->. apply Hni. apply (in_map fst) in Hx. exact Hx.
  Qed.

  Lemma raw_cut : forall ts w, NoDup ts -> raw_hrp_allocation cov ts = Ok w -> cut_weights n1 ts w /\ map fst w = ts.
  Proof.
    intros ts w Hnd H. unfold raw_hrp_allocation in H.
    assert (Hc : NoDup (concat [ts])) by (cbn [concat]; rewrite app_nil_r; exact Hnd).
    destruct (loop_cut _ _ _ _ H Hc) as [Hk [_ Hin]]. rewrite map_map in Hk. cbn [fst] in Hk. rewrite map_id in Hk.
    destruct (Hin ts n1 (or_introl eq_refl)) as [d [Hd [Kd Hv]]].
    { intros t Ht. apply In_dget; [rewrite map_map; cbn [fst]; rewrite map_id; exact Hnd|]. apply in_map_iff. exists t. auto. }
    assert (d = w) as <-; [|auto]. apply dict_ext; [rewrite Kd; exact Hnd|congruence|exact Hv].
  Qed.

  (** termination *)
  Definition no_fuel_err {X} (r : res X) : Prop := r <> Err OutOfFuel.
  Lemma mapM_no_fuel : forall {X Y} (f : X -> res Y) (l : list X), (forall x, f x <> Err OutOfFuel) -> mapM f l <> Err OutOfFuel.
  Proof.
    intros X Y f l Hf. induction l as [|x l IH]; cbn [mapM]; [discriminate|]. specialize (Hf x).
    destruct (f x) as [y|e]; cbn [rbind]; [|congruence]. destruct (mapM f l) as [ys|e]; cbn [rbind]; congruence.
  Qed.
  Lemma loc_no_fuel : forall t u, loc cov t u <> Err OutOfFuel.
  Proof.
    intros t u. unfold loc. destruct (position t (f_index cov)) as [i|], (position u (f_cols cov)) as [j|]; try discriminate.
    destruct (nth_error (f_rows cov) i) as [r|]; [|discriminate]. destruct (nth_error r j); discriminate.
  Qed.
  Lemma cluster_no_fuel : forall l, cluster_var cov l <> Err OutOfFuel.
  Proof.
    intros l. unfold cluster_var.
    destruct (mapM (fun t => mapM (fun u => loc cov t u) l) l) as [s|e] eqn:E1; cbn [rbind].
    2: { intros Hc; injection Hc as ->; revert E1; apply mapM_no_fuel. intros t. apply mapM_no_fuel. intros u. apply loc_no_fuel. }
    destruct (mapM (fun t => loc cov t t) l) as [d|e] eqn:E2; cbn [rbind].
    2: { intros Hc; injection Hc as ->; revert E2; apply mapM_no_fuel. intros t. apply loc_no_fuel. }
    destruct (mapM _ d) as [v|e] eqn:E3; cbn [rbind].
    2: { intros Hc; injection Hc as ->; revert E3; apply mapM_no_fuel. intros x. destruct (x =? n0); discriminate. }
    destruct (vsum v =? n0); discriminate.
  Qed.
  Lemma share_no_fuel : forall f s, split_share cov f s <> Err OutOfFuel.
  Proof.
    intros f s. unfold split_share. pose proof (cluster_no_fuel f). pose proof (cluster_no_fuel s).
    destruct (cluster_var cov f); cbn [rbind]; [|congruence]. destruct (cluster_var cov s); cbn [rbind]; [|congruence].
    destruct (_ =? n0); discriminate.
  Qed.
  Lemma pair_no_fuel : forall cl w, pair_steps cov (bisect cl) w <> Err OutOfFuel.
  Proof.
    induction cl as [|l cl IH]; intros w; [discriminate|]. rewrite bisect_cons.
    destruct (1 <? List.length l)%nat; cbn [app]; [|apply IH]. cbn [pair_steps].
    pose proof (share_no_fuel (left_half l) (right_half l)). destruct (split_share cov _ _) as [a|e]; cbn [rbind]; [apply IH|congruence].
  Qed.
  Lemma loop_terminates : forall fuel m cl w, (forall l, In l cl -> (List.length l <= m)%nat) -> (Nat.max m 1 + 1 <= fuel)%nat ->
    hrp_loop fuel cov cl w <> Err OutOfFuel.
  Proof.
    induction fuel as [|fuel IH]; intros m cl w Hm Hf; [lia|]. cbn [hrp_loop].
    destruct cl as [|l0 cl0] eqn:Ecl; [discriminate|]. rewrite <- Ecl in *. clear Ecl l0 cl0.
    pose proof (pair_no_fuel cl w) as Hp. destruct (pair_steps cov (bisect cl) w) as [w1|e]; cbn [rbind]; [|congruence].
    destruct (le_lt_dec m 1) as [Hs|Hs].
    - assert (bisect cl = []) as ->.
      { destruct (bisect cl) as [|b bl] eqn:Eb; [reflexivity|]. exfalso. destruct (bisect_from cl b) as [l [Hl [Hlen _]]]; [rewrite Eb; left; reflexivity|].
        specialize (Hm l Hl). lia. }
      destruct fuel; [lia|discriminate].
    - apply (IH (m - 1)%nat); [|lia]. intros b Hb. destruct (bisect_from cl b Hb) as [l [Hl [Hlen Hor]]]. specialize (Hm l Hl).
      pose proof (half_bounds (List.length l) Hlen). destruct Hor; subst b; [rewrite left_length|rewrite right_length]; lia.
  Qed.
  Lemma raw_terminates : forall ts, raw_hrp_allocation cov ts <> Err OutOfFuel.
  Proof.
    intros ts. apply (loop_terminates _ (List.length ts)); [|lia]. intros l [<-|[]]. lia.
  Qed.

  (** success *)
  Lemma pair_steps_ok : forall cl w, (forall l, In l cl -> (1 < List.length l)%nat -> exists a, split_share cov (left_half l) (right_half l) = Ok a) ->
    exists w', pair_steps cov (bisect cl) w = Ok w'.
  Proof.
    induction cl as [|l cl IH]; intros w H; [eexists; reflexivity|]. rewrite bisect_cons.
    destruct (Nat.ltb_spec 1 (List.length l)) as [Hl|Hl]; cbn [app].
    - cbn [pair_steps]. destruct (H l (or_introl eq_refl) Hl) as [a ->]. cbn [rbind]. apply IH. intros; apply H; [right|]; assumption.
    - apply IH. intros; apply H; [right|]; assumption.
  Qed.
  Definition good_split ts : Prop := forall l1 l2, l1 <> [] -> l2 <> [] -> incl l1 ts -> incl l2 ts -> NoDup (l1 ++ l2) ->
    exists a, split_share cov l1 l2 = Ok a.
  Lemma halves_nonempty : forall l, (1 < List.length l)%nat -> left_half l <> [] /\ right_half l <> [].
  Proof.
    intros l Hl. pose proof (half_bounds (List.length l) Hl).
    split; intros E; apply (f_equal (@List.length label)) in E; [rewrite left_length in E|rewrite right_length in E]; cbn [List.length] in E; lia.
  Qed.
  Lemma half_incl : forall l t, In t (left_half l) \/ In t (right_half l) -> In t l.
  Proof. intros l t Ht. rewrite <- (halves l). apply in_app_iff. exact Ht. Qed.
  Lemma nodup_in_concat : forall cl l, NoDup (concat cl) -> In l cl -> NoDup l.
  Proof.
    induction cl as [|k cl IH]; intros l Hnd Hin; [destruct Hin|]. cbn [concat] in Hnd. apply nodup_app in Hnd. destruct Hin as [->|Hin]; [tauto|].
    apply IH; tauto.
  Qed.
  Lemma loop_ok : forall ts, good_split ts -> forall fuel m cl w, NoDup (concat cl) -> incl (concat cl) ts ->
    (forall l, In l cl -> (List.length l <= m)%nat) -> (Nat.max m 1 + 1 <= fuel)%nat -> exists w', hrp_loop fuel cov cl w = Ok w'.
  Proof.
    intros ts Hg fuel m cl w Hnd Hi Hm Hf. pose proof (loop_terminates fuel m cl w Hm Hf) as Ht. clear Hm Hf m.
    revert cl w Hnd Hi Ht. induction fuel as [|fuel IH]; intros cl w Hnd Hi Ht; [cbn [hrp_loop] in Ht; congruence|].
    cbn [hrp_loop] in *. destruct cl as [|l0 cl0] eqn:Ecl; [eexists; reflexivity|]. rewrite <- Ecl in *. clear Ecl l0 cl0.
    destruct (pair_steps_ok cl w) as [w1 E1].
    { intros l Hl Hlen. destruct (halves_nonempty l Hlen). apply Hg; auto.
      - intros t Htt. apply Hi, in_concat. exists l. split; [exact Hl|apply half_incl; auto].
      - intros t Htt. apply Hi, in_concat. exists l. split; [exact Hl|apply half_incl; auto].
      - rewrite halves. apply (nodup_in_concat cl); assumption. }
    rewrite E1 in *. cbn [rbind] in *. apply IH; [apply bisect_nodup; exact Hnd| |exact Ht].
    intros t Htt. apply Hi, bisect_incl, Htt.
  Qed.
  Lemma raw_ok : forall ts, NoDup ts -> good_split ts -> exists w, raw_hrp_allocation cov ts = Ok w.
  Proof.
    intros ts Hnd Hg. apply (loop_ok ts Hg _ (List.length ts)); [| |intros l [<-|[]]; lia|lia].
    - cbn [concat]. rewrite app_nil_r. exact Hnd.
    - cbn [concat]. rewrite app_nil_r. apply incl_refl.
  Qed.
End Loop.
