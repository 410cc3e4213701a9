(** * Long/short allocation, degenerate inputs, stopping rule, repeatability *)
From Coq Require Import ZArith List Bool Reals Lra Lia Permutation Sorted.
From Verif Require Import Num Py MAlloc SAlloc RBase PyLemmas PAlloc PAlloc2.
Import ListNotations.
Local Open Scope R_scope.

(** ** Repeatability (C08) *)
Lemma greedy_at_same : forall depth fuel d d' r,
  da_prices d = da_prices d' -> da_int d = da_int d' -> da_total d = da_total d' ->
  da_short_ratio d = da_short_ratio d' ->
  sort_weights (da_weights d) = sort_weights (da_weights d') ->
  snd (greedy_at (A:=R) depth fuel d r) = snd (greedy_at depth fuel d' r).
Proof.
  intros depth fuel [w p i T sr a] [w' p' i' T' sr' a'] r; simpl. intros <- <- <- <- Hs.
  destruct depth as [|depth]; [reflexivity|].
  cbn [greedy_at set_weights_da da_weights da_prices da_int da_total da_short_ratio da_alloc].
  rewrite <- Hs. unfold sub_da; cbn [da_prices da_int].
  destruct (last_weight _) as [x|]; [|reflexivity].
  destruct (nltb x n0).
  - set (X := rbind _ _). destruct X as [[al lo]|]; reflexivity.
  - unfold greedy_long; cbn [da_weights da_prices da_int da_total da_short_ratio da_alloc].
    set (X := rbind _ _). destruct X as [[al lo]|]; reflexivity.
Qed.

Lemma greedy_at_fst : forall depth fuel d r,
  let d' := fst (greedy_at (A:=R) (S depth) fuel d r) in
  da_prices d' = da_prices d /\ da_int d' = da_int d /\ da_total d' = da_total d /\
  da_short_ratio d' = da_short_ratio d /\ da_weights d' = sort_weights (da_weights d).
Proof.
  intros depth fuel d r. cbv zeta. cbn [greedy_at].
  destruct (last_weight _) as [x|]; [|simpl; auto].
  destruct (nltb x n0).
  - set (X := rbind _ _). destruct X as [[al lo]|]; simpl; auto.
  - destruct (greedy_long fuel _) as [[al lo]|]; simpl; auto.
Qed.

Lemma greedy_repeatable : forall fuel d r,
  snd (greedy_portfolio (A:=R) fuel (fst (greedy_portfolio fuel d r)) r) =
  snd (greedy_portfolio fuel d r).
Proof.
  intros fuel d r. unfold greedy_portfolio.
  destruct (greedy_at_fst 1 fuel d r) as [H1 [H2 [H3 [H4 H5]]]].
  apply greedy_at_same; auto. rewrite H5. apply sort_weights_idem.
Qed.

(** ** Long/short decomposition *)
Lemma greedy_short_unfold : forall fuel d r,
  has_short (da_weights d) ->
  let d1 := set_weights_da d (sort_weights (da_weights d)) in
  let sv := da_total d * da_short_ratio d in
  snd (greedy_portfolio (A:=R) fuel d r) =
  (do longs <- normalise (longs_of (da_weights d1)) ;
   do shorts <- normalise (shorts_of (da_weights d1)) ;
   do da1 <- sub_da d1 longs (if r then da_total d + sv else da_total d) ;
   do rl <- snd (greedy_at 1 fuel da1 false) ;
   do da2 <- sub_da d1 shorts sv ;
   do rs <- snd (greedy_at 1 fuel da2 false) ;
   Ok (remove_zero_positions (dupdate (fst rl) (negate_alloc (fst rs))), snd rl + snd rs)).
Proof.
  intros fuel d r [t [x [Hin Hx]]] d1 sv. unfold greedy_portfolio.
  remember 1%nat as one. cbn [greedy_at]. fold d1.
  destruct (last_weight (da_weights d1)) as [y|] eqn:El.
  2:{ apply last_weight_none in El. exfalso.
      assert (Hp : In (t, x) (da_weights d1)).
      { eapply Permutation_in; [symmetry; apply sort_weights_perm|exact Hin]. }
      rewrite El in Hp. destruct Hp. }
  assert (y <= x) by (exact (last_weight_sorted_min _ _ El _ _ Hin)).
  runfold. destruct (Rltb y 0) eqn:Ey; rprop; [|lra].
  destruct (normalise (longs_of (da_weights d1))) as [longs|]; cbn [rbind]; [|reflexivity].
  destruct (normalise (shorts_of (da_weights d1))) as [shorts|]; cbn [rbind]; [|reflexivity].
  change (da_total d1) with (da_total d). change (da_short_ratio d1) with (da_short_ratio d). fold sv.
  destruct (sub_da d1 longs _) as [da1|]; cbn [rbind]; [|reflexivity].
  destruct (snd (greedy_at one fuel da1 false)) as [[al1 lo1]|]; cbn [rbind]; [|reflexivity].
  destruct (sub_da d1 shorts sv) as [da2|]; cbn [rbind]; [|reflexivity].
  destruct (snd (greedy_at one fuel da2 false)) as [[al2 lo2]|]; cbn [rbind]; reflexivity.
Qed.

Lemma normalise_keys : forall w v, normalise (A:=R) w = Ok v -> map fst v = map fst w.
Proof.
  intros w v H. unfold normalise in H. destruct (neqb _ _).
  - destruct w; inversion H; reflexivity.
  - inversion H; subst. rewrite map_map. reflexivity.
Qed.

Lemma shorts_keys : forall w : dict R,
  map fst (shorts_of w) = map fst (filter (fun kv => nltb (snd kv) n0) w).
Proof. intros w. unfold shorts_of. rewrite map_map. reflexivity. Qed.

Lemma filter_fst_NoDup : forall {V} (f : label * V -> bool) w,
  NoDup (map fst w) -> NoDup (map fst (filter f w)).
Proof.
  intros V f. induction w as [|kv w IH]; simpl; intros H; [constructor|].
  inversion H; subst. destruct (f kv); simpl; auto. constructor; auto.
  intros Hin. apply H2. apply in_map_iff in Hin. destruct Hin as [kv' [E Hin]].
  apply filter_In in Hin. apply in_map_iff. exists kv'; tauto.
Qed.

Lemma sub_da_valid : forall d w T d1, sub_da (A:=R) d w T = Ok d1 ->
  NoDup (map fst w) -> long_only w -> valid_da d1.
Proof.
  intros d w T d1 H Hnd Hl. apply sub_da_spec in H.
  destruct H as [H1 [H2 [H3 [H4 [H5 H6]]]]]. repeat split.
  - rewrite H1; assumption.
  - rewrite H2; assumption.
  - rewrite H6. unfold default_short_ratio. apply vsum_nonneg.
    apply Forall_forall. intros z Hz. apply in_map_iff in Hz. destruct Hz as [[t x] [E Hin]].
    apply filter_In in Hin. simpl in *. rprop. destruct Hin as [_ Hneg]. rprop. lra.
Qed.

Lemma sub_da_price_of : forall d w T d1, sub_da (A:=R) d w T = Ok d1 -> NoDup (map fst w) ->
  forall t, In t (map fst w) -> price_of (da_prices d1) t = price_of (da_prices d) t.
Proof.
  intros d w T d1 H Hnd t Hin. apply sub_da_spec in H.
  destruct H as [H1 [H2 [H3 [H4 [H5 H6]]]]]. apply select_prices_spec in H5. destruct H5 as [Hk Hv].
  rewrite <- Hk in Hin. apply dget_Some_iff in Hin. destruct Hin as [p Hp].
  unfold price_of. rewrite Hp. rewrite (Hv t p); [reflexivity|]. apply dget_In. exact Hp.
Qed.

Lemma alloc_value_ext : forall p p' al,
  (forall t, In t (map fst al) -> price_of p t = price_of p' t) -> alloc_value p al = alloc_value p' al.
Proof.
  induction al as [|[t n] al IH]; simpl; intros H; [reflexivity|].
  rewrite IH by auto. rewrite H by auto. reflexivity.
Qed.

Lemma gross_value_app : forall p a b, gross_value p (a ++ b) = gross_value p a + gross_value p b.
Proof. induction a as [|[t n] a IH]; simpl; intros; [lra|rewrite IH; lra]. Qed.

Lemma gross_value_remove_zero : forall p al,
  gross_value p (remove_zero_positions al) = gross_value p al.
Proof.
  induction al as [|[t n] al IH]; simpl; [reflexivity|].
  destruct (Z.eqb_spec n 0) as [->|]; simpl; rewrite IH; [simpl; lra|reflexivity].
Qed.

Lemma gross_value_pos : forall p al, (forall t n, In (t, n) al -> (0 < n)%Z) ->
  gross_value p al = alloc_value p al.
Proof.
  induction al as [|[t n] al IH]; simpl; intros H; [reflexivity|].
  assert (0 < n)%Z by (apply (H t); auto). rewrite Z.abs_eq by lia.
  rewrite IH; [reflexivity|]. intros t' n' Hin; apply (H t'); auto.
Qed.

Lemma gross_value_negate : forall p al, gross_value p (negate_alloc al) = gross_value p al.
Proof.
  induction al as [|[t n] al IH]; simpl; [reflexivity|]. rewrite Z.abs_opp.
  fold (negate_alloc al). rewrite IH. reflexivity.
Qed.

Lemma greedy_long_short : forall fuel d r d' al lo,
  valid_da d -> has_short (da_weights d) -> positive_prices (da_prices d) ->
  greedy_portfolio fuel d r = (d', Ok (al, lo)) ->
  gross_value (da_prices d) al + lo =
    da_total d * (1 + (if r then 2 else 1) * da_short_ratio d) /\
  0 <= lo /\ NoDup (map fst al) /\
  (forall t n, In (t, n) al ->
     exists w, In (t, w) (da_weights d) /\ ((0 < n)%Z /\ 0 <= w \/ (n < 0)%Z /\ w < 0)).
Proof.
  intros fuel d r d' al lo [Hnd [HT Hsr]] Hsh Hpos H.
  assert (H' : snd (greedy_portfolio fuel d r) = Ok (al, lo)) by (rewrite H; reflexivity). clear H.
  rewrite greedy_short_unfold in H' by assumption. cbv zeta in H'.
  set (d1 := set_weights_da d (sort_weights (da_weights d))) in *.
  set (sv := da_total d * da_short_ratio d) in *.
  pose proof (sort_weights_perm (da_weights d)) as Hperm.
  assert (Hnd1 : NoDup (map fst (da_weights d1))).
  { apply NoDup_fst_perm with (a := da_weights d); [symmetry; exact Hperm|assumption]. }
  destruct (normalise (longs_of (da_weights d1))) as [longs|] eqn:E1; cbn [rbind] in H'; [|discriminate].
  destruct (normalise (shorts_of (da_weights d1))) as [shorts|] eqn:E2; cbn [rbind] in H'; [|discriminate].
  destruct (sub_da d1 longs _) as [da1|] eqn:E3; cbn [rbind] in H'; [|discriminate].
  destruct (greedy_at 1 fuel da1 false) as [d1' r1] eqn:G1.
  destruct r1 as [[al1 lo1]|e1]; cbn [snd rbind] in H'; [|discriminate H'].
  destruct (sub_da d1 shorts sv) as [da2|] eqn:E4; cbn [rbind] in H'; [|discriminate].
  destruct (greedy_at 1 fuel da2 false) as [d2' r2] eqn:G2.
  destruct r2 as [[al2 lo2]|e2]; cbn [snd rbind] in H'; [|discriminate H'].
  cbn [fst snd] in H'. inversion H'; subst al lo. clear H'.
  (* the two sub-allocations *)
  assert (K1 : map fst longs = map fst (longs_of (da_weights d1))) by (apply normalise_keys; assumption).
  assert (K2 : map fst shorts = map fst (shorts_of (da_weights d1))) by (apply normalise_keys; assumption).
  assert (N1 : NoDup (map fst longs)) by (rewrite K1; apply filter_fst_NoDup; assumption).
  assert (N2 : NoDup (map fst shorts)) by (rewrite K2, shorts_keys; apply filter_fst_NoDup; assumption).
  assert (L1 : long_only longs) by (eapply normalise_nonneg; [apply longs_of_nonneg|exact E1]).
  assert (L2 : long_only shorts) by (eapply normalise_nonneg; [apply shorts_of_nonneg|exact E2]).
  pose proof (sub_da_valid _ _ _ _ E3 N1 L1) as V1.
  pose proof (sub_da_valid _ _ _ _ E4 N2 L2) as V2.
  pose proof (sub_da_spec _ _ _ _ E3) as [W1 [T1 _]].
  pose proof (sub_da_spec _ _ _ _ E4) as [W2 [T2 _]].
  assert (P1 : positive_prices (da_prices da1)) by (eapply sub_da_positive; eauto).
  assert (P2 : positive_prices (da_prices da2)) by (eapply sub_da_positive; eauto).
  rewrite <- W1 in L1. rewrite <- W2 in L2.
  destruct (greedy_conservation_at _ _ _ _ _ _ _ V1 L1 G1) as [C1 C1'].
  destruct (greedy_conservation_at _ _ _ _ _ _ _ V2 L2 G2) as [C2 C2'].
  destruct (greedy_shares_at _ _ _ _ _ _ _ V1 L1 P1 G1) as [D1 [S1 _]].
  destruct (greedy_shares_at _ _ _ _ _ _ _ V2 L2 P2 G2) as [D2 [S2 _]].
  rewrite W1 in S1. rewrite W2 in S2.
  assert (KL : forall t, In t (map fst longs) -> exists w, In (t, w) (da_weights d1) /\ 0 <= w).
  { intros t Ht. rewrite K1 in Ht. apply in_map_iff in Ht. destruct Ht as [[t' w] [E Hin]].
    apply filter_In in Hin. destruct Hin as [Hin Hw]. simpl in *. subst. rprop. eauto. }
  assert (KS : forall t, In t (map fst shorts) -> exists w, In (t, w) (da_weights d1) /\ w < 0).
  { intros t Ht. rewrite K2, shorts_keys in Ht. apply in_map_iff in Ht. destruct Ht as [[t' w] [E Hin]].
    apply filter_In in Hin. destruct Hin as [Hin Hw]. simpl in *. subst. rprop. eauto. }
  assert (Hdisj : forall t, In t (map fst al1) -> ~ In t (map fst (negate_alloc al2))).
  { intros t Ha Hb. unfold negate_alloc in Hb. rewrite map_map in Hb. simpl in Hb.
    apply in_map_iff in Ha. destruct Ha as [[ta na] [Ea Ha]].
    apply in_map_iff in Hb. destruct Hb as [[tb nb] [Eb Hb]]. simpl in *. subst ta tb.
    destruct (S1 _ _ Ha) as [_ HA]. destruct (S2 _ _ Hb) as [_ HB].
    destruct (KL _ HA) as [wa [Iwa Hwa]]. destruct (KS _ HB) as [wb [Iwb Hwb]].
    apply (In_dget _ _ _ Hnd1) in Iwa. apply (In_dget _ _ _ Hnd1) in Iwb.
    assert (wa = wb) by congruence. lra. }
  assert (D2n : NoDup (map fst (negate_alloc al2))).
  { unfold negate_alloc. rewrite map_map. exact D2. }
  assert (Hnegk : map fst (negate_alloc al2) = map fst al2).
  { unfold negate_alloc. rewrite map_map. reflexivity. }
  rewrite dupdate_disjoint; [|assumption|intros k Hk Hk'; apply (Hdisj k); assumption].
  assert (Hpr1 : alloc_value (da_prices da1) al1 = alloc_value (da_prices d) al1).
  { apply alloc_value_ext. intros t Ht. change (da_prices d) with (da_prices d1).
    apply sub_da_price_of with (w := longs) (T := if r then da_total d + sv else da_total d); auto.
    apply in_map_iff in Ht. destruct Ht as [[t' n] [<- Hin]]. apply S1 in Hin. tauto. }
  assert (Hpr2 : alloc_value (da_prices da2) al2 = alloc_value (da_prices d) al2).
  { apply alloc_value_ext. intros t Ht. change (da_prices d) with (da_prices d1).
    apply sub_da_price_of with (w := shorts) (T := sv); auto.
    apply in_map_iff in Ht. destruct Ht as [[t' n] [<- Hin]]. apply S2 in Hin. tauto. }
  split; [|split; [lra|split]].
  - rewrite gross_value_remove_zero, gross_value_app, gross_value_negate.
    rewrite !gross_value_pos by (intros t n Hin; first [apply S1 in Hin|apply S2 in Hin]; tauto).
    rewrite T1 in C1. rewrite T2 in C2. unfold sv in *.
    rewrite Hpr1 in C1. rewrite Hpr2 in C2. destruct r; lra.
  - apply remove_zero_NoDup. rewrite map_app. rewrite Hnegk in *.
    clear - D1 D2 Hdisj. induction (map fst al1) as [|k l IH]; simpl; [assumption|].
    inversion D1; subst. constructor.
    + rewrite in_app_iff. intros [Hin|Hin]; [contradiction|]. apply (Hdisj k); simpl; auto.
    + apply IH; [assumption|]. intros t Ht. apply Hdisj. simpl; auto.
  - intros t n Hin. unfold remove_zero_positions in Hin. apply filter_In in Hin.
    destruct Hin as [Hin _]. apply in_app_iff in Hin. destruct Hin as [Hin|Hin].
    + destruct (S1 _ _ Hin) as [Hn Hk]. destruct (KL _ Hk) as [w [Iw Hw]].
      exists w. split; [eapply Permutation_in; [exact Hperm|exact Iw]|]. left; auto.
    + unfold negate_alloc in Hin. apply in_map_iff in Hin. destruct Hin as [[t' n'] [E Hin]].
      simpl in E. inversion E; subst.
      destruct (S2 _ _ Hin) as [Hn Hk]. destruct (KS _ Hk) as [w [Iw Hw]].
      exists w. split; [eapply Permutation_in; [exact Hperm|exact Iw]|]. right; split; [lia|assumption].
Qed.

(** ** Degenerate inputs (C06) *)
Lemma greedy_empty : forall fuel d r, da_weights d = [] ->
  snd (greedy_portfolio (A:=R) fuel d r) = Err IndexError.
Proof.
  intros fuel d r H. unfold greedy_portfolio. cbn [greedy_at set_weights_da da_weights].
  rewrite H. reflexivity.
Qed.

Lemma filter_perm : forall {X} (f : X -> bool) l m, Permutation l m -> Permutation (filter f l) (filter f m).
Proof.
  intros X f l m H; induction H; simpl; auto.
  - destruct (f x); auto.
  - destruct (f x), (f y); auto. apply perm_swap.
  - eapply perm_trans; eauto.
Qed.

Lemma longs_of_nil : forall w, (forall t x, In (t, x) w -> x < 0) -> longs_of (A:=R) w = [].
Proof.
  induction w as [|[t x] w IH]; intros H; [reflexivity|]. unfold longs_of in *. simpl.
  destruct (Rleb 0 x) eqn:E; rprop.
  - assert (x < 0) by (apply (H t); left; reflexivity). lra.
  - apply IH. intros t' x' Hin. apply (H t'). right; exact Hin.
Qed.

Lemma shorts_normalise : forall w, has_short w ->
  exists v, normalise (shorts_of (A:=R) w) = Ok v /\ v <> [].
Proof.
  intros w [t [x [Hin Hx]]].
  assert (Hs : In (t, - x) (shorts_of w)).
  { unfold shorts_of. apply in_map_iff. exists (t, x). split; [reflexivity|].
    apply filter_In. split; [assumption|]. simpl. rprop. assumption. }
  assert (Hp : 0 < vsum (map snd (shorts_of w))).
  { apply vsum_pos.
    - intros E. apply (in_map snd) in Hs. rewrite E in Hs. destruct Hs.
    - apply Forall_forall. intros z Hz. apply in_map_iff in Hz. destruct Hz as [[t' y] [<- Hy]].
      simpl. unfold shorts_of in Hy. apply in_map_iff in Hy. destruct Hy as [[t'' y'] [E Hy]].
      apply filter_In in Hy. destruct Hy as [_ Hy]. simpl in *. rprop. inversion E; subst. lra. }
  unfold normalise. runfold. destruct (Reqb (vsum (map snd (shorts_of w))) 0) eqn:E; rprop; [lra|].
  eexists. split; [reflexivity|]. destruct (shorts_of w); [destruct Hs|discriminate].
Qed.

Lemma has_short_perm : forall a b, Permutation a b -> has_short a -> has_short b.
Proof. intros a b Hp [t [x [Hin Hx]]]. exists t, x. split; [eapply Permutation_in; eauto|assumption]. Qed.

Lemma greedy_all_short : forall fuel d r, valid_da d -> da_weights d <> [] ->
  (forall t x, In (t, x) (da_weights d) -> x < 0) ->
  snd (greedy_portfolio (A:=R) fuel d r) = Err IndexError.
Proof.
  intros fuel d r [Hnd [HT Hsr]] Hne Hall.
  assert (Hsh : has_short (da_weights d)).
  { destruct (da_weights d) as [|[t x] w]; [congruence|]. exists t, x.
    split; [left; reflexivity|apply (Hall t); left; reflexivity]. }
  rewrite greedy_short_unfold by assumption. cbv zeta.
  set (d1 := set_weights_da d (sort_weights (da_weights d))).
  pose proof (sort_weights_perm (da_weights d)) as Hperm.
  rewrite longs_of_nil.
  2:{ intros t x Hin. apply (Hall t). eapply Permutation_in; [exact Hperm|exact Hin]. }
  destruct (shorts_normalise (da_weights d1)) as [v [Ev _]].
  { eapply has_short_perm; [symmetry; exact Hperm|exact Hsh]. }
  unfold normalise at 1. cbn [map]. rewrite vsum_nil. runfold.
  assert (Reqb 0 0 = true) as -> by (rprop; reflexivity). cbn [rbind]. rewrite Ev. cbn [rbind].
  unfold sub_da at 1, select_prices. cbn [map mapM rbind]. unfold da_init. cbn [some_dict map all_some].
  runfold.
  destruct (Rleb _ 0) eqn:El; rprop.
  - exfalso. assert (0 <= da_total d * da_short_ratio d) by (apply Rmult_le_pos; lra). destruct r; lra.
  - cbn [rbind]. reflexivity.
Qed.

Lemma greedy_zero_longs : forall fuel d r, has_short (da_weights d) ->
  (exists t, In (t, 0) (da_weights d)) ->
  (forall t x, In (t, x) (da_weights d) -> x <= 0) ->
  snd (greedy_portfolio (A:=R) fuel d r) = Err ZeroDivisionError.
Proof.
  intros fuel d r Hsh [t0 Hz] Hall.
  rewrite greedy_short_unfold by assumption. cbv zeta.
  set (d1 := set_weights_da d (sort_weights (da_weights d))).
  pose proof (sort_weights_perm (da_weights d)) as Hperm.
  assert (Hin : In (t0, 0) (longs_of (da_weights d1))).
  { apply filter_In. split; [eapply Permutation_in; [symmetry; exact Hperm|exact Hz]|].
    simpl. rprop. lra. }
  assert (Hs : vsum (map snd (longs_of (da_weights d1))) = 0).
  { rewrite <- (vsum_const0 (longs_of (da_weights d1))). f_equal. apply map_ext_in.
    intros [t x] Hx. simpl. apply filter_In in Hx. destruct Hx as [Hx Hp]. simpl in Hp. rprop.
    assert (x <= 0) by (apply (Hall t); eapply Permutation_in; [exact Hperm|exact Hx]). lra. }
  unfold normalise at 1. rewrite Hs. runfold.
  assert (Reqb 0 0 = true) as -> by (rprop; reflexivity).
  destruct (longs_of (da_weights d1)); [destruct Hin|reflexivity].
Qed.

Lemma normalise_total_weight : forall w v, normalise (A:=R) w = Ok v -> w <> [] -> total_weight v = 1.
Proof.
  intros w v H Hne. unfold normalise in H. runfold.
  destruct (Reqb (vsum (map snd w)) 0) eqn:E; rprop.
  - destruct w; [congruence|discriminate].
  - inversion H; subst. rewrite total_weight_vsum, map_map. simpl.
    unfold Rdiv. rewrite (vsum_map_scale snd). field. assumption.
Qed.

Lemma longs_normalise : forall w, (exists t x, In (t, x) w /\ 0 < x) ->
  exists v, normalise (longs_of (A:=R) w) = Ok v /\ v <> [] /\ longs_of w <> [].
Proof.
  intros w [t [x [Hin Hx]]].
  assert (Hs : In (t, x) (longs_of w)).
  { apply filter_In. split; [assumption|]. simpl. rprop. lra. }
  assert (Hp : 0 < vsum (map snd (longs_of w))).
  { apply in_split in Hs. destruct Hs as [l1 [l2 Hs]].
    assert (Hnn : forall y, In y (map snd (longs_of w)) -> 0 <= y).
    { intros y Hy. apply in_map_iff in Hy. destruct Hy as [[t' y'] [<- Hy]].
      apply (longs_of_nonneg w t' y'). exact Hy. }
    rewrite Hs in *. rewrite map_app in *. simpl in *. rewrite vsum_app, vsum_cons.
    assert (0 <= vsum (map snd l1)).
    { apply vsum_nonneg, Forall_forall. intros y Hy. apply Hnn, in_app_iff. auto. }
    assert (0 <= vsum (map snd l2)).
    { apply vsum_nonneg, Forall_forall. intros y Hy. apply Hnn, in_app_iff. simpl; auto. }
    lra. }
  unfold normalise. runfold. destruct (Reqb (vsum (map snd (longs_of w))) 0) eqn:E; rprop; [lra|].
  eexists. split; [reflexivity|]. destruct (longs_of w); [destruct Hs|split; discriminate].
Qed.

Lemma select_prices_total : forall (p : dict R) keys, (forall k, In k keys -> exists v, dget k p = Some v) ->
  exists ps, select_prices p keys = Ok ps.
Proof.
  intros p. unfold select_prices. induction keys as [|k keys IH]; intros H; cbn [mapM]; [eauto|].
  destruct (H k) as [v Hv]; [left; reflexivity|].
  destruct IH as [ps Hps]; [intros; apply H; right; assumption|]. rewrite Hps.
  unfold dgetE. rewrite Hv. cbn [rbind]. eauto.
Qed.

Lemma sub_da_total : forall d w T, 0 < T -> (forall k, In k (map fst w) -> exists v, dget k (da_prices d) = Some v) ->
  exists d1, sub_da (A:=R) d w T = Ok d1.
Proof.
  intros d w T HT H. unfold sub_da. destruct (select_prices_total _ _ H) as [ps ->]. cbn [rbind].
  unfold da_init. rewrite !all_some_some_dict. runfold.
  destruct (Rleb T 0) eqn:E; rprop; [lra|eauto].
Qed.

Lemma sub_da_bad : forall d w T, T <= 0 -> (forall k, In k (map fst w) -> exists v, dget k (da_prices d) = Some v) ->
  sub_da (A:=R) d w T = Err ValueError.
Proof.
  intros d w T HT H. unfold sub_da. destruct (select_prices_total _ _ H) as [ps ->]. cbn [rbind].
  unfold da_init. rewrite !all_some_some_dict. runfold.
  destruct (Rleb T 0) eqn:E; rprop; [reflexivity|lra].
Qed.

(** with at least one strictly positive weight the long part is allocated without error *)
Lemma long_part_total : forall d longs T d1,
  all_priced (da_weights d) (da_prices d) -> positive_prices (da_prices d) -> da_int d = false ->
  normalise (longs_of (da_weights d)) = Ok longs -> longs_of (da_weights d) <> [] -> 0 < T ->
  sub_da (A:=R) d longs T = Ok d1 ->
  exists al lo f0, forall fuel, (f0 <= fuel)%nat -> snd (greedy_at 1 fuel d1 false) = Ok (al, lo).
Proof.
  intros d longs T d1 Hap Hpos Hint HN Hne HT Hs.
  pose proof (sub_da_spec _ _ _ _ Hs) as [W [T1 [_ [I1 [Hsel _]]]]].
  apply greedy_at_total.
  - rewrite T1; assumption.
  - rewrite W. eapply normalise_nonneg; [apply longs_of_nonneg|exact HN].
  - rewrite W. intros E. apply normalise_keys in HN. rewrite E in HN.
    destruct (longs_of (da_weights d)); [congruence|discriminate].
  - rewrite W. intros t x Hin. apply select_prices_spec in Hsel. destruct Hsel as [Hk _].
    apply (in_map fst) in Hin. simpl in Hin. rewrite <- Hk in Hin. apply dget_Some_iff in Hin. exact Hin.
  - eapply sub_da_positive; eauto.
  - rewrite W. rewrite (normalise_total_weight _ _ HN Hne). lra.
  - rewrite I1; assumption.
Qed.

Lemma short_part_total : forall d shorts T d1,
  all_priced (da_weights d) (da_prices d) -> positive_prices (da_prices d) -> da_int d = false ->
  normalise (shorts_of (da_weights d)) = Ok shorts -> shorts_of (da_weights d) <> [] -> 0 < T ->
  sub_da (A:=R) d shorts T = Ok d1 ->
  exists al lo f0, forall fuel, (f0 <= fuel)%nat -> snd (greedy_at 1 fuel d1 false) = Ok (al, lo).
Proof.
  intros d longs T d1 Hap Hpos Hint HN Hne HT Hs.
  pose proof (sub_da_spec _ _ _ _ Hs) as [W [T1 [_ [I1 [Hsel _]]]]].
  apply greedy_at_total.
  - rewrite T1; assumption.
  - rewrite W. eapply normalise_nonneg; [apply shorts_of_nonneg|exact HN].
  - rewrite W. intros E. apply normalise_keys in HN. rewrite E in HN.
    destruct (shorts_of (da_weights d)); [congruence|discriminate].
  - rewrite W. intros t x Hin. apply select_prices_spec in Hsel. destruct Hsel as [Hk _].
    apply (in_map fst) in Hin. simpl in Hin. rewrite <- Hk in Hin. apply dget_Some_iff in Hin. exact Hin.
  - eapply sub_da_positive; eauto.
  - rewrite W. rewrite (normalise_total_weight _ _ HN Hne). lra.
  - rewrite I1; assumption.
Qed.

(** successful long/short runs, and the short_ratio = 0 failure *)
Lemma greedy_long_short_total : forall d r,
  valid_da d -> has_short (da_weights d) -> (exists t x, In (t, x) (da_weights d) /\ 0 < x) ->
  all_priced (da_weights d) (da_prices d) -> positive_prices (da_prices d) -> da_int d = false ->
  (0 < da_short_ratio d ->
     exists al lo f0, forall fuel, (f0 <= fuel)%nat -> snd (greedy_portfolio (A:=R) fuel d r) = Ok (al, lo)) /\
  (da_short_ratio d = 0 ->
     exists f0, forall fuel, (f0 <= fuel)%nat -> snd (greedy_portfolio (A:=R) fuel d r) = Err ValueError).
Proof.
  intros d r [Hnd [HT Hsr]] Hsh Hlg Hap Hpos Hint.
  set (d1 := set_weights_da d (sort_weights (da_weights d))).
  set (sv := da_total d * da_short_ratio d).
  pose proof (sort_weights_perm (da_weights d)) as Hperm.
  assert (Hap1 : all_priced (da_weights d1) (da_prices d1)).
  { intros t x Hin. apply (Hap t x). eapply Permutation_in; [exact Hperm|exact Hin]. }
  destruct (longs_normalise (da_weights d1)) as [longs [EL [NL NL']]].
  { destruct Hlg as [t [x [Hin Hx]]]. exists t, x.
    split; [eapply Permutation_in; [symmetry; exact Hperm|exact Hin]|assumption]. }
  destruct (shorts_normalise (da_weights d1)) as [shorts [ES NS]].
  { eapply has_short_perm; [symmetry; exact Hperm|exact Hsh]. }
  assert (NS' : shorts_of (da_weights d1) <> []).
  { intros E. rewrite E in ES. unfold normalise in ES. cbn [map] in ES. rewrite vsum_nil in ES.
    destruct (neqb _ _); inversion ES; congruence. }
  assert (KL : forall k, In k (map fst longs) -> exists v, dget k (da_prices d1) = Some v).
  { intros k Hk. apply normalise_keys in EL. rewrite EL in Hk. apply in_map_iff in Hk.
    destruct Hk as [[t x] [<- Hin]]. apply filter_In in Hin. apply (Hap1 t x). tauto. }
  assert (KS : forall k, In k (map fst shorts) -> exists v, dget k (da_prices d1) = Some v).
  { intros k Hk. apply normalise_keys in ES. rewrite ES, shorts_keys in Hk. apply in_map_iff in Hk.
    destruct Hk as [[t x] [<- Hin]]. apply filter_In in Hin. apply (Hap1 t x). tauto. }
  set (lv := if r then da_total d + sv else da_total d).
  assert (Hlv : 0 < lv).
  { unfold lv, sv. assert (0 <= da_total d * da_short_ratio d) by (apply Rmult_le_pos; lra). destruct r; lra. }
  destruct (sub_da_total d1 longs lv Hlv KL) as [da1 E3].
  destruct (long_part_total d1 longs lv da1 Hap1 Hpos Hint EL NL' Hlv E3) as [al1 [lo1 [f1 G1]]].
  split.
  - intros Hs0.
    assert (Hsv : 0 < sv) by (apply Rmult_lt_0_compat; assumption).
    destruct (sub_da_total d1 shorts sv Hsv KS) as [da2 E4].
    destruct (short_part_total d1 shorts sv da2 Hap1 Hpos Hint ES NS' Hsv E4) as [al2 [lo2 [f2 G2]]].
    do 2 eexists. exists (max f1 f2). intros fuel Hf.
    rewrite greedy_short_unfold by assumption. cbv zeta. fold d1. fold sv. fold lv.
    rewrite EL. cbn [rbind]. rewrite ES. cbn [rbind]. rewrite E3. cbn [rbind].
    rewrite (G1 fuel) by lia. cbn [rbind]. rewrite E4. cbn [rbind].
    rewrite (G2 fuel) by lia. cbn [rbind]. reflexivity.
  - intros Hs0. exists f1. intros fuel Hf.
    rewrite greedy_short_unfold by assumption. cbv zeta. fold d1. fold sv. fold lv.
    rewrite EL. cbn [rbind]. rewrite ES. cbn [rbind]. rewrite E3. cbn [rbind].
    rewrite (G1 fuel) by lia. cbn [rbind].
    rewrite sub_da_bad; [reflexivity| |assumption].
    unfold sv. rewrite Hs0. lra.
Qed.

(** integer prices *)
Lemma Rtrunc_Int_part : forall x, 0 <= x -> Rtrunc x = Int_part x.
Proof. intros x Hx. symmetry. apply Int_part_unique. apply Rtrunc_nonneg in Hx. tauto. Qed.

Lemma first_round_cost : forall prices T ws av av' ss ps,
  0 < T -> long_only ws -> positive_prices prices ->
  first_round (A:=R) prices T ws av = Ok (av', ss, ps) ->
  av' = av - whole_share_cost ws prices T.
Proof.
  intros prices T. induction ws as [|[t w] ws IH]; intros av av' ss ps HT Hl Hpos H; simpl in H.
  - inversion H; subst. simpl. lra.
  - unfold dgetE in H. destruct (dget t prices) as [p|] eqn:Hp; cbn [rbind] in H; [|discriminate].
    assert (Hpp : 0 < p) by (apply (Hpos t), dget_In; exact Hp).
    assert (Hw : 0 <= w) by (apply (Hl t); left; reflexivity).
    destruct (Reqb p 0) eqn:Ep; [destruct (Reqb (w * T) 0); discriminate|].
    destruct (Rleb _ av) eqn:Ec; [|discriminate].
    destruct (first_round prices T ws _) as [[[a s] q]|e] eqn:E; simpl in H; [|discriminate].
    inversion H; subst. apply IH in E; auto; [|intros t' x Hin; apply (Hl t'); right; exact Hin].
    simpl. unfold price_of at 1 2. rewrite Hp.
    rewrite Rtrunc_Int_part in E; [lra|].
    apply Rmult_le_pos; [apply Rmult_le_pos; lra|left; apply Rinv_0_lt_compat; assumption].
Qed.

Lemma whole_share_cost_perm : forall a b prices T, Permutation a b ->
  whole_share_cost a prices T = whole_share_cost b prices T.
Proof. intros a b prices T H; induction H; simpl in *; lra. Qed.

Lemma greedy_int_prices : forall d r,
  valid_da d -> long_only (da_weights d) -> da_weights d <> [] ->
  all_priced (da_weights d) (da_prices d) -> positive_prices (da_prices d) ->
  total_weight (da_weights d) <= 1 -> da_int d = true ->
  (whole_share_cost (da_weights d) (da_prices d) (da_total d) < da_total d ->
     forall fuel, (0 < fuel)%nat -> snd (greedy_portfolio (A:=R) fuel d r) = Err TypeError) /\
  (whole_share_cost (da_weights d) (da_prices d) (da_total d) = da_total d ->
     exists al, forall fuel, (0 < fuel)%nat -> snd (greedy_portfolio (A:=R) fuel d r) = Ok (al, 0)).
Proof.
  intros d r [Hnd [HT _]] Hl Hne Hap Hpos Hsum Hint.
  set (d1 := set_weights_da d (sort_weights (da_weights d))).
  pose proof (sort_weights_perm (da_weights d)) as Hperm.
  assert (Hl1 : long_only (da_weights d1)) by (apply long_only_perm with (a := da_weights d); [symmetry; exact Hperm|assumption]).
  destruct (first_round_total (da_prices d1) (da_total d1) (da_weights d1) (da_total d1))
    as [av [ss [ps [E1 Hss]]]]; auto.
  { intros t x Hin. apply (Hap t x). eapply Permutation_in; [exact Hperm|exact Hin]. }
  { change (da_weights d1) with (sort_weights (da_weights d)).
    rewrite (total_weight_perm _ _ Hperm).
    rewrite <- (Rmult_1_l (da_total d1)) at 2. apply Rmult_le_compat_r; simpl; lra. }
  assert (Hcost : av = da_total d - whole_share_cost (da_weights d) (da_prices d) (da_total d)).
  { apply first_round_cost in E1; auto. rewrite E1. simpl.
    rewrite (whole_share_cost_perm _ _ _ _ Hperm). reflexivity. }
  split.
  - intros Hc fuel Hf. destruct fuel as [|fuel]; [lia|].
    unfold greedy_portfolio. rewrite greedy_long_only by assumption. fold d1.
    unfold greedy_long. rewrite E1. cbn [rbind second_round]. runfold.
    destruct (Rltb 0 av) eqn:E; rprop; [|lra].
    change (da_int d1) with (da_int d). rewrite Hint. reflexivity.
  - intros Hc. eexists. intros fuel Hf. destruct fuel as [|fuel]; [lia|].
    unfold greedy_portfolio. rewrite greedy_long_only by assumption. fold d1.
    unfold greedy_long. rewrite E1. cbn [rbind second_round]. runfold.
    destruct (Rltb 0 av) eqn:E; rprop; [exfalso; clear - E Hc Hcost; lra|]. cbn [rbind].
    assert (av = 0) as -> by lra. reflexivity.
Qed.
