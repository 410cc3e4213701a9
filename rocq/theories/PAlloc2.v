(** * Termination and absence of assertion failures for the greedy allocation *)
From Coq Require Import ZArith List Bool Reals Lra Lia Permutation Sorted.
From Verif Require Import Num Py MAlloc SAlloc RBase PyLemmas PAlloc.
Import ListNotations.
Local Open Scope R_scope.

Lemma inner_terminates : forall fuel ws prices av df idx price c,
  (c <= 10)%nat -> (11 - c < fuel)%nat ->
  inner (A:=R) fuel ws prices av df idx price c <> Err OutOfFuel.
Proof.
  induction fuel as [|fuel IH]; intros ws prices av df idx price c Hc Hf; [lia|].
  cbn [inner]. runfold. destruct (Rltb av price); [|discriminate].
  destruct (fneg _ || Nat.eqb c 10) eqn:Eb; [discriminate|].
  apply orb_false_iff in Eb. destruct Eb as [_ Eb]. apply Nat.eqb_neq in Eb.
  destruct (nth_error ws _) as [[t w]|]; [|discriminate].
  unfold dgetE. destruct (dget t prices); cbn [rbind]; [|discriminate].
  apply IH; lia.
Qed.

Lemma nat_above : forall x, exists k, x < INR k.
Proof.
  intros x. exists (Z.to_nat (Z.max 0 (up x))).
  rewrite INR_IZR_INZ, Z2Nat.id by lia.
  destruct (archimed x) as [H _]. eapply Rlt_le_trans; [exact H|]. apply IZR_le. lia.
Qed.

(** a positive lower bound for all prices *)
Lemma min_price : forall prices, positive_prices prices ->
  exists m, 0 < m /\ forall t p, In (t, p) prices -> m <= p.
Proof.
  induction prices as [|[t p] prices IH]; intros H.
  - exists 1. split; [lra|]. intros t p [].
  - destruct IH as [m [Hm Hle]]; [intros t' p' Hin; apply (H t'); right; exact Hin|].
    assert (0 < p) by (apply (H t); left; reflexivity).
    exists (Rmin m p). split; [apply Rmin_pos; assumption|].
    intros t' p' [E|Hin].
    + inversion E; subst. apply Rmin_r.
    + eapply Rle_trans; [apply Rmin_l|eauto].
Qed.

Lemma second_round_terminates : forall k ip ws prices ps ss av m,
  priced ws prices ps -> length ss = length ws ->
  0 < m -> (forall t p, In (t, p) prices -> m <= p) ->
  av <= INR k * m ->
  second_round (A:=R) (S k) ip ws prices ps ss av <> Err OutOfFuel.
Proof.
  induction k as [|k IH]; intros ip ws prices ps ss av m Hpr Hlen Hm Hmin Hav.
  - cbn [second_round]. runfold. simpl in Hav.
    destruct (Rltb 0 av) eqn:E; rprop; [lra|discriminate].
  - remember (S k) as k1. cbn [second_round]. runfold.
    destruct (Rltb 0 av) eqn:E; rprop; [|discriminate].
    destruct ip; [discriminate|].
    destruct (deficits ws ps ss) as [df|] eqn:Ed; cbn [rbind].
    2:{ unfold deficits in Ed. destruct (neqb _ _); [destruct (forallb _ _)|]; inversion Ed; discriminate. }
    pose proof (priced_length _ _ _ Hpr) as Hlp.
    pose proof (deficits_length _ _ _ _ Hlp Hlen Ed) as Hldf.
    destruct (nth_error ws (argmax df)) as [[t w]|] eqn:Ew; [|discriminate].
    unfold dgetE. destruct (dget t prices) as [p|] eqn:Ep; cbn [rbind]; [|discriminate].
    destruct (inner inner_fuel ws prices av df (argmax df) p 0) as [[[[df' i'] p'] c']|e] eqn:Ei;
      cbn [rbind].
    2:{ intros He; inversion He; subst.
        revert Ei. apply inner_terminates; unfold inner_fuel; lia. }
    assert (Hn : nth_error ps (argmax df) = Some p) by (eapply priced_nth; eauto).
    destruct (inner_spec _ _ _ _ _ _ _ _ _ _ _ _ _ Hpr Hldf Hn Ei) as [Hl' Hbuy].
    destruct (fnonpos (at_idx df' i') || Nat.eqb c' 10) eqn:Eb; [discriminate|].
    destruct (Hbuy eq_refl) as [Hp' Hle]. subst k1.
    apply IH with (m := m); auto.
    + rewrite list_set_length; assumption.
    + assert (m <= p').
      { assert (exists kv, nth_error ws i' = Some kv /\ dget (fst kv) prices = Some p') as [kv [_ Hkv]].
        { clear - Hpr Hp'. revert i' Hp'. induction Hpr; intros i' Hp'; destruct i'; simpl in *;
            try discriminate; [inversion Hp'; subst; eauto|eauto]. }
        apply dget_In in Hkv. eauto. }
      rewrite S_INR in Hav. lra.
Qed.

(** more fuel never changes an answer *)
Lemma second_round_stable : forall f f' ip ws prices ps ss av,
  (f <= f')%nat -> second_round (A:=R) f ip ws prices ps ss av <> Err OutOfFuel ->
  second_round f' ip ws prices ps ss av = second_round f ip ws prices ps ss av.
Proof.
  induction f as [|f IH]; intros f' ip ws prices ps ss av Hle H; [simpl in H; congruence|].
  destruct f' as [|f']; [lia|].
  cbn [second_round] in H |- *. runfold.
  destruct (Rltb 0 av); [|reflexivity].
  destruct ip; [reflexivity|].
  destruct (deficits ws ps ss) as [df|]; cbn [rbind] in *; [|reflexivity].
  destruct (nth_error ws (argmax df)) as [[t w]|]; [|reflexivity].
  destruct (dgetE t prices) as [p|]; cbn [rbind] in *; [|reflexivity].
  destruct (inner inner_fuel ws prices av df (argmax df) p 0) as [[[[df' i'] p'] c']|e];
    cbn [rbind] in *; [|reflexivity].
  destruct (fnonpos (at_idx df' i') || Nat.eqb c' 10); [reflexivity|].
  apply IH; [lia|exact H].
Qed.

(** "the call has result v for all large enough fuel" *)
Definition settles {X} (f : nat -> res X) (v : res X) : Prop :=
  v <> Err OutOfFuel /\ exists f0, forall fuel, (f0 <= fuel)%nat -> f fuel = v.

Lemma first_round_fuel_err : forall prices T ws av,
  first_round (A:=R) prices T ws av <> Err OutOfFuel.
Proof.
  induction ws as [|[t w] ws IH]; intros av; simpl; [discriminate|].
  unfold dgetE; destruct (dget t prices) as [p|]; simpl; [|discriminate].
  destruct (Reqb p 0); [destruct (Reqb (w * T) 0); discriminate|].
  destruct (Rleb _ av); [|discriminate].
  specialize (IH (av - IZR (Rtrunc (w * T / p)) * p)).
  destruct (first_round prices T ws _) as [[[a s] q]|e]; simpl; [discriminate|congruence].
Qed.

Lemma greedy_long_settles : forall d, positive_prices (da_prices d) ->
  exists v, settles (fun fuel => greedy_long (A:=R) fuel d) v.
Proof.
  intros d Hpos. unfold greedy_long.
  destruct (first_round (da_prices d) (da_total d) (da_weights d) (da_total d))
    as [[[av ss] ps]|e] eqn:E1; cbn [rbind].
  - destruct (first_round_spec _ _ _ _ _ _ _ E1) as [F1 [F2 _]].
    destruct (min_price _ Hpos) as [m [Hm Hmin]].
    destruct (nat_above (av / m)) as [k Hk].
    assert (Hav : av <= INR k * m).
    { apply Rmult_lt_compat_r with (r := m) in Hk; [|assumption].
      unfold Rdiv in Hk. rewrite Rmult_assoc, Rinv_l, Rmult_1_r in Hk by lra. lra. }
    pose proof (second_round_terminates k (da_int d) _ _ _ _ _ _ F1 F2 Hm Hmin Hav) as Ht.
    destruct (second_round (S k) (da_int d) (da_weights d) (da_prices d) ps ss av)
      as [[av' ss']|e] eqn:E2.
    + eexists; split; [|exists (S k); intros fuel Hf;
        rewrite (second_round_stable _ _ _ _ _ _ _ _ Hf) by congruence; rewrite E2; cbn [rbind]; reflexivity].
      discriminate.
    + exists (Err e). split; [congruence|]. exists (S k). intros fuel Hf.
      rewrite (second_round_stable _ _ _ _ _ _ _ _ Hf) by congruence. rewrite E2. reflexivity.
  - exists (Err e). split.
    + intros He. inversion He; subst. apply (first_round_fuel_err _ _ _ _ E1).
    + exists O. reflexivity.
Qed.


Lemma all_some_some_dict : forall w : dict R, all_some (some_dict w) = Some w.
Proof. induction w as [|[k v] w IH]; simpl; [reflexivity|]. fold (some_dict (A:=R) w). rewrite IH. reflexivity. Qed.

Lemma select_prices_spec : forall (p : dict R) keys ps, select_prices p keys = Ok ps ->
  map fst ps = keys /\ forall k v, In (k, v) ps -> dget k p = Some v.
Proof.
  intros p. unfold select_prices. induction keys as [|k keys IH]; intros ps H; simpl in H.
  - inversion H; subst. split; [reflexivity|intros k v []].
  - unfold dgetE in H. destruct (dget k p) as [v|] eqn:E; simpl in H; [|discriminate].
    destruct (mapM _ keys) as [ps'|] eqn:E'; simpl in H; [|discriminate].
    inversion H; subst. destruct (IH _ eq_refl) as [H1 H2]. split; [simpl; congruence|].
    intros k' v' [Hin|Hin]; [inversion Hin; subst; assumption|auto].
Qed.

Lemma sub_da_spec : forall d w T d1, sub_da (A:=R) d w T = Ok d1 ->
  da_weights d1 = w /\ da_total d1 = T /\ 0 < T /\ da_int d1 = da_int d /\
  select_prices (da_prices d) (map fst w) = Ok (da_prices d1) /\
  da_short_ratio d1 = default_short_ratio w.
Proof.
  intros d w T d1 H. unfold sub_da in H.
  destruct (select_prices (da_prices d) (map fst w)) as [ps|]; cbn [rbind] in H; [|discriminate].
  unfold da_init in H. rewrite !all_some_some_dict in H. runfold.
  destruct (Rleb T 0) eqn:E; rprop; [discriminate|].
  inversion H; subst; simpl. repeat split; assumption.
Qed.

Lemma sub_da_positive : forall d w T d1, sub_da (A:=R) d w T = Ok d1 ->
  positive_prices (da_prices d) -> positive_prices (da_prices d1).
Proof.
  intros d w T d1 H Hp t p Hin. apply sub_da_spec in H.
  destruct H as [_ [_ [_ [_ [H _]]]]]. apply select_prices_spec in H. destruct H as [_ H].
  apply (Hp t). apply dget_In. eauto.
Qed.

Lemma sub_da_no_fuel : forall d w T, sub_da (A:=R) d w T <> Err OutOfFuel.
Proof.
  intros d w T. unfold sub_da.
  destruct (select_prices (da_prices d) (map fst w)) as [ps|e] eqn:E; cbn [rbind].
  - unfold da_init. rewrite !all_some_some_dict. destruct (nleb T n0); discriminate.
  - intros He; inversion He; subst.
    clear He. unfold select_prices in E. induction (map fst w) as [|k l IH]; simpl in E; [discriminate|].
    unfold dgetE in E. destruct (dget k (da_prices d)); simpl in E; [|discriminate].
    destruct (mapM _ l) eqn:E'; simpl in E; [discriminate|]. inversion E; subst. auto.
Qed.

Lemma normalise_no_fuel : forall w, normalise (A:=R) w <> Err OutOfFuel.
Proof. intros w. unfold normalise. destruct (neqb _ _); [destruct w|]; discriminate. Qed.

(** weights of the two sub-portfolios are non-negative *)
Lemma longs_of_nonneg : forall w, long_only (longs_of (A:=R) w).
Proof.
  intros w t x Hin. unfold longs_of in Hin. apply filter_In in Hin. destruct Hin as [_ H].
  simpl in H. rprop. assumption.
Qed.
Lemma shorts_of_nonneg : forall w, long_only (shorts_of (A:=R) w).
Proof.
  intros w t x Hin. unfold shorts_of in Hin. apply in_map_iff in Hin.
  destruct Hin as [[t' y] [E Hin]]. apply filter_In in Hin. destruct Hin as [_ H].
  simpl in *. rprop. inversion E; subst. lra.
Qed.
Lemma normalise_nonneg : forall w v, long_only w -> normalise (A:=R) w = Ok v -> long_only v.
Proof.
  intros w v Hl H. unfold normalise in H. runfold.
  destruct (Reqb (vsum (map snd w)) 0) eqn:E; rprop.
  - destruct w; inversion H; subst. exact Hl.
  - inversion H; subst. intros t x Hin. apply in_map_iff in Hin.
    destruct Hin as [[t' y] [E1 Hin]]. simpl in E1. inversion E1; subst.
    assert (0 <= vsum (map snd w)).
    { apply vsum_nonneg. apply Forall_forall. intros z Hz. apply in_map_iff in Hz.
      destruct Hz as [[t'' z'] [<- Hz]]. simpl. eapply Hl; eauto. }
    assert (0 <= y) by (eapply Hl; eauto).
    apply Rmult_le_pos; [assumption|]. left. apply Rinv_0_lt_compat. lra.
Qed.

Lemma greedy_at_long_settles : forall depth d r,
  long_only (da_weights d) -> positive_prices (da_prices d) ->
  exists v, settles (fun fuel => snd (greedy_at (A:=R) (S depth) fuel d r)) v.
Proof.
  intros depth d r Hl Hpos.
  destruct (da_weights d) as [|kv w] eqn:Ew.
  - exists (Err IndexError). split; [discriminate|]. exists O. intros fuel _.
    cbn [greedy_at set_weights_da da_weights]. rewrite Ew. reflexivity.
  - rewrite <- Ew in Hl.
    set (d1 := set_weights_da d (sort_weights (da_weights d))).
    destruct (greedy_long_settles d1 Hpos) as [v [Hv [f0 Hf]]].
    exists v. split; [assumption|]. exists f0. intros fuel Hfuel.
    rewrite greedy_long_only by (auto; rewrite Ew; discriminate). fold d1.
    rewrite (Hf fuel Hfuel). destruct v as [[al lo]|]; reflexivity.
Qed.

Lemma greedy_settles : forall d r, positive_prices (da_prices d) ->
  exists v, settles (fun fuel => snd (greedy_portfolio (A:=R) fuel d r)) v.
Proof.
  intros d r Hpos. unfold greedy_portfolio.
  set (d1 := set_weights_da d (sort_weights (da_weights d))).
  destruct (last_weight (da_weights d1)) as [x|] eqn:El.
  2:{ exists (Err IndexError). split; [discriminate|]. exists O. intros fuel _.
      cbn [greedy_at]. fold d1. rewrite El. reflexivity. }
  destruct (Rltb x 0) eqn:Ex.
  2:{ rprop. apply greedy_at_long_settles; [|assumption].
      intros t y Hin. assert (x <= y); [|lra].
      apply last_weight_sorted_min with (w := da_weights d) (t := t); assumption. }
  (* long/short *)
  destruct (normalise (longs_of (da_weights d1))) as [longs|e] eqn:E1.
  2:{ exists (Err e). split; [intros He; inversion He; subst; apply (normalise_no_fuel _ E1)|].
      exists O. intros fuel _. cbn [greedy_at]. fold d1. rewrite El. runfold. rewrite Ex, E1. reflexivity. }
  destruct (normalise (shorts_of (da_weights d1))) as [shorts|e] eqn:E2.
  2:{ exists (Err e). split; [intros He; inversion He; subst; apply (normalise_no_fuel _ E2)|].
      exists O. intros fuel _. cbn [greedy_at]. fold d1. rewrite El. runfold. rewrite Ex, E1, E2. reflexivity. }
  set (sv := da_total d1 * da_short_ratio d1).
  set (lv := if r then da_total d1 + sv else da_total d1).
  destruct (sub_da d1 longs lv) as [da1|e] eqn:E3.
  2:{ exists (Err e). split; [intros He; inversion He; subst; apply (sub_da_no_fuel _ _ _ E3)|].
      exists O. intros fuel _. cbn [greedy_at]. fold d1. rewrite El. runfold. rewrite Ex, E1, E2.
      cbn [rbind]. fold sv. fold lv. rewrite E3. reflexivity. }
  assert (Hp1 : positive_prices (da_prices da1)) by (eapply sub_da_positive; [exact E3|exact Hpos]).
  assert (Hl1 : long_only (da_weights da1)).
  { apply sub_da_spec in E3. destruct E3 as [-> _].
    eapply normalise_nonneg; [apply longs_of_nonneg|exact E1]. }
  destruct (greedy_at_long_settles 0 da1 false Hl1 Hp1) as [v1 [Hv1 [f1 Hf1]]].
  destruct v1 as [[al1 lo1]|e1].
  2:{ exists (Err e1). split; [congruence|]. exists f1. intros fuel Hfuel.
      remember 1%nat as one.
      cbn [greedy_at]. fold d1. rewrite El. runfold. rewrite Ex, E1, E2.
      cbn [rbind]. fold sv. fold lv. rewrite E3. cbn [rbind]. subst one.
      rewrite (Hf1 fuel Hfuel). reflexivity. }
  destruct (sub_da d1 shorts sv) as [da2|e] eqn:E4.
  2:{ exists (Err e). split; [intros He; inversion He; subst; apply (sub_da_no_fuel _ _ _ E4)|].
      exists f1. intros fuel Hfuel. remember 1%nat as one.
      cbn [greedy_at]. fold d1. rewrite El. runfold. rewrite Ex, E1, E2.
      cbn [rbind]. fold sv. fold lv. rewrite E3. cbn [rbind]. subst one.
      rewrite (Hf1 fuel Hfuel). cbn [rbind]. rewrite E4. reflexivity. }
  assert (Hp2 : positive_prices (da_prices da2)) by (eapply sub_da_positive; [exact E4|exact Hpos]).
  assert (Hl2 : long_only (da_weights da2)).
  { apply sub_da_spec in E4. destruct E4 as [-> _].
    eapply normalise_nonneg; [apply shorts_of_nonneg|exact E2]. }
  destruct (greedy_at_long_settles 0 da2 false Hl2 Hp2) as [v2 [Hv2 [f2 Hf2]]].
  assert (Hres : forall fuel, (max f1 f2 <= fuel)%nat ->
    snd (greedy_at 2 fuel d r) =
    match v2 with
    | Ok (al2, lo2) => Ok (remove_zero_positions (dupdate al1 (negate_alloc al2)), lo1 + lo2)
    | Err e => Err e
    end).
  { intros fuel Hfuel. remember 1%nat as one.
    cbn [greedy_at]. fold d1. rewrite El. runfold. rewrite Ex, E1, E2.
    cbn [rbind]. fold sv. fold lv. rewrite E3. cbn [rbind]. subst one.
    rewrite (Hf1 fuel) by lia. cbn [rbind]. rewrite E4. cbn [rbind].
    rewrite (Hf2 fuel) by lia. destruct v2 as [[al2 lo2]|]; reflexivity. }
  eexists. split; [|exists (max f1 f2); exact Hres].
  destruct v2 as [[al2 lo2]|e2]; [discriminate|]. congruence.
Qed.

(** ** No assertion failure (C04) *)
Lemma total_weight_vsum : forall w, total_weight w = vsum (A:=R) (map snd w).
Proof. induction w as [|[t x] w IH]; simpl; rewrite ?vsum_nil, ?vsum_cons; [reflexivity|rewrite IH; reflexivity]. Qed.

Lemma total_weight_perm : forall a b, Permutation a b -> total_weight a = total_weight b.
Proof. intros a b H. rewrite !total_weight_vsum. apply vsum_perm. apply Permutation_map. exact H. Qed.

Lemma first_round_total : forall prices T ws av,
  0 < T -> long_only ws -> all_priced ws prices -> positive_prices prices ->
  total_weight ws * T <= av ->
  exists av' ss ps, first_round (A:=R) prices T ws av = Ok (av', ss, ps) /\
    Forall (fun s => (0 <= s)%Z) ss.
Proof.
  intros prices T. induction ws as [|[t w] ws IH]; intros av HT Hl Hap Hpos Hav.
  - simpl. exists av, [], []. split; [reflexivity|constructor].
  - destruct (Hap t w) as [p Hp]; [left; reflexivity|].
    assert (Hpp : 0 < p) by (apply (Hpos t), dget_In; exact Hp).
    assert (Hw : 0 <= w) by (apply (Hl t); left; reflexivity).
    assert (Hl' : long_only ws) by (intros t' x Hin; apply (Hl t'); right; exact Hin).
    simpl in Hav.
    assert (Htw : 0 <= total_weight ws).
    { rewrite total_weight_vsum. apply vsum_nonneg. apply Forall_forall. intros z Hz.
      apply in_map_iff in Hz. destruct Hz as [[t'' z'] [<- Hz]]. simpl. eapply Hl'; eauto. }
    simpl. unfold dgetE. rewrite Hp. cbn [rbind].
    destruct (Reqb p 0) eqn:Ep; rprop; [lra|].
    assert (Hq : 0 <= w * T / p).
    { apply Rmult_le_pos; [apply Rmult_le_pos; lra|left; apply Rinv_0_lt_compat; assumption]. }
    destruct (Rtrunc_nonneg _ Hq) as [Hz [Hz1 Hz2]].
    assert (Hc : IZR (Rtrunc (w * T / p)) * p <= w * T).
    { apply Rmult_le_compat_r with (r := p) in Hz1; [|lra].
      replace (w * T / p * p) with (w * T) in Hz1 by (field; lra). exact Hz1. }
    destruct (Rleb (IZR (Rtrunc (w * T / p)) * p) av) eqn:Ec; rprop.
    2:{ exfalso. assert (0 <= total_weight ws * T) by (apply Rmult_le_pos; lra). lra. }
    destruct (IH (av - IZR (Rtrunc (w * T / p)) * p)) as [av' [ss [ps [E F]]]]; auto.
    + intros t' x Hin. apply (Hap t' x). right; exact Hin.
    + lra.
    + rewrite E. cbn [rbind]. do 3 eexists. split; [reflexivity|]. constructor; assumption.
Qed.

Lemma deficits_total : forall ws ps ss,
  Forall (fun p => 0 < p) ps -> Forall (fun s => (0 <= s)%Z) ss ->
  exists df, deficits (A:=R) ws ps ss = Ok df.
Proof.
  intros ws ps ss Hp Hs. unfold deficits. runfold.
  destruct (Reqb _ 0) eqn:E; [|eauto]. rprop.
  assert (Hf : forallb (fun c => Reqb c 0) (map2 (fun p n => p * IZR n) ps ss) = true).
  { assert (Hnn : Forall (fun c => 0 <= c) (map2 (fun p n => p * IZR n) ps ss)).
    { clear E. revert ss Hs. induction Hp as [|p ps Hp Hps IH]; intros ss Hs; [constructor|].
      destruct Hs as [|s ss Hs Hss]; simpl; constructor; [|apply IH; assumption].
      apply Rmult_le_pos; [lra|]. apply IZR_le in Hs. exact Hs. }
    revert E Hnn. generalize (map2 (fun p n => p * IZR n) ps ss). intros l.
    induction l as [|c l IH]; intros E Hnn; [reflexivity|].
    inversion Hnn; subst. rewrite vsum_cons in E.
    assert (0 <= vsum l) by (apply vsum_nonneg; assumption).
    simpl. apply andb_true_intro. split; [rprop; lra|]. apply IH; [lra|assumption]. }
  rewrite Hf. eauto.
Qed.

Lemma inner_total : forall fuel ws prices av df idx price c,
  (c <= 10)%nat -> (11 - c < fuel)%nat -> length df = length ws -> ws <> [] ->
  all_priced ws prices ->
  exists r, inner (A:=R) fuel ws prices av df idx price c = Ok r.
Proof.
  induction fuel as [|fuel IH]; intros ws prices av df idx price c Hc Hf Hlen Hne Hap; [lia|].
  cbn [inner]. runfold. destruct (Rltb av price); [|eauto].
  destruct (fneg _ || Nat.eqb c 10) eqn:Eb; [eauto|].
  apply orb_false_iff in Eb. destruct Eb as [_ Eb]. apply Nat.eqb_neq in Eb.
  set (df1 := list_set idx (Some 0) df) in *.
  assert (Hl1 : length df1 = length ws) by (unfold df1; rewrite list_set_length; assumption).
  assert (Hi : (argmax df1 < length ws)%nat).
  { rewrite <- Hl1. apply argmax_lt. destruct df1, ws; simpl in *; congruence. }
  destruct (nth_error ws (argmax df1)) as [[t w]|] eqn:Ew.
  - destruct (Hap t w) as [p Hp]; [eapply nth_error_In; eauto|].
    unfold dgetE. rewrite Hp. cbn [rbind]. apply IH; auto; lia.
  - apply nth_error_None in Ew. lia.
Qed.

Lemma second_round_total : forall k ws prices ps ss av m,
  priced ws prices ps -> length ss = length ws -> ws <> [] -> all_priced ws prices ->
  Forall (fun p => 0 < p) ps -> Forall (fun s => (0 <= s)%Z) ss ->
  0 < m -> (forall t p, In (t, p) prices -> m <= p) ->
  av <= INR k * m ->
  exists r, second_round (A:=R) (S k) false ws prices ps ss av = Ok r.
Proof.
  induction k as [|k IH]; intros ws prices ps ss av m Hpr Hlen Hne Hap Hpp Hss Hm Hmin Hav.
  - cbn [second_round]. runfold. simpl in Hav.
    destruct (Rltb 0 av) eqn:E; rprop; [lra|eauto].
  - remember (S k) as k1. cbn [second_round]. runfold.
    destruct (Rltb 0 av) eqn:E; rprop; [|eauto].
    destruct (deficits_total ws ps ss Hpp Hss) as [df Ed]. rewrite Ed. cbn [rbind].
    pose proof (priced_length _ _ _ Hpr) as Hlp.
    pose proof (deficits_length _ _ _ _ Hlp Hlen Ed) as Hldf.
    assert (Hi : (argmax df < length ws)%nat).
    { rewrite <- Hldf. apply argmax_lt. destruct df, ws; simpl in *; congruence. }
    destruct (nth_error ws (argmax df)) as [[t w]|] eqn:Ew; [|apply nth_error_None in Ew; lia].
    destruct (Hap t w) as [p Hp]; [eapply nth_error_In; eauto|].
    unfold dgetE. rewrite Hp. cbn [rbind].
    destruct (inner_total inner_fuel ws prices av df (argmax df) p 0) as [[[[df' i'] p'] c'] Ei];
      auto; try (unfold inner_fuel; lia).
    rewrite Ei. cbn [rbind].
    assert (Hn : nth_error ps (argmax df) = Some p) by (eapply priced_nth; eauto).
    destruct (inner_spec _ _ _ _ _ _ _ _ _ _ _ _ _ Hpr Hldf Hn Ei) as [Hl' Hbuy].
    destruct (fnonpos (at_idx df' i') || Nat.eqb c' 10) eqn:Eb; [eauto|].
    destruct (Hbuy eq_refl) as [Hp' Hle]. subst k1.
    apply IH with (m := m); auto.
    + rewrite list_set_length; assumption.
    + clear - Hss. revert i'. induction Hss as [|s ss Hs Hss IH]; intros i'; destruct i'; simpl;
        constructor; auto; lia.
    + assert (m <= p').
      { assert (exists kv, nth_error ws i' = Some kv /\ dget (fst kv) prices = Some p') as [kv [_ Hkv]].
        { clear - Hpr Hp'. revert i' Hp'. induction Hpr; intros i' Hp'; destruct i'; simpl in *;
            try discriminate; [inversion Hp'; subst; eauto|eauto]. }
        apply dget_In in Hkv. eauto. }
      rewrite S_INR in Hav. lra.
Qed.

Lemma priced_positive : forall ws prices ps, priced ws prices ps -> positive_prices prices ->
  Forall (fun p => 0 < p) ps.
Proof.
  intros ws prices ps H Hpos. induction H; constructor; auto.
  apply (Hpos (fst x)), dget_In. assumption.
Qed.

Lemma greedy_long_total : forall d,
  0 < da_total d -> long_only (da_weights d) -> da_weights d <> [] ->
  all_priced (da_weights d) (da_prices d) -> positive_prices (da_prices d) ->
  total_weight (da_weights d) <= 1 -> da_int d = false ->
  exists al lo f0, forall fuel, (f0 <= fuel)%nat -> greedy_long (A:=R) fuel d = Ok (al, lo).
Proof.
  intros d HT Hl Hne Hap Hpos Hsum Hint. unfold greedy_long.
  destruct (first_round_total (da_prices d) (da_total d) (da_weights d) (da_total d))
    as [av [ss [ps [E1 Hss]]]]; auto.
  { rewrite <- (Rmult_1_l (da_total d)) at 2. apply Rmult_le_compat_r; lra. }
  rewrite E1. cbn [rbind].
  destruct (first_round_spec _ _ _ _ _ _ _ E1) as [F1 [F2 _]].
  destruct (min_price _ Hpos) as [m [Hm Hmin]].
  destruct (nat_above (av / m)) as [k Hk].
  assert (Hav : av <= INR k * m).
  { apply Rmult_lt_compat_r with (r := m) in Hk; [|assumption].
    unfold Rdiv in Hk. rewrite Rmult_assoc, Rinv_l, Rmult_1_r in Hk by lra. lra. }
  destruct (second_round_total k _ _ ps ss av m F1 F2 Hne Hap
              (priced_positive _ _ _ F1 Hpos) Hss Hm Hmin Hav) as [[av' ss'] E2].
  rewrite Hint. do 2 eexists. exists (S k). intros fuel Hf.
  rewrite (second_round_stable _ _ _ _ _ _ _ _ Hf) by congruence. rewrite E2. cbn [rbind]. reflexivity.
Qed.

Lemma greedy_at_total : forall depth d r,
  0 < da_total d -> long_only (da_weights d) -> da_weights d <> [] ->
  all_priced (da_weights d) (da_prices d) -> positive_prices (da_prices d) ->
  total_weight (da_weights d) <= 1 -> da_int d = false ->
  exists al lo f0, forall fuel, (f0 <= fuel)%nat ->
    snd (greedy_at (A:=R) (S depth) fuel d r) = Ok (al, lo).
Proof.
  intros depth d r HT Hl Hne Hap Hpos Hsum Hint.
  set (d1 := set_weights_da d (sort_weights (da_weights d))).
  pose proof (sort_weights_perm (da_weights d)) as Hperm.
  destruct (greedy_long_total d1) as [al [lo [f0 Hf]]]; auto.
  - apply long_only_perm with (a := da_weights d); [symmetry; exact Hperm|assumption].
  - simpl. intros E. apply Hne. rewrite E in Hperm. apply Permutation_nil in Hperm. assumption.
  - intros t x Hin. apply (Hap t x). eapply Permutation_in; [exact Hperm|exact Hin].
  - change (da_weights d1) with (sort_weights (da_weights d)).
    rewrite (total_weight_perm _ _ Hperm). assumption.
  - exists al, lo, f0. intros fuel Hfuel. rewrite greedy_long_only by assumption. fold d1.
    rewrite (Hf fuel Hfuel). reflexivity.
Qed.

(** the assertion itself, without any hypothesis on labels or dtype *)
Lemma first_round_no_assert : forall prices T ws av,
  0 < T -> long_only ws -> positive_prices prices ->
  total_weight ws * T <= av ->
  first_round (A:=R) prices T ws av <> Err AssertionError.
Proof.
  intros prices T. induction ws as [|[t w] ws IH]; intros av HT Hl Hpos Hav; [discriminate|].
  simpl. unfold dgetE. destruct (dget t prices) as [p|] eqn:Hp; cbn [rbind]; [|discriminate].
  assert (Hpp : 0 < p) by (apply (Hpos t), dget_In; exact Hp).
  assert (Hw : 0 <= w) by (apply (Hl t); left; reflexivity).
  assert (Hl' : long_only ws) by (intros t' x Hin; apply (Hl t'); right; exact Hin).
  simpl in Hav.
  assert (Htw : 0 <= total_weight ws).
  { rewrite total_weight_vsum. apply vsum_nonneg. apply Forall_forall. intros z Hz.
    apply in_map_iff in Hz. destruct Hz as [[t'' z'] [<- Hz]]. simpl. eapply Hl'; eauto. }
  destruct (Reqb p 0) eqn:Ep; rprop; [lra|].
  assert (Hq : 0 <= w * T / p).
  { apply Rmult_le_pos; [apply Rmult_le_pos; lra|left; apply Rinv_0_lt_compat; assumption]. }
  destruct (Rtrunc_nonneg _ Hq) as [Hz [Hz1 Hz2]].
  assert (Hc : IZR (Rtrunc (w * T / p)) * p <= w * T).
  { apply Rmult_le_compat_r with (r := p) in Hz1; [|lra].
    replace (w * T / p * p) with (w * T) in Hz1 by (field; lra). exact Hz1. }
  destruct (Rleb (IZR (Rtrunc (w * T / p)) * p) av) eqn:Ec; rprop.
  2:{ exfalso. assert (0 <= total_weight ws * T) by (apply Rmult_le_pos; lra). lra. }
  specialize (IH (av - IZR (Rtrunc (w * T / p)) * p) HT Hl' Hpos).
  destruct (first_round prices T ws _) as [[[a s] q]|e]; cbn [rbind]; [discriminate|].
  assert (Err e <> @Err (R * list Z * list R) AssertionError) by (apply IH; lra). congruence.
Qed.

Lemma inner_no_assert : forall fuel ws prices av df idx price c,
  inner (A:=R) fuel ws prices av df idx price c <> Err AssertionError.
Proof.
  induction fuel as [|fuel IH]; intros ws prices av df idx price c; [discriminate|].
  cbn [inner]. destruct (nltb av price); [|discriminate].
  destruct (fneg _ || Nat.eqb c 10) eqn:Eb; [discriminate|].
  destruct (nth_error ws _) as [[t w]|]; [|discriminate].
  unfold dgetE. destruct (dget t prices); cbn [rbind]; [|discriminate]. apply IH.
Qed.

Lemma second_round_no_assert : forall fuel ip ws prices ps ss av,
  second_round (A:=R) fuel ip ws prices ps ss av <> Err AssertionError.
Proof.
  induction fuel as [|f IH]; intros ip ws prices ps ss av; [discriminate|].
  cbn [second_round]. destruct (nltb n0 av); [|discriminate].
  destruct ip; [discriminate|].
  destruct (deficits ws ps ss) as [df|e] eqn:Ed; cbn [rbind].
  2:{ unfold deficits in Ed. destruct (neqb _ _); [destruct (forallb _ _)|]; inversion Ed; discriminate. }
  destruct (nth_error ws (argmax df)) as [[t w]|]; [|discriminate].
  unfold dgetE. destruct (dget t prices) as [p|]; cbn [rbind]; [|discriminate].
  destruct (inner inner_fuel ws prices av df (argmax df) p 0) as [[[[df' i'] p'] c']|e] eqn:Ei;
    cbn [rbind].
  - destruct (fnonpos (at_idx df' i') || Nat.eqb c' 10); [discriminate|]. apply IH.
  - intros He; inversion He; subst. apply (inner_no_assert _ _ _ _ _ _ _ _ Ei).
Qed.

Lemma greedy_no_assert : forall fuel d r,
  valid_da d -> long_only (da_weights d) -> positive_prices (da_prices d) ->
  total_weight (da_weights d) <= 1 ->
  snd (greedy_portfolio (A:=R) fuel d r) <> Err AssertionError.
Proof.
  intros fuel d r [_ [HT _]] Hl Hpos Hsum. unfold greedy_portfolio.
  destruct (da_weights d) as [|kv w] eqn:Ew.
  { cbn [greedy_at set_weights_da da_weights]. rewrite Ew. discriminate. }
  rewrite <- Ew in *.
  rewrite greedy_long_only by (auto; rewrite Ew; discriminate).
  set (d1 := set_weights_da d (sort_weights (da_weights d))) in *.
  pose proof (sort_weights_perm (da_weights d)) as Hperm.
  assert (greedy_long fuel d1 <> Err AssertionError).
  { unfold greedy_long.
    destruct (first_round (da_prices d1) (da_total d1) (da_weights d1) (da_total d1))
      as [[[av ss] ps]|e] eqn:E1; cbn [rbind].
    - destruct (second_round fuel (da_int d1) (da_weights d1) (da_prices d1) ps ss av)
        as [[av' ss']|e] eqn:E2; cbn [rbind]; [discriminate|].
      intros He; inversion He; subst. apply (second_round_no_assert _ _ _ _ _ _ _ E2).
    - intros He; inversion He; subst. revert E1. apply first_round_no_assert; auto.
      + apply long_only_perm with (a := da_weights d); [symmetry; exact Hperm|assumption].
      + change (da_weights d1) with (sort_weights (da_weights d)).
        rewrite (total_weight_perm _ _ Hperm).
        rewrite <- (Rmult_1_l (da_total d1)) at 2. apply Rmult_le_compat_r; simpl; lra. }
  destruct (greedy_long fuel d1) as [[al lo]|e]; simpl; [discriminate|congruence].
Qed.
