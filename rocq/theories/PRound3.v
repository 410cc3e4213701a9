(** * Long/short portfolios in rounded arithmetic (C127) *)
From Coq Require Import ZArith List Bool Reals Lra Lia Psatz Permutation.
From Verif Require Import Num Py RBase PyLemmas MAlloc SAlloc SReport MRound SRound SRound2 PAlloc PAlloc2 PAlloc3 PAlloc5 PRound1 PRound2.
Import ListNotations.
Local Open Scope R_scope.
Local Transparent vsum.

Section Rounded.
  Variable rnd : R -> R.
  Hypothesis Hr : rounding rnd.
  Variable u : R.
  Hypothesis Hacc : accurate u rnd.
  Hypothesis Hu : 0 <= u <= 1 / 4.
  Let N : Num R := RndNum rnd.

  (** a long-only portfolio needs no sub-allocation, at any depth *)
  Lemma greedy_at_long : forall k fuel d r, da_weights d <> [] -> long_only (da_weights d) ->
    let d1 := set_weights_da d (sort_weights (da_weights d)) in
    @greedy_at R N (S k) fuel d r = match @greedy_long R N fuel d1 with Ok (al, lo) => (set_alloc d1 al, Ok (al, lo)) | Err e => (d1, Err e) end.
  Proof.
    intros k fuel d r Hne Hl d1. assert (Hp : Permutation (da_weights d1) (da_weights d)) by apply sort_weights_perm.
    cbn [greedy_at]. change (set_weights_da d (@sort_weights R N (da_weights d))) with d1.
    change (da_weights d1) with (sort_weights (da_weights d)).
    destruct (last_weight (sort_weights (da_weights d))) as [x|] eqn:E.
    - destruct (last_weight_in _ _ E) as [t Hin]. assert (0 <= x) by (apply (Hl t); eapply Permutation_in; [exact Hp|exact Hin]).
      change (@nltb R N x (@n0 R N)) with (Rltb x 0). destruct (Rltb x 0) eqn:Ex; rprop; [lra|reflexivity].
    - apply last_weight_none in E. exfalso. change (da_weights d1) with (sort_weights (da_weights d)) in Hp. rewrite E in Hp. apply Permutation_nil in Hp. congruence.
  Qed.

  Lemma sub_rounded : forall fuel d d' al lo, valid_da d -> long_only (da_weights d) -> positive_prices (da_prices d) -> rnd (da_total d) = da_total d ->
    @greedy_at R N 1 fuel d false = (d', Ok (al, lo)) ->
    NoDup (map fst al) /\ 0 <= lo <= da_total d /\
    (forall t n, In (t, n) al -> (0 < n)%Z /\ In t (map fst (da_weights d))) /\
    (forall t w p, In (t, w) (da_weights d) -> dget t (da_prices d) = Some p -> (1 - u) ^ 2 * (w * da_total d) < (IZR (shares_in al t) + 1) * p) /\
    Rabs (alloc_value (da_prices d) al + lo - da_total d) <= u * da_total d * (5 * INR (length (da_weights d)) + share_count al).
  Proof.
    intros fuel d d' al lo Hv Hl Hpos Hf H.
    assert (Hne : da_weights d <> []). { intros E. cbn [greedy_at set_weights_da da_weights] in H. rewrite E in H. discriminate H. }
    assert (H2 : @greedy_portfolio R N fuel d false = (d', Ok (al, lo))).
    { unfold greedy_portfolio. rewrite (greedy_at_long 1 fuel d false Hne Hl). rewrite (greedy_at_long 0 fuel d false Hne Hl) in H. exact H. }
    split; [|apply (greedy_rounded rnd u fuel d false d' al lo Hr Hacc Hu Hv Hl Hpos Hf H2)].
    rewrite (greedy_at_long 0 fuel d false Hne Hl) in H. set (d1 := set_weights_da d (sort_weights (da_weights d))) in *.
    assert (Hp : Permutation (da_weights d1) (da_weights d)) by apply sort_weights_perm.
    destruct (@greedy_long R N fuel d1) as [[al' lo']|] eqn:E; inversion H; subst al' lo'.
    assert (V1 : valid_da d1).
    { destruct Hv as (A & B & C). split; [|split; [exact B|exact C]]. apply NoDup_fst_perm with (a := da_weights d); [symmetry; exact Hp|exact A]. }
    assert (L1 : long_only (da_weights d1)) by (apply long_only_perm with (a := da_weights d); [symmetry; exact Hp|exact Hl]).
    destruct (greedy_long_rounded rnd Hr u Hacc Hu fuel d1 al lo V1 L1 Hpos Hf E) as (ps & ss & P1 & P2 & P3 & _).
    rewrite P3. apply remove_zero_NoDup. rewrite combine_map_fst by (rewrite map_length; auto). apply V1.
  Qed.

  (** ** Normalised weights *)
  Lemma vsum_rounded_upper : forall l a b, Forall (fun x => 0 <= x) l -> 0 <= a <= b ->
    fold_left (fun x y => @nadd R N x y) l a <= (1 + u) ^ length l * (b + fold_right Rplus 0 l).
  Proof.
    induction l as [|x l IH]; intros a b Hl Hab; cbn [fold_left length fold_right pow]; [lra|].
    inversion Hl as [|? ? Hx Hl']; subst. change (@nadd R N a x) with (rnd (a + x)).
    pose proof (err_pos rnd u Hacc (a + x) ltac:(lra)) as [E1 E2].
    eapply Rle_trans; [apply (IH (rnd (a + x)) ((1 + u) * (b + x)) Hl')|].
    - split; [nra|]. eapply Rle_trans; [exact E2|]. apply Rmult_le_compat_l; lra.
    - assert (S0 : 0 <= fold_right Rplus 0 l). { clear - Hl'. induction Hl'; cbn [fold_right]; lra. }
      assert (P0 : 0 <= (1 + u) ^ length l) by (apply pow_le; lra).
      replace ((1 + u) * (1 + u) ^ length l * (b + (x + fold_right Rplus 0 l))) with ((1 + u) ^ length l * ((1 + u) * (b + x) + (1 + u) * fold_right Rplus 0 l)) by ring.
      apply Rmult_le_compat_l; [exact P0|]. nra.
  Qed.
  Lemma total_fold : forall w : dict R, fold_right Rplus 0 (map snd w) = total_weight w.
  Proof. induction w as [|kv w IH]; [reflexivity|]. cbn. rewrite IH. reflexivity. Qed.

  Lemma normalise_rounded : forall w v, long_only w -> @normalise R N w = Ok v ->
    map fst v = map fst w /\ long_only v /\ length v = length w /\
    forall t x, In (t, x) w -> exists y, In (t, y) v /\ (1 - u) * (x / total_weight w) <= (1 + u) ^ length w * y.
  Proof.
    intros w v Hl H. unfold normalise in H. set (s := vsum (map snd w)) in *.
    assert (Hf : Forall (fun x => 0 <= x) (map snd w)).
    { apply Forall_forall. intros z Hz. apply in_map_iff in Hz. destruct Hz as [[t z'] [<- Hz]]. exact (Hl _ _ Hz). }
    assert (Hs : 0 <= s) by (apply (vsum_nonneg rnd Hr); exact Hf).
    assert (Hs2 : s <= (1 + u) ^ length w * total_weight w).
    { pose proof (vsum_rounded_upper (map snd w) 0 0 Hf ltac:(lra)) as Q. rewrite map_length, total_fold, Rplus_0_l in Q. exact Q. }
    change (@neqb R N s (@n0 R N)) with (Reqb s 0) in H. destruct (Reqb s 0) eqn:E.
    - destruct w as [|]; [|discriminate H]. inversion H; subst. split; [reflexivity|]. split; [exact Hl|]. split; [reflexivity|]. intros t x [].
    - apply Reqb_false in E. inversion H; subst v. clear H. assert (Hs0 : 0 < s) by lra.
      split; [rewrite map_map; reflexivity|]. split.
      { intros t y Hin. apply in_map_iff in Hin. destruct Hin as [[t' x] [E2 Hin]]. inversion E2; subst. cbn [snd].
        change (0 <= rnd (x / s)). apply (rnd_nonneg rnd Hr). apply Rmult_le_pos; [exact (Hl _ _ Hin)|]. left. apply Rinv_0_lt_compat. exact Hs0. }
      split; [apply map_length|]. intros t x Hin. exists (rnd (x / s)). split.
      { apply in_map_iff. exists (t, x). split; [reflexivity|exact Hin]. }
      assert (Hx : 0 <= x) by exact (Hl _ _ Hin).
      assert (Pn : 0 < (1 + u) ^ length w) by (apply pow_lt; lra).
      assert (Ht : 0 < total_weight w) by nra.
      assert (Hq : x / total_weight w <= (1 + u) ^ length w * (x / s)).
      { apply (Rmult_le_reg_r (total_weight w * s)); [apply Rmult_lt_0_compat; assumption|].
        replace (x / total_weight w * (total_weight w * s)) with (x * s) by (field; lra).
        replace ((1 + u) ^ length w * (x / s) * (total_weight w * s)) with (x * ((1 + u) ^ length w * total_weight w)) by (field; lra).
        apply Rmult_le_compat_l; assumption. }
      assert (Hxs : 0 <= x / s) by (apply Rmult_le_pos; [exact Hx|left; apply Rinv_0_lt_compat; exact Hs0]).
      pose proof (err_pos rnd u Hacc (x / s) Hxs) as [E1 _].
      eapply Rle_trans; [apply Rmult_le_compat_l; [lra|exact Hq]|].
      replace ((1 - u) * ((1 + u) ^ length w * (x / s))) with ((1 + u) ^ length w * ((1 - u) * (x / s))) by ring.
      apply Rmult_le_compat_l; [lra|exact E1].
  Qed.

  (** ** The two sub-allocations *)
  Lemma sub_da_rounded : forall d w T d1, @sub_da R N d w T = Ok d1 -> NoDup (map fst w) -> long_only w ->
    da_weights d1 = w /\ da_total d1 = T /\ valid_da d1 /\
    (positive_prices (da_prices d) -> positive_prices (da_prices d1)) /\
    (forall t, In t (map fst w) -> exists p, dget t (da_prices d1) = Some p /\ dget t (da_prices d) = Some p).
  Proof.
    intros d w T d1 H Hnd Hl. unfold sub_da in H.
    destruct (select_prices (da_prices d) (map fst w)) as [ps|] eqn:Es; cbn [rbind] in H; [|discriminate].
    unfold da_init in H. rewrite !all_some_some_dict in H. change (@nleb R N T (@n0 R N)) with (Rleb T 0) in H.
    destruct (Rleb T 0) eqn:E; rprop; [discriminate|]. inversion H; subst d1. clear H. cbn [da_weights da_total da_prices da_short_ratio].
    assert (Hsr : @default_short_ratio R N w = 0).
    { unfold default_short_ratio. replace (filter _ w) with (@nil (label * R)); [reflexivity|].
      symmetry. clear - Hl. induction w as [|[t x] w IH]; [reflexivity|]. cbn [filter snd]. change (@nltb R N x (@n0 R N)) with (Rltb x 0).
      destruct (Rltb x 0) eqn:Ex; rprop; [exfalso; specialize (Hl t x (or_introl eq_refl)); lra|]. apply IH. intros t' y Hy. apply (Hl t'). right. exact Hy. }
    apply select_prices_spec in Es. destruct Es as [K V]. split; [reflexivity|]. split; [reflexivity|]. split; [|split].
    - split; [exact Hnd|]. split; [assumption|]. cbn [da_short_ratio]. rewrite Hsr. lra.
    - intros Hp t p Hin. apply (Hp t). apply dget_In. apply V. exact Hin.
    - intros t Ht. rewrite <- K in Ht. apply dget_Some_iff in Ht. destruct Ht as [p Hp]. exists p. split; [exact Hp|]. apply V. apply dget_In. exact Hp.
  Qed.

  Lemma greedy_short_rounded_unfold : forall fuel d r, has_short (da_weights d) ->
    let d1 := set_weights_da d (sort_weights (da_weights d)) in
    let sv := rnd (da_total d * da_short_ratio d) in
    snd (@greedy_portfolio R N fuel d r) =
    (do longs <- @normalise R N (longs_of (da_weights d1)) ;
     do shorts <- @normalise R N (shorts_of (da_weights d1)) ;
     do da1 <- @sub_da R N d1 longs (if r then rnd (da_total d + sv) else da_total d) ;
     do rl <- snd (@greedy_at R N 1 fuel da1 false) ;
     do da2 <- @sub_da R N d1 shorts sv ;
     do rs <- snd (@greedy_at R N 1 fuel da2 false) ;
     Ok (remove_zero_positions (dupdate (fst rl) (negate_alloc (fst rs))), rnd (snd rl + snd rs))).
  Proof.
    intros fuel d r [t [x [Hin Hx]]] d1 sv. unfold greedy_portfolio.
    remember 1%nat as one. cbn [greedy_at]. change (set_weights_da d (@sort_weights R N (da_weights d))) with d1.
    destruct (last_weight (da_weights d1)) as [y|] eqn:El.
    2:{ apply last_weight_none in El. exfalso.
        assert (Hp : In (t, x) (da_weights d1)) by (eapply Permutation_in; [symmetry; apply sort_weights_perm|exact Hin]).
        rewrite El in Hp. destruct Hp. }
    assert (y <= x) by (exact (last_weight_sorted_min _ _ El _ _ Hin)).
    change (@nltb R N y (@n0 R N)) with (Rltb y 0). destruct (Rltb y 0) eqn:Ey; rprop; [|lra].
    change (@longs_of R N (da_weights d1)) with (@longs_of R RNum (da_weights d1)).
    change (@shorts_of R N (da_weights d1)) with (@shorts_of R RNum (da_weights d1)).
    destruct (@normalise R N (longs_of (da_weights d1))) as [longs|]; cbn [rbind]; [|reflexivity].
    destruct (@normalise R N (shorts_of (da_weights d1))) as [shorts|]; cbn [rbind]; [|reflexivity].
    change (da_total d1) with (da_total d). change (da_short_ratio d1) with (da_short_ratio d).
    change (@nmul R N (da_total d) (da_short_ratio d)) with sv. change (@nadd R N (da_total d) sv) with (rnd (da_total d + sv)).
    destruct (@sub_da R N d1 longs _) as [da1|]; cbn [rbind]; [|reflexivity].
    destruct (snd (@greedy_at R N one fuel da1 false)) as [[al1 lo1]|]; cbn [rbind]; [|reflexivity].
    destruct (@sub_da R N d1 shorts sv) as [da2|]; cbn [rbind]; [|reflexivity].
    destruct (snd (@greedy_at R N one fuel da2 false)) as [[al2 lo2]|]; cbn [rbind]; reflexivity.
  Qed.

  Lemma gross_count_app : forall a b, gross_count (a ++ b) = gross_count a + gross_count b.
  Proof. induction a as [|[t n] a IH]; intros b; unfold gross_count in *; cbn [app fold_right snd]; [lra|rewrite IH; lra]. Qed.
  Lemma gross_count_pos : forall al : dict Z, (forall t n, In (t, n) al -> (0 < n)%Z) -> gross_count al = share_count al.
  Proof.
    induction al as [|[t n] al IH]; intros H; [reflexivity|]. unfold gross_count, share_count in *. cbn [fold_right snd].
    rewrite IH by (intros t' n' Hin; apply (H t'); right; exact Hin). rewrite Z.abs_eq; [reflexivity|]. specialize (H t n (or_introl eq_refl)). lia.
  Qed.
  Lemma gross_count_negate : forall al, gross_count (negate_alloc al) = gross_count al.
  Proof. induction al as [|[t n] al IH]; [reflexivity|]. unfold gross_count, negate_alloc in *. cbn [map fold_right fst snd]. rewrite Z.abs_opp, IH. reflexivity. Qed.
  Lemma share_count_nonneg : forall al : dict Z, (forall t n, In (t, n) al -> (0 < n)%Z) -> 0 <= share_count al.
  Proof.
    induction al as [|[t n] al IH]; intros H; [cbn; lra|]. unfold share_count in *. cbn [fold_right snd].
    assert (0 < n)%Z by (apply (H t); left; reflexivity). apply IZR_lt in H0. assert (0 <= fold_right (fun tn s => IZR (snd tn) + s) 0 al); [|lra].
    apply IH. intros t' n' Hin. apply (H t'). right. exact Hin.
  Qed.
  Lemma filter_lengths : forall w : dict R, (length (longs_of w) + length (shorts_of w) = length w)%nat.
  Proof.
    intros w. unfold longs_of, shorts_of. rewrite map_length. induction w as [|[t x] w IH]; [reflexivity|]. cbn [filter snd length].
    runfold. destruct (Rle_dec 0 x) as [E1|E1].
    - replace (Rleb 0 x) with true by (symmetry; apply Rleb_true; exact E1). replace (Rltb x 0) with false by (symmetry; apply Rltb_false; lra). cbn [length]. lia.
    - replace (Rleb 0 x) with false by (symmetry; apply Rleb_false; lra). replace (Rltb x 0) with true by (symmetry; apply Rltb_true; lra). cbn [length]. lia.
  Qed.

  (** what is available for the two sides *)
  Lemma budgets : forall T sr (r : bool), 0 < T -> 0 <= sr ->
    let sv := rnd (T * sr) in let lv := if r then rnd (T + sv) else T in
    let SV := T * sr in let LV := if r then T + SV else T in
    0 <= sv /\ 0 <= lv /\ (1 - u) * SV <= sv /\ (1 - u) ^ 2 * LV <= lv /\ Rabs (lv + sv - (LV + SV)) <= 2 * u * (LV + SV).
  Proof.
    intros T sr r HT Hsr sv lv SV LV. assert (H0 : 0 <= SV) by (apply Rmult_le_pos; lra).
    pose proof (err_pos rnd u Hacc SV H0) as [A1 A2]. change (rnd SV) with sv in A1, A2.
    assert (H1 : 0 <= sv) by (apply (rnd_nonneg rnd Hr); exact H0).
    pose proof (err_pos rnd u Hacc (T + sv) ltac:(lra)) as [B1 B2].
    assert (Q1 : 0 <= u * SV) by (apply Rmult_le_pos; lra). assert (Q2 : 0 <= u * T) by (apply Rmult_le_pos; lra). assert (Q3 : 0 <= u * u * SV) by (apply Rmult_le_pos; [apply Rmult_le_pos; lra|exact H0]).
    assert (Q4 : u * u * SV <= 1/4 * (u * SV)) by (rewrite Rmult_assoc; apply Rmult_le_compat_r; lra).
    assert (Q5 : u * sv <= u * SV + u * u * SV). { replace (u * SV + u * u * SV) with (u * ((1 + u) * SV)) by ring. apply Rmult_le_compat_l; lra. }
    assert (Q6 : (1 - u) * sv >= (1 - u) * (1 - u) * SV). { replace ((1 - u) * (1 - u) * SV) with ((1 - u) * ((1 - u) * SV)) by ring. apply Rle_ge. apply Rmult_le_compat_l; lra. }
    assert (Q7 : u * u * T <= u * T) by (rewrite Rmult_assoc; rewrite <- (Rmult_1_l (u * T)) at 2; apply Rmult_le_compat_r; lra).
    unfold lv, LV. destruct r.
    - split; [exact H1|]. split; [apply (rnd_nonneg rnd Hr); lra|]. split; [exact A1|]. split; [nra|]. apply Rabs_le. split; nra.
    - split; [exact H1|]. split; [lra|]. split; [exact A1|]. split; [nra|]. apply Rabs_le. split; nra.
  Qed.
End Rounded.

Lemma abs_inv : forall x y : R, Rabs x <= y -> - y <= x <= y.
Proof. intros x y H. pose proof (Rle_abs x). pose proof (Rle_abs (- x)). rewrite Rabs_Ropp in H1. lra. Qed.

Lemma long_side_of : forall w t x, In (t, x) (long_side w) -> exists a, In (t, a) (longs_of w) /\ x = a / total_weight (longs_of w).
Proof.
  intros w t x H. unfold long_side in H. cbv zeta in H. rewrite <- longs_filter in H. apply in_map_iff in H.
  destruct H as [[k a] [E H]]. cbn [fst snd] in E. inversion E; subst. eauto.
Qed.
Lemma short_side_of : forall w t x, In (t, x) (short_side w) -> exists a, In (t, a) (shorts_of w) /\ x = a / total_weight (shorts_of w).
Proof.
  intros w t x H. unfold short_side in H. cbv zeta in H. apply in_map_iff in H.
  destruct H as [[k a] [E H]]. cbn [fst snd] in E. inversion E; subst. exists (- a). split.
  - unfold shorts_of. apply in_map_iff. exists (t, a). split; [reflexivity|]. rewrite shorts_filter. exact H.
  - f_equal. unfold shorts_of. rewrite shorts_filter. symmetry. apply short_total_filter.
Qed.
Lemma long_keys : forall w, map fst (long_side w) = map fst (longs_of w).
Proof. intros w. unfold long_side. cbv zeta. rewrite map_map, longs_filter. reflexivity. Qed.
Lemma short_keys : forall w, map fst (short_side w) = map fst (shorts_of w).
Proof. intros w. unfold short_side, shorts_of. cbv zeta. rewrite <- shorts_filter.
  set (l := filter _ w). generalize l. intros m. generalize (short_total w). intros c. induction m as [|[k a] m IH]; [reflexivity|]. cbn [map fst]. f_equal. exact IH. Qed.

Theorem greedy_long_short_rounded : forall rnd u fuel d r d' al lo, rounding rnd -> accurate u rnd -> 0 <= u <= 1 / 4 ->
  valid_da d -> has_short (da_weights d) -> positive_prices (da_prices d) -> rnd (da_total d) = da_total d ->
  @greedy_portfolio R (RndNum rnd) fuel d r = (d', Ok (al, lo)) ->
  let SV := da_total d * da_short_ratio d in let LV := if r then da_total d + SV else da_total d in
  let n := length (da_weights d) in
  0 <= lo /\ NoDup (map fst al) /\
  (forall t k, In (t, k) al -> exists w, In (t, w) (da_weights d) /\ ((0 < k)%Z /\ 0 <= w \/ (k < 0)%Z /\ w < 0)) /\
  Rabs (gross_value (da_prices d) al + lo - (LV + SV)) <= u * (LV + SV) * (8 * INR n + 2 * gross_count al + 4) /\
  (forall t x, In (t, x) (long_side (da_weights d)) ->
     (1 - u) ^ 5 * (x * LV) < (1 + u) ^ n * ((IZR (shares_in al t) + 1) * price_of (da_prices d) t)) /\
  (forall t x, In (t, x) (short_side (da_weights d)) ->
     (1 - u) ^ 4 * (x * SV) < (1 + u) ^ n * ((1 - IZR (shares_in al t)) * price_of (da_prices d) t)).
Proof.
  intros rnd u fuel d r d' al lo Hr Hacc Hu [Hnd [HT Hsr]] Hsh Hpos Hf H SV LV n.
  assert (H' : snd (@greedy_portfolio R (RndNum rnd) fuel d r) = Ok (al, lo)) by (rewrite H; reflexivity). clear H.
  rewrite greedy_short_rounded_unfold in H' by assumption. cbv zeta in H'.
  set (d1 := set_weights_da d (sort_weights (da_weights d))) in *.
  set (sv := rnd (da_total d * da_short_ratio d)) in *. set (lv := if r then rnd (da_total d + sv) else da_total d) in *.
  pose proof (budgets rnd Hr u Hacc Hu (da_total d) (da_short_ratio d) r HT Hsr) as B. cbv zeta in B. fold sv in B. fold lv in B. fold SV in B. fold LV in B.
  destruct B as [B1 [B2 [B3 [B4 B5]]]].
  pose proof (sort_weights_perm (da_weights d)) as Hperm.
  assert (Hnd1 : NoDup (map fst (da_weights d1))).
  { apply NoDup_fst_perm with (a := da_weights d); [symmetry; exact Hperm|assumption]. }
  destruct (normalise (longs_of (da_weights d1))) as [l|] eqn:E1; cbn [rbind] in H'; [|discriminate].
  destruct (normalise (shorts_of (da_weights d1))) as [s|] eqn:E2; cbn [rbind] in H'; [|discriminate].
  destruct (sub_da d1 l lv) as [da1|] eqn:E3; cbn [rbind] in H'; [|discriminate].
  destruct (greedy_at 1 fuel da1 false) as [d1' r1] eqn:G1.
  destruct r1 as [[al1 lo1]|e1]; cbn [snd rbind] in H'; [|discriminate H'].
  destruct (sub_da d1 s sv) as [da2|] eqn:E4; cbn [rbind] in H'; [|discriminate].
  destruct (greedy_at 1 fuel da2 false) as [d2' r2] eqn:G2.
  destruct r2 as [[al2 lo2]|e2]; cbn [snd rbind] in H'; [|discriminate H'].
  cbn [fst snd] in H'.
  destruct (normalise_rounded rnd Hr u Hacc Hu _ _ (longs_of_nonneg _) E1) as [K1 [L1 [Z1 Y1]]].
  destruct (normalise_rounded rnd Hr u Hacc Hu _ _ (shorts_of_nonneg _) E2) as [K2 [L2 [Z2 Y2]]].
  assert (N1 : NoDup (map fst l)) by (rewrite K1; apply filter_fst_NoDup; assumption).
  assert (N2 : NoDup (map fst s)) by (rewrite K2, shorts_keys; apply filter_fst_NoDup; assumption).
  destruct (sub_da_rounded rnd d1 l lv da1 E3 N1 L1) as [W1 [T1 [V1 [P1 Q1]]]].
  destruct (sub_da_rounded rnd d1 s sv da2 E4 N2 L2) as [W2 [T2 [V2 [P2 Q2]]]].
  change (da_prices d1) with (da_prices d) in *. specialize (P1 Hpos). specialize (P2 Hpos).
  assert (Flv : rnd lv = lv) by (unfold lv; destruct r; [apply (rnd_idem rnd Hr)|exact Hf]).
  assert (Fsv : rnd sv = sv) by apply (rnd_idem rnd Hr).
  rewrite <- W1 in L1. rewrite <- W2 in L2. rewrite <- T1 in Flv. rewrite <- T2 in Fsv.
  destruct (sub_rounded rnd Hr u Hacc Hu _ _ _ _ _ V1 L1 P1 Flv G1) as [D1 [C1 [A1 [F1 X1]]]].
  destruct (sub_rounded rnd Hr u Hacc Hu _ _ _ _ _ V2 L2 P2 Fsv G2) as [D2 [C2 [A2 [F2 X2]]]].
  rewrite W1, T1 in *. rewrite W2, T2 in *.
  assert (Dj : forall t, In t (map fst l) -> ~ In t (map fst s)).
  { intros t I1 I2. rewrite K1, <- long_keys in I1. rewrite K2, <- short_keys in I2. revert I1 I2. apply sides_disjoint. exact Hnd1. }
  assert (Ka : forall t, In t (map fst al1) -> In t (map fst l)).
  { intros t Ht. apply in_map_iff in Ht. destruct Ht as [[k m] [<- Hin]]. apply A1 in Hin. tauto. }
  assert (Kb : forall t, In t (map fst al2) -> In t (map fst s)).
  { intros t Ht. apply in_map_iff in Ht. destruct Ht as [[k m] [<- Hin]]. apply A2 in Hin. tauto. }
  rewrite combined in H'.
  2:{ intros t m Hin. apply A1 in Hin. tauto. } 2:{ intros t m Hin. apply A2 in Hin. tauto. }
  2:{ exact D2. } 2:{ intros t Ht Ht'. apply (Dj t); auto. }
  inversion H'; subst al lo. clear H'.
  assert (Nk : map fst (negate_alloc al2) = map fst al2) by (unfold negate_alloc; rewrite map_map; reflexivity).
  assert (S1 : forall t, In t (map fst l) -> shares_in (al1 ++ negate_alloc al2) t = shares_in al1 t).
  { intros t Ht. apply shares_left. intros Hb. apply (Dj t Ht). apply Kb. exact Hb. }
  assert (S2 : forall t, In t (map fst s) -> shares_in (al1 ++ negate_alloc al2) t = (- shares_in al2 t)%Z).
  { intros t Ht. apply shares_right. intros Ha. apply (Dj t); auto. }
  assert (Len : (length (longs_of (da_weights d1)) + length (shorts_of (da_weights d1)) = n)%nat).
  { rewrite filter_lengths. apply Permutation_length. exact Hperm. }
  assert (Hpr1 : alloc_value (da_prices da1) al1 = alloc_value (da_prices d) al1).
  { apply alloc_value_ext. intros t Ht. apply Ka in Ht. destruct (Q1 t Ht) as [p [Ep1 Ep2]]. unfold price_of. rewrite Ep1, Ep2. reflexivity. }
  assert (Hpr2 : alloc_value (da_prices da2) al2 = alloc_value (da_prices d) al2).
  { apply alloc_value_ext. intros t Ht. apply Kb in Ht. destruct (Q2 t Ht) as [p [Ep1 Ep2]]. unfold price_of. rewrite Ep1, Ep2. reflexivity. }
  split; [apply (rnd_nonneg rnd Hr); lra|]. split; [|split; [|split; [|split]]].
  - rewrite map_app, Nk. clear - D1 D2 Ka Kb Dj.
    induction (map fst al1) as [|k m IH]; cbn; [assumption|].
    inversion D1; subst. constructor.
    + rewrite in_app_iff. intros [Hin|Hin]; [contradiction|]. apply (Dj k); [apply Ka; left; reflexivity|apply Kb; exact Hin].
    + apply IH; [assumption|]. intros t Ht. apply Ka. right. exact Ht.
  - intros t k Hin. apply in_app_or in Hin. destruct Hin as [Hin|Hin].
    + destruct (A1 _ _ Hin) as [Hk Ht]. rewrite K1, <- long_keys in Ht. apply long_side_in in Ht. destruct Ht as [x [Hx Hx0]].
      exists x. split; [eapply Permutation_in; [exact Hperm|exact Hx]|]. left. auto.
    + apply in_map_iff in Hin. destruct Hin as [[k' m] [E Hin]]. inversion E; subst.
      destruct (A2 _ _ Hin) as [Hk Ht]. rewrite K2, <- short_keys in Ht. apply short_side_in in Ht. destruct Ht as [x [Hx Hx0]].
      exists x. split; [eapply Permutation_in; [exact Hperm|exact Hx]|]. right. split; [lia|exact Hx0].
  - assert (Pa1 : forall t m, In (t, m) al1 -> (0 < m)%Z) by (intros t m Hin; apply A1 in Hin; tauto).
    assert (Pa2 : forall t m, In (t, m) al2 -> (0 < m)%Z) by (intros t m Hin; apply A2 in Hin; tauto).
    rewrite gross_value_app, gross_value_negate, gross_count_app, gross_count_negate.
    rewrite !gross_value_pos, !gross_count_pos by assumption. rewrite Hpr1 in X1. rewrite Hpr2 in X2.
    set (v1 := alloc_value (da_prices d) al1) in *. set (v2 := alloc_value (da_prices d) al2) in *.
    pose proof (share_count_nonneg al1 Pa1) as c1. pose proof (share_count_nonneg al2 Pa2) as c2.
    set (k1 := share_count al1) in *. set (k2 := share_count al2) in *.
    rewrite Z1 in X1. rewrite Z2 in X2. rewrite <- Len, plus_INR.
    set (n1 := INR (length (longs_of (da_weights d1)))) in *. set (n2 := INR (length (shorts_of (da_weights d1)))) in *.
    assert (i1 : 0 <= n1) by apply pos_INR. assert (i2 : 0 <= n2) by apply pos_INR.
    pose proof (err_pos rnd u Hacc (lo1 + lo2) ltac:(lra)) as [e1 e2].
    set (E := LV + SV) in *.
    assert (HE : 0 <= lv + sv <= 3/2 * E /\ 0 <= E).
    { assert (0 <= SV) by (apply Rmult_le_pos; lra). assert (0 <= LV) by (unfold LV; destruct r; lra).
      assert (0 <= E) by (unfold E; lra). apply abs_inv in B5. split; [split; [lra|]|assumption].
      assert (2 * u * E <= 1/2 * E) by (apply Rmult_le_compat_r; lra). lra. }
    destruct HE as [[E0 E1'] E2'].
    assert (Y : u * lv * (5 * n1 + k1) + u * sv * (5 * n2 + k2) + u * (lv + sv) <= u * (lv + sv) * (5 * (n1 + n2) + (k1 + k2) + 1)).
    { assert (0 <= u * lv * (5 * n2 + k2)) by (repeat apply Rmult_le_pos; lra). assert (0 <= u * sv * (5 * n1 + k1)) by (repeat apply Rmult_le_pos; lra). lra. }
    assert (Y' : u * (lv + sv) * (5 * (n1 + n2) + (k1 + k2) + 1) <= u * (3/2 * E) * (5 * (n1 + n2) + (k1 + k2) + 1)).
    { apply Rmult_le_compat_r; [lra|]. apply Rmult_le_compat_l; lra. }
    assert (Yn : 0 <= u * E * (n1 + n2)) by (repeat apply Rmult_le_pos; lra). assert (Y3 : 0 <= u * E * (k1 + k2)) by (repeat apply Rmult_le_pos; lra).
    assert (Y4 : 0 <= u * E) by (apply Rmult_le_pos; lra).
    assert (Y5 : u * (lo1 + lo2) <= u * (lv + sv)) by (apply Rmult_le_compat_l; lra).
    apply abs_inv in X1. apply abs_inv in X2. apply abs_inv in B5. apply Rabs_le. split; nra.
  - intros t x Hin. apply (Permutation_in _ (Permutation_sym (long_side_perm _ _ Hperm))) in Hin. change (sort_weights (da_weights d)) with (da_weights d1) in Hin.
    destruct (long_side_of _ _ _ Hin) as [a [Ha Ex]]. destruct (Y1 t a Ha) as [y [Hy Hay]]. rewrite <- Ex in Hay.
    assert (Ht : In t (map fst l)) by (apply (in_map fst) in Hy; exact Hy).
    destruct (Q1 t Ht) as [p [Ep1 Ep2]]. rewrite (S1 t Ht). unfold price_of. rewrite Ep2. specialize (F1 t y p Hy Ep1).
    assert (Hx : 0 <= x). { rewrite Ex. assert (0 <= a) by (exact (longs_of_nonneg _ _ _ Ha)). assert (0 <= total_weight (longs_of (da_weights d1))).
      { rewrite <- total_fold. clear. pose proof (longs_of_nonneg (da_weights d1)) as L. induction (longs_of (da_weights d1)) as [|[k b] w IH]; [cbn; lra|]. cbn [map fold_right snd].
        assert (0 <= b) by (apply (L k); left; reflexivity). assert (0 <= fold_right Rplus 0 (map snd w)) by (apply IH; intros k' b' Hb; apply (L k'); right; exact Hb). lra. }
      unfold Rdiv. destruct (Req_dec (total_weight (longs_of (da_weights d1))) 0) as [->|Hne]; [rewrite Rinv_0; lra|].
      apply Rmult_le_pos; [assumption|]. left. apply Rinv_0_lt_compat. lra. }
    set (m := length (longs_of (da_weights d1))) in *. set (sh := IZR (shares_in al1 t) + 1) in *.
    assert (Pm : 0 < (1 + u) ^ m) by (apply pow_lt; lra).
    assert (Pp : 0 < p) by (apply (Hpos t), dget_In, Ep2).
    assert (Sh : 0 < sh).
    { unfold sh, shares_in. destruct (dget t al1) as [k|] eqn:Ek; [|cbn; lra]. apply dget_In in Ek. destruct (A1 _ _ Ek) as [Hk _]. apply IZR_lt in Hk. lra. }
    assert (Pmn : (1 + u) ^ m <= (1 + u) ^ n) by (apply Rle_pow; [lra|lia]).
    apply Rlt_le_trans with ((1 + u) ^ m * (sh * p)).
    2:{ apply Rmult_le_compat_r; [apply Rmult_le_pos; lra|exact Pmn]. }
    apply Rle_lt_trans with ((1 + u) ^ m * ((1 - u) ^ 2 * (y * lv))); [|apply Rmult_lt_compat_l; assumption].
    assert (U2 : 0 <= (1 - u) ^ 2) by (apply pow_le; lra).
    replace ((1 + u) ^ m * ((1 - u) ^ 2 * (y * lv))) with ((1 - u) ^ 2 * (((1 + u) ^ m * y) * lv)) by ring.
    replace ((1 - u) ^ 5 * (x * LV)) with ((1 - u) ^ 2 * (((1 - u) * x) * ((1 - u) ^ 2 * LV))) by ring.
    apply Rmult_le_compat_l; [exact U2|]. apply Rmult_le_compat; try assumption.
    + apply Rmult_le_pos; lra.
    + apply Rmult_le_pos; [exact U2|]. assert (0 <= SV) by (apply Rmult_le_pos; lra). unfold LV. destruct r; lra.
  - intros t x Hin. apply (Permutation_in _ (Permutation_sym (short_side_perm _ _ Hperm))) in Hin. change (sort_weights (da_weights d)) with (da_weights d1) in Hin.
    destruct (short_side_of _ _ _ Hin) as [a [Ha Ex]]. destruct (Y2 t a Ha) as [y [Hy Hay]]. rewrite <- Ex in Hay.
    assert (Ht : In t (map fst s)) by (apply (in_map fst) in Hy; exact Hy).
    destruct (Q2 t Ht) as [p [Ep1 Ep2]]. rewrite (S2 t Ht). unfold price_of. rewrite Ep2. specialize (F2 t y p Hy Ep1).
    rewrite opp_IZR. replace (1 - - IZR (shares_in al2 t)) with (IZR (shares_in al2 t) + 1) by ring.
    assert (Hx : 0 <= x). { rewrite Ex. assert (0 <= a) by (exact (shorts_of_nonneg _ _ _ Ha)). assert (0 <= total_weight (shorts_of (da_weights d1))).
      { rewrite <- total_fold. clear. pose proof (shorts_of_nonneg (da_weights d1)) as L. induction (shorts_of (da_weights d1)) as [|[k b] w IH]; [cbn; lra|]. cbn [map fold_right snd].
        assert (0 <= b) by (apply (L k); left; reflexivity). assert (0 <= fold_right Rplus 0 (map snd w)) by (apply IH; intros k' b' Hb; apply (L k'); right; exact Hb). lra. }
      unfold Rdiv. destruct (Req_dec (total_weight (shorts_of (da_weights d1))) 0) as [->|Hne]; [rewrite Rinv_0; lra|].
      apply Rmult_le_pos; [assumption|]. left. apply Rinv_0_lt_compat. lra. }
    set (m := length (shorts_of (da_weights d1))) in *. set (sh := IZR (shares_in al2 t) + 1) in *.
    assert (Pm : 0 < (1 + u) ^ m) by (apply pow_lt; lra).
    assert (Pp : 0 < p) by (apply (Hpos t), dget_In, Ep2).
    assert (Sh : 0 < sh).
    { unfold sh, shares_in. destruct (dget t al2) as [k|] eqn:Ek; [|cbn; lra]. apply dget_In in Ek. destruct (A2 _ _ Ek) as [Hk _]. apply IZR_lt in Hk. lra. }
    assert (Pmn : (1 + u) ^ m <= (1 + u) ^ n) by (apply Rle_pow; [lra|lia]).
    apply Rlt_le_trans with ((1 + u) ^ m * (sh * p)).
    2:{ apply Rmult_le_compat_r; [apply Rmult_le_pos; lra|exact Pmn]. }
    apply Rle_lt_trans with ((1 + u) ^ m * ((1 - u) ^ 2 * (y * sv))); [|apply Rmult_lt_compat_l; assumption].
    assert (U2 : 0 <= (1 - u) ^ 2) by (apply pow_le; lra).
    replace ((1 + u) ^ m * ((1 - u) ^ 2 * (y * sv))) with ((1 - u) ^ 2 * (((1 + u) ^ m * y) * sv)) by ring.
    replace ((1 - u) ^ 4 * (x * SV)) with ((1 - u) ^ 2 * (((1 - u) * x) * ((1 - u) * SV))) by ring.
    apply Rmult_le_compat_l; [exact U2|]. apply Rmult_le_compat; try assumption.
    + apply Rmult_le_pos; lra.
    + apply Rmult_le_pos; [lra|]. apply Rmult_le_pos; lra.
Qed.
