(** * Stopping rule, integer program, latest prices, constructor *)
From Coq Require Import ZArith List Bool Reals Lra Lia Permutation Sorted.
From Verif Require Import Num Py MAlloc SAlloc RBase PyLemmas PAlloc PAlloc2 PAlloc3.
Import ListNotations.
Local Open Scope R_scope.

(** ** Stopping rule (C07) *)
Definition is_pos (x : option R) : bool := match x with Some v => Rltb 0 v | None => false end.
Definition npos (df : list (option R)) : nat := length (filter is_pos df).

Lemma npos_le : forall df, (npos df <= length df)%nat.
Proof. induction df as [|x df IH]; unfold npos in *; simpl; [lia|]. destruct (is_pos x); simpl; lia. Qed.

Lemma npos_set0_pos : forall df i v, nth_error df i = Some (Some v) -> 0 < v ->
  (S (npos (list_set i (Some 0%R) df)) = npos df)%nat.
Proof.
  induction df as [|x df IH]; intros i v Hi Hv; [destruct i; discriminate|].
  destruct i as [|i]; simpl in Hi.
  - inversion Hi; subst. unfold npos. simpl.
    assert (Rltb 0 0 = false) as -> by (rprop; lra).
    assert (Rltb 0 v = true) as -> by (rprop; lra). reflexivity.
  - specialize (IH i v Hi Hv). unfold npos in *. simpl. destruct (is_pos x); simpl; lia.
Qed.

Lemma npos_set0_le : forall df i, (npos (list_set i (Some 0%R) df) <= npos df)%nat.
Proof.
  induction df as [|x df IH]; intros i; [destruct i; simpl; lia|].
  destruct i as [|i]; unfold npos in *; simpl.
  - assert (Rltb 0 0 = false) as -> by (rprop; lra). destruct (is_pos x); simpl; lia.
  - specialize (IH i). destruct (is_pos x); simpl; lia.
Qed.

Lemma npos_zero : forall df i v, npos df = 0%nat -> nth_error df i = Some (Some v) -> v <= 0.
Proof.
  induction df as [|x df IH]; intros i v H Hi; [destruct i; discriminate|].
  unfold npos in *. simpl in H. destruct (is_pos x) eqn:E; [discriminate|].
  destruct i as [|i]; simpl in Hi; [|eauto]. inversion Hi; subst. simpl in E. rprop. assumption.
Qed.

Lemma all_nonpos_npos : forall df, (forall i v, nth_error df i = Some (Some v) -> v <= 0) -> npos df = 0%nat.
Proof.
  induction df as [|x df IH]; intros H; [reflexivity|]. unfold npos in *. simpl.
  destruct (is_pos x) eqn:E.
  - destruct x as [v|]; [|discriminate]. simpl in E. rprop.
    assert (v <= 0) by (apply (H O); reflexivity). lra.
  - apply IH. intros i v Hi. apply (H (S i)). exact Hi.
Qed.

Definition no_nan_set0 : forall df i, no_nan df -> no_nan (list_set (X:=option R) i (Some 0) df).
Proof.
  intros df i H. revert i. unfold no_nan in *. induction H as [|x df Hx H IH]; intros i; destruct i; simpl;
    constructor; auto; congruence.
Qed.

(** what the inner loop does to the deficit vector, and why it stops *)
Lemma inner_zeroes : forall fuel ws prices ps av df idx price c df' idx' price' c',
  priced ws prices ps -> length df = length ws -> no_nan df ->
  nth_error ps idx = Some price -> idx = argmax df ->
  (npos df = 0 \/ npos df + c <= length ws)%nat -> (length ws <= 10)%nat -> (c <= 10)%nat ->
  inner (A:=R) fuel ws prices av df idx price c = Ok (df', idx', price', c') ->
  fnonpos (at_idx df' idx') || Nat.eqb c' 10 = true ->
  npos df' = 0%nat /\ length df' = length df /\
  (forall i v p, nth_error df i = Some (Some v) -> 0 < v -> nth_error ps i = Some p -> av < p).
Proof.
  induction fuel as [|fuel IH];
    intros ws prices ps av df idx price c df' idx' price' c' Hpr Hlen Hnn Hi Hidx Hc Hn Hc10 H Hstop;
    [discriminate|].
  assert (Hne : df <> []).
  { intros E. rewrite E in Hlen. pose proof (priced_length _ _ _ Hpr) as Hl.
    destruct ws; [|discriminate]. destruct ps; [|discriminate]. destruct idx; discriminate. }
  destruct (argmax_max df Hne Hnn) as [m [Hm Hmax]]. rewrite <- Hidx in Hm.
  cbn [inner] in H. runfold.
  destruct (Rltb av price) eqn:Eav; rprop.
  - set (df1 := list_set idx (Some 0) df) in *.
    assert (Hlen1 : length df1 = length df) by (unfold df1; rewrite list_set_length; reflexivity).
    assert (Hnn1 : no_nan df1) by (apply no_nan_set0; assumption).
    assert (Hc1 : (npos df1 = 0 \/ npos df1 + S c <= length ws)%nat).
    { destruct (Rlt_dec 0 m) as [Hm0|Hm0].
      - pose proof (npos_set0_pos _ _ _ Hm Hm0) as Hs. fold df1 in Hs. destruct Hc; [lia|right; lia].
      - left. assert (npos df = 0)%nat.
        { apply all_nonpos_npos. intros i v Hv. specialize (Hmax _ _ Hv). lra. }
        pose proof (npos_set0_le df idx) as Hle. fold df1 in Hle. lia. }
    assert (Hrest : forall i v p, nth_error df i = Some (Some v) -> 0 < v -> nth_error ps i = Some p ->
              i = idx /\ av < p \/ nth_error df1 i = Some (Some v)).
    { intros i v p Hv Hv0 Hp. destruct (Nat.eq_dec idx i) as [E|E].
      - left. subst i. rewrite Hi in Hp. inversion Hp; subst. split; [reflexivity|assumption].
      - right. unfold df1. rewrite nth_error_list_set_other by assumption. exact Hv. }
    destruct (fneg (at_idx df1 (argmax df1)) || Nat.eqb c 10) eqn:Eb.
    + inversion H; subst df' idx' price' c'.
      assert (Hz : npos df1 = 0%nat).
      { apply orb_true_iff in Eb. destruct Eb as [Eb|Eb].
        - assert (Hne1 : df1 <> []) by (intros E; rewrite E in Hlen1; destruct df; [congruence|discriminate]).
          destruct (argmax_max df1 Hne1 Hnn1) as [m1 [Hm1 Hmax1]].
          apply all_nonpos_npos. intros i v Hv. specialize (Hmax1 _ _ Hv).
          unfold at_idx in Eb. rewrite (nth_error_nth _ _ _ Hm1) in Eb. simpl in Eb. rprop. lra.
        - apply Nat.eqb_eq in Eb. destruct Hc1; [assumption|lia]. }
      split; [assumption|]. split; [assumption|].
      intros i v p Hv Hv0 Hp. destruct (Hrest i v p Hv Hv0 Hp) as [[_ ?]|Hv1]; [assumption|].
      pose proof (npos_zero _ _ _ Hz Hv1). lra.
    + apply orb_false_iff in Eb. destruct Eb as [_ Eb]. apply Nat.eqb_neq in Eb.
      destruct (nth_error ws (argmax df1)) as [[t w]|] eqn:Ew; [|discriminate].
      unfold dgetE in H. destruct (dget t prices) as [p1|] eqn:Ep; cbn [rbind] in H; [|discriminate].
      assert (Hlw : length df1 = length ws) by congruence.
      assert (Hc10' : (S c <= 10)%nat) by lia.
      destruct (IH ws prices ps av df1 (argmax df1) p1 (S c) df' idx' price' c' Hpr Hlw Hnn1
                  (priced_nth _ _ _ _ _ _ _ Hpr Ew Ep) eq_refl Hc1 Hn Hc10' H Hstop) as [R1 [R2 R3]].
      split; [assumption|]. split; [congruence|].
      intros i v p Hv Hv0 Hp. destruct (Hrest i v p Hv Hv0 Hp) as [[_ ?]|Hv1]; [assumption|].
      eapply R3; eauto.
  - inversion H; subst df' idx' price' c'.
    assert (Hz : npos df = 0%nat).
    { apply orb_true_iff in Hstop. destruct Hstop as [Hs|Hs].
      - unfold at_idx in Hs. rewrite (nth_error_nth _ _ _ Hm) in Hs. simpl in Hs. rprop.
        apply all_nonpos_npos. intros i v Hv. specialize (Hmax _ _ Hv). lra.
      - apply Nat.eqb_eq in Hs. destruct Hc; [assumption|lia]. }
    split; [assumption|]. split; [reflexivity|].
    intros i v p Hv Hv0 Hp. pose proof (npos_zero _ _ _ Hz Hv). lra.
Qed.

Lemma deficits_value : forall ws ps ss df,
  length ps = length ws -> length ss = length ws -> lvalue ps ss <> 0 ->
  deficits (A:=R) ws ps ss = Ok df ->
  no_nan df /\
  forall i t w p s, nth_error ws i = Some (t, w) -> nth_error ps i = Some p -> nth_error ss i = Some s ->
    nth_error df i = Some (Some (w - p * IZR s / lvalue ps ss)).
Proof.
  intros ws ps ss df Hp Hs Hv H. unfold deficits in H. rewrite lvalue_vsum in H. runfold.
  destruct (Reqb (lvalue ps ss) 0) eqn:E; rprop; [contradiction|]. inversion H; subst. split.
  - unfold no_nan. clear. revert ws. generalize (lvalue ps ss). intros z.
    generalize (map2 (fun p n => p * IZR n) ps ss). intros l ws. revert l.
    induction ws as [|kv ws IH]; intros [|x l]; simpl; constructor; [congruence|apply IH].
  - intros i t w p s Hw Hpi Hsi. rewrite nth_error_map2. rewrite Hw. rewrite nth_error_map2, Hpi, Hsi. reflexivity.
Qed.

Lemma second_round_stop : forall fuel ws prices ps ss av av' ss',
  priced ws prices ps -> length ss = length ws -> (length ws <= 10)%nat ->
  second_round (A:=R) fuel false ws prices ps ss av = Ok (av', ss') ->
  0 < av' -> lvalue ps ss' <> 0 ->
  forall i t w p s, nth_error ws i = Some (t, w) -> nth_error ps i = Some p -> nth_error ss' i = Some s ->
    p * IZR s / lvalue ps ss' < w -> av' < p.
Proof.
  induction fuel as [|fuel IH]; intros ws prices ps ss av av' ss' Hpr Hlen Hn H Hav' Hv; [discriminate|].
  cbn [second_round] in H. runfold.
  destruct (Rltb 0 av) eqn:Eav; rprop.
  2:{ inversion H; subst. lra. }
  destruct (deficits ws ps ss) as [df|] eqn:Ed; cbn [rbind] in H; [|discriminate].
  pose proof (priced_length _ _ _ Hpr) as Hlp.
  pose proof (deficits_length _ _ _ _ Hlp Hlen Ed) as Hldf.
  destruct (nth_error ws (argmax df)) as [[t0 w0]|] eqn:Ew; [|discriminate].
  unfold dgetE in H. destruct (dget t0 prices) as [p0|] eqn:Ep; cbn [rbind] in H; [|discriminate].
  destruct (inner inner_fuel ws prices av df (argmax df) p0 0) as [[[[df' i'] p'] c']|] eqn:Ei;
    cbn [rbind] in H; [|discriminate].
  assert (Hn0 : nth_error ps (argmax df) = Some p0) by (eapply priced_nth; eauto).
  destruct (inner_spec _ _ _ _ _ _ _ _ _ _ _ _ _ Hpr Hldf Hn0 Ei) as [Hl' Hbuy].
  destruct (fnonpos (at_idx df' i') || Nat.eqb c' 10) eqn:Eb.
  - inversion H; subst av' ss'.
    destruct (deficits_value _ _ _ _ Hlp Hlen Hv Ed) as [Hnn Hval].
    assert (Hcnt : (npos df = 0 \/ npos df + 0 <= length ws)%nat)
      by (right; rewrite Nat.add_0_r, <- Hldf; apply npos_le).
    destruct (inner_zeroes _ _ _ _ _ _ _ _ _ _ _ _ _ Hpr Hldf Hnn Hn0 eq_refl Hcnt Hn (Nat.le_0_l 10) Ei Eb)
      as [_ [_ Hz]].
    intros i t w p s Hwi Hpi Hsi Hlt. eapply Hz; [eapply Hval; eauto| |exact Hpi]. lra.
  - refine (IH _ _ _ _ _ _ _ Hpr _ Hn H Hav' Hv). rewrite list_set_length; assumption.
Qed.

Lemma greedy_stopping : forall fuel d r d' al lo,
  valid_da d -> long_only (da_weights d) -> positive_prices (da_prices d) ->
  (length (da_weights d) <= 10)%nat ->
  greedy_portfolio fuel d r = (d', Ok (al, lo)) -> al <> [] -> 0 < lo ->
  forall t w, In (t, w) (da_weights d) -> held_fraction (da_prices d) al t < w ->
    lo < price_of (da_prices d) t.
Proof.
  intros fuel d r d' al lo Hval Hl Hpos Hn H Hne Hlo t w Hin Hfrac.
  pose proof (greedy_shares_at _ _ _ _ _ _ _ Hval Hl Hpos H) as [_ [Hsh _]].
  destruct Hval as [Hnd [HT _]].
  assert (Hwne : da_weights d <> []) by (intros E; rewrite E in Hin; destruct Hin).
  unfold greedy_portfolio in H. rewrite greedy_long_only in H by assumption.
  set (d1 := set_weights_da d (sort_weights (da_weights d))) in *.
  destruct (greedy_long fuel d1) as [[al' lo']|] eqn:E; [|discriminate].
  assert (al' = al /\ lo' = lo) as [-> ->] by (inversion H; auto). clear H.
  pose proof (sort_weights_perm (da_weights d)) as Hperm.
  assert (Hnd1 : NoDup (map fst (da_weights d1))).
  { apply NoDup_fst_perm with (a := da_weights d); [symmetry; exact Hperm|assumption]. }
  unfold greedy_long in E.
  destruct (first_round (da_prices d1) (da_total d1) (da_weights d1) (da_total d1))
    as [[[av ss0] ps]|] eqn:E1; cbn [rbind] in E; [|discriminate].
  destruct (second_round fuel (da_int d1) (da_weights d1) (da_prices d1) ps ss0 av)
    as [[av' ss]|] eqn:E2; cbn [rbind] in E; [|discriminate].
  inversion E; subst av'. clear E.
  destruct (first_round_spec _ _ _ _ _ _ _ E1) as [F1 [F2 [F3 [F4 F5]]]].
  destruct (second_round_spec _ _ _ _ _ _ _ _ _ F1 F2 E2) as [S1 [S2 [S3 [S4 S5]]]].
  assert (Hcf : map fst (combine (map fst (da_weights d1)) ss) = map fst (da_weights d1)).
  { apply combine_map_fst. rewrite map_length. auto. }
  assert (Hndc : NoDup (map fst (combine (map fst (da_weights d1)) ss))) by (rewrite Hcf; assumption).
  assert (Hal : al = remove_zero_positions (combine (map fst (da_weights d1)) ss)).
  { rewrite <- H0. rewrite dict_of_pairs_NoDup by assumption. reflexivity. }
  assert (Hav : alloc_value (da_prices d) al = lvalue ps ss).
  { rewrite Hal, alloc_value_remove_zero. change (da_prices d) with (da_prices d1).
    apply alloc_value_combine; assumption. }
  assert (Hvpos : 0 < alloc_value (da_prices d) al).
  { assert (Hg : forall a, (forall t n, In (t, n) a -> (0 < n)%Z /\ 0 < price_of (da_prices d) t) ->
              a <> [] -> 0 < alloc_value (da_prices d) a).
    { clear. induction a as [|[t n] a IH]; intros Ha Hne; [congruence|]. simpl.
      destruct (Ha t n) as [Hn Hp]; [left; reflexivity|]. apply IZR_lt in Hn.
      assert (0 < IZR n * price_of (da_prices d) t) by (apply Rmult_lt_0_compat; assumption).
      destruct a as [|kv a]; [simpl; lra|].
      assert (0 < alloc_value (da_prices d) (kv :: a)) by (apply IH; [intros t' n' Hin; apply Ha; right; exact Hin|discriminate]).
      lra. }
    apply Hg; [|assumption]. intros t' n' Hin'. destruct (Hsh _ _ Hin') as [Hn' Hk]. split; [assumption|].
    apply in_map_iff in Hk. destruct Hk as [[t'' w''] [Ek Hk]]. simpl in Ek. subst t''.
    assert (Hk1 : In (t', w'') (da_weights d1)) by (eapply Permutation_in; [symmetry; exact Hperm|exact Hk]).
    apply In_nth_error in Hk1. destruct Hk1 as [i Hi].
    destruct (Forall2_nth_error_l _ _ _ _ _ F5 Hi) as [s0 [_ [p [Hp _]]]]. simpl in Hp.
    change (da_prices d1) with (da_prices d) in Hp.
    unfold price_of. rewrite Hp. apply (Hpos t'), dget_In. exact Hp. }
  assert (Hint : da_int d1 = false).
  { destruct (da_int d1) eqn:Ei; [|reflexivity].
    assert (0 <= av) by (apply F4; simpl; lra). assert (av = 0) by auto. subst av.
    destruct fuel; [discriminate|]. cbn [second_round] in E2. runfold.
    destruct (Rltb 0 0) eqn:E0; rprop; [lra|]. inversion E2; subst. lra. }
  rewrite Hint in E2.
  assert (Hin1 : In (t, w) (da_weights d1)) by (eapply Permutation_in; [symmetry; exact Hperm|exact Hin]).
  apply In_nth_error in Hin1. destruct Hin1 as [i Hi].
  destruct (Forall2_nth_error_l _ _ _ _ _ F1 Hi) as [p [Hp Hpd]]. simpl in Hpd.
  destruct (nth_error ss i) as [s|] eqn:Hsi.
  2:{ apply nth_error_None in Hsi. assert (i < length (da_weights d1))%nat by (apply nth_error_Some; congruence). lia. }
  assert (Hlen10 : (length (da_weights d1) <= 10)%nat).
  { change (da_weights d1) with (sort_weights (da_weights d)). rewrite (Permutation_length Hperm). assumption. }
  change (da_prices d1) with (da_prices d) in Hpd.
  unfold price_of. rewrite Hpd.
  eapply (second_round_stop _ _ _ _ _ _ _ _ F1 F2 Hlen10 E2); eauto; [lra|].
  unfold held_fraction in Hfrac. rewrite Hav in Hfrac. unfold price_of in Hfrac. rewrite Hpd in Hfrac.
  assert (Hs : shares_in al t = s).
  { rewrite Hal, shares_in_remove_zero by assumption. unfold shares_in.
    rewrite (dget_combine _ _ i t s); auto. exact (map_nth_error fst _ _ Hi). }
  rewrite Hs in Hfrac. rewrite Rmult_comm in Hfrac. exact Hfrac.
Qed.

(** ** Integer program (C09, C10) *)
Lemma lp_long_only : forall depth solver d r, long_only (da_weights d) ->
  snd (lp_at (A:=R) (S depth) solver d r) = lp_long solver d.
Proof.
  intros depth solver d r Hl. cbn [lp_at]. destruct (existsb _ (da_weights d)) eqn:E.
  - apply existsb_exists in E. destruct E as [[t x] [Hin Hx]]. simpl in Hx. rprop.
    specialize (Hl _ _ Hin). lra.
  - destruct (lp_long solver d) as [[al lo]|]; reflexivity.
Qed.

Fixpoint zcost (ps : list R) (zs : list Z) : R :=
  match ps, zs with p :: ps', z :: zs' => IZR z * p + zcost ps' zs' | _, _ => 0 end.

Lemma dot_zcost : forall ps zs, dot (A:=R) ps (map IZR zs) = zcost ps zs.
Proof.
  unfold dot. induction ps as [|p ps IH]; intros [|z zs]; simpl; rewrite ?vsum_nil, ?vsum_cons; auto.
  rewrite IH. lra.
Qed.

Lemma alloc_value_zcost : forall (w prices : dict R) zs,
  map fst w = map fst prices -> NoDup (map fst prices) -> length zs = length prices ->
  alloc_value prices (combine (map fst w) zs) = zcost (map snd prices) zs.
Proof.
  intros w prices zs Hk Hnd Hlen. rewrite Hk. clear w Hk.
  assert (Hg : forall all pre, all = pre ++ prices -> NoDup (map fst all) ->
    alloc_value all (combine (map fst prices) zs) = zcost (map snd prices) zs).
  { clear Hnd. revert zs Hlen. induction prices as [|[t p] prices IH]; intros zs Hlen all pre Hall Hnd.
    - reflexivity.
    - destruct zs as [|z zs]; [discriminate|]. simpl.
      rewrite (IH zs ltac:(simpl in Hlen; lia) all (pre ++ [(t, p)])).
      + unfold price_of. rewrite (In_dget all t p); [reflexivity|assumption|].
        rewrite Hall. apply in_app_iff. right; left; reflexivity.
      + rewrite <- app_assoc. exact Hall.
      + assumption. }
  apply (Hg prices []); [reflexivity|assumption].
Qed.

Definition etaR (w : R) (T : R) (x p : R) : R := w * T - x * p.

Lemma lp_eta_nth : forall P x,
  length (lp_w P) = length (lp_p P) -> length x = length (lp_p P) ->
  length (lp_eta (A:=R) P x) = length (lp_p P).
Proof.
  intros P x H1 H2. unfold lp_eta. rewrite map2_length, map_length, map2_length. lia.
Qed.

(** sum of |eta| is a lower bound for sum of u *)
Lemma abs_le_u : forall e u, Forall2 (fun e ui : R => e <= ui) e u -> Forall2 (fun e ui => - ui <= e) e u ->
  vsum (A:=R) (map Rabs e) <= vsum u.
Proof.
  intros e u H1 H2. induction H1; simpl; rewrite ?vsum_nil, ?vsum_cons; [lra|].
  inversion H2; subst. assert (Rabs x <= y) by (unfold Rabs; destruct (Rcase_abs x); lra).
  specialize (IHForall2 ltac:(assumption)). lra.
Qed.

Lemma abs_feasible : forall e : list R,
  Forall2 (fun e ui => e <= ui) e (map Rabs e) /\ Forall2 (fun e ui => - ui <= e) e (map Rabs e).
Proof.
  induction e as [|x e [IH1 IH2]]; split; constructor; auto; unfold Rabs; destruct (Rcase_abs x); lra.
Qed.

Lemma integers_list : forall x : list R, Forall (fun xi => exists z, xi = IZR z) x -> exists zs, x = map IZR zs.
Proof.
  intros x H. induction H as [|xi x [z Hz] _ [zs Hzs]]; [exists []; reflexivity|].
  exists (z :: zs). simpl. congruence.
Qed.

Lemma dollar_dev_eta : forall (w prices : dict R) T f,
  map fst w = map fst prices -> NoDup (map fst prices) ->
  dollar_dev w prices T f =
  vsum (map Rabs (lp_eta (mkLP (map snd prices) (map snd w) T) (map (fun kv => IZR (f (fst kv))) w))).
Proof.
  intros w prices T f Hk Hnd. unfold lp_eta; simpl.
  assert (Hg : forall all pre, all = pre ++ prices -> NoDup (map fst all) ->
    dollar_dev w all T f =
    vsum (map Rabs (map2 (fun a b => a - b) (map (fun x => x * T) (map snd w))
      (map2 (fun a b => a * b) (map (fun kv => IZR (f (fst kv))) w) (map snd prices))))).
  { clear Hnd. revert prices Hk. induction w as [|[t x] w IH]; intros [|[t' p] prices] Hk all pre Hall Hnd;
      try discriminate; simpl.
    - rewrite vsum_nil. reflexivity.
    - simpl in Hk. inversion Hk; subst t'. rewrite vsum_cons.
      rewrite (IH prices H1 all (pre ++ [(t, p)])); [|rewrite <- app_assoc; exact Hall|assumption].
      unfold price_of. rewrite (In_dget all t p); [reflexivity|assumption|].
      rewrite Hall. apply in_app_iff. right; left; reflexivity. }
  exact (Hg prices [] eq_refl Hnd).
Qed.

Lemma shares_cost_dot : forall (w prices : dict R) f,
  map fst w = map fst prices -> NoDup (map fst prices) ->
  shares_cost w prices f = dot (map snd prices) (map (fun kv => IZR (f (fst kv))) w).
Proof.
  intros w prices f Hk Hnd. unfold dot.
  assert (Hg : forall all pre, all = pre ++ prices -> NoDup (map fst all) ->
    shares_cost w all f = vsum (map2 (fun x y => x * y) (map snd prices) (map (fun kv => IZR (f (fst kv))) w))).
  { clear Hnd. revert prices Hk. induction w as [|[t x] w IH]; intros [|[t' p] prices] Hk all pre Hall Hnd;
      try discriminate; simpl.
    - rewrite vsum_nil. reflexivity.
    - simpl in Hk. inversion Hk; subst t'. rewrite vsum_cons.
      rewrite (IH prices H1 all (pre ++ [(t, p)])); [|rewrite <- app_assoc; exact Hall|assumption].
      unfold price_of. rewrite (In_dget all t p); [lra|assumption|].
      rewrite Hall. apply in_app_iff. right; left; reflexivity. }
  exact (Hg prices [] eq_refl Hnd).
Qed.

Lemma shares_in_combine_map : forall (w : dict R) zs, NoDup (map fst w) -> length zs = length w ->
  map (fun kv => shares_in (combine (map fst w) zs) (fst kv)) w = zs.
Proof.
  induction w as [|[t x] w IH]; intros [|z zs] Hnd Hl; try discriminate; [reflexivity|].
  inversion Hnd; subst. simpl. f_equal.
  - unfold shares_in. simpl. rewrite label_eqb_refl. reflexivity.
  - transitivity (map (fun kv => shares_in (combine (map fst w) zs) (fst kv)) w);
      [|apply IH; [assumption|simpl in Hl; lia]]. apply map_ext_in. intros [t' x'] Hin.
    unfold shares_in. simpl. rewrite label_eqb_neq; [reflexivity|].
    intros ->. apply H1. apply (in_map fst) in Hin. exact Hin.
Qed.

Lemma lp_optimal : forall solver d r d' al lo,
  exact_milp solver -> valid_da d -> long_only (da_weights d) ->
  map fst (da_weights d) = map fst (da_prices d) ->
  lp_portfolio solver d r = (d', Ok (al, lo)) ->
  alloc_value (da_prices d) al + lo = da_total d /\ 0 <= lo /\ NoDup (map fst al) /\
  (forall t n, In (t, n) al -> (0 < n)%Z /\ In t (map fst (da_weights d))) /\
  (forall f : label -> Z, (forall t, In t (map fst (da_weights d)) -> (0 <= f t)%Z) ->
     shares_cost (da_weights d) (da_prices d) f <= da_total d ->
     dollar_dev (da_weights d) (da_prices d) (da_total d) (shares_in al) + lo <=
     dollar_dev (da_weights d) (da_prices d) (da_total d) f +
       (da_total d - shares_cost (da_weights d) (da_prices d) f)).
Proof.
  intros solver d r d' al lo Hs [Hnd [HT _]] Hl Hk H.
  assert (H' : lp_long solver d = Ok (al, lo)).
  { rewrite <- (lp_long_only 1 solver d r Hl). unfold lp_portfolio in H. rewrite H. reflexivity. }
  clear H. unfold lp_long in H'.
  set (P := mkLP (map snd (da_prices d)) (map snd (da_weights d)) (da_total d)) in *.
  assert (Hlen : length (da_weights d) = length (da_prices d))
    by (rewrite <- (map_length fst (da_weights d)), Hk, map_length; reflexivity).
  assert (Hpw : Nat.eqb (length (lp_p P)) (length (lp_w P)) = true)
    by (simpl; rewrite !map_length, Hlen; apply Nat.eqb_refl).
  rewrite Hpw in H'. cbn [negb] in H'.
  destruct (solver P) as [x u| |e] eqn:ES; try discriminate.
  destruct (Hs _ _ _ ES) as [[F1 [F2 [F3 [F4 [F5 [F6 F7]]]]]] Hopt].
  destruct (integers_list _ F3) as [zs Hx]. subst x.
  assert (Hzl : length zs = length (da_prices d)).
  { rewrite map_length in F1. simpl in F1. rewrite map_length in F1. exact F1. }
  assert (Hzz : map (nrint (A:=R)) (map IZR zs) = zs).
  { rewrite map_map. transitivity (map (fun z => z) zs); [|apply map_id].
    apply map_ext. intros z. apply Rrint_IZR. }
  rewrite Hzz in H'.
  assert (Hndp : NoDup (map fst (da_prices d))) by (rewrite <- Hk; assumption).
  assert (Hcf : map fst (combine (map fst (da_weights d)) zs) = map fst (da_weights d)).
  { apply combine_map_fst. rewrite map_length. lia. }
  rewrite dict_of_pairs_NoDup in H' by (rewrite Hcf; assumption).
  inversion H'; subst al lo. clear H'.
  assert (Hnn : Forall (fun z => (0 <= z)%Z) zs).
  { clear - F6. induction zs as [|z zs IH]; [constructor|]. simpl in F6. inversion F6; subst.
    constructor; [apply le_IZR; assumption|auto]. }
  assert (Hval : alloc_value (da_prices d) (remove_zero_positions (combine (map fst (da_weights d)) zs))
                 = dot (lp_p P) (map IZR zs)).
  { rewrite alloc_value_remove_zero, alloc_value_zcost by assumption. rewrite dot_zcost. reflexivity. }
  split; [rewrite Hval; unfold lp_r; simpl; lra|]. split; [assumption|].
  split; [apply remove_zero_NoDup; rewrite Hcf; assumption|]. split.
  { intros t n Hin. unfold remove_zero_positions in Hin. apply filter_In in Hin. destruct Hin as [Hin Hnz].
    simpl in Hnz. split.
    - apply in_combine_r in Hin. rewrite Forall_forall in Hnn. specialize (Hnn _ Hin).
      destruct (Z.eqb_spec n 0); [discriminate|lia].
    - apply in_combine_l in Hin. exact Hin. }
  intros f Hf Hcost.
  set (x' := map (fun kv => IZR (f (fst kv))) (da_weights d)).
  assert (Hx'l : length x' = length (lp_p P)) by (unfold x'; simpl; rewrite !map_length; assumption).
  assert (Hwl : length (lp_w P) = length (lp_p P)) by (simpl; rewrite !map_length; assumption).
  assert (Hfe : lp_feasible P x' (map Rabs (lp_eta P x'))).
  { split; [assumption|]. split; [rewrite map_length; apply lp_eta_nth; assumption|].
    split; [unfold x'; apply Forall_forall; intros y Hy; apply in_map_iff in Hy;
            destruct Hy as [kv [<- _]]; eauto|].
    destruct (abs_feasible (lp_eta P x')) as [A1 A2]. split; [assumption|]. split; [assumption|].
    split.
    - unfold x'. apply Forall_forall. intros y Hy. apply in_map_iff in Hy. destruct Hy as [kv [<- Hin]].
      apply IZR_le. apply Hf. apply in_map. exact Hin.
    - unfold lp_r. simpl. unfold x'. rewrite <- shares_cost_dot by assumption. lra. }
  specialize (Hopt _ _ Hfe). unfold lp_objective in Hopt.
  pose proof (abs_le_u _ _ F4 F5) as Habs.
  assert (Hd1 : dollar_dev (da_weights d) (da_prices d) (da_total d)
            (shares_in (remove_zero_positions (combine (map fst (da_weights d)) zs))) =
            vsum (map Rabs (lp_eta P (map IZR zs)))).
  { rewrite dollar_dev_eta by assumption. fold P. do 3 f_equal.
    transitivity (map IZR (map (fun kv => shares_in (combine (map fst (da_weights d)) zs) (fst kv)) (da_weights d))).
    - rewrite map_map. apply map_ext. intros kv. rewrite shares_in_remove_zero; [reflexivity|].
      rewrite Hcf. assumption.
    - rewrite shares_in_combine_map; [reflexivity|assumption|lia]. }
  rewrite Hd1. rewrite (dollar_dev_eta _ _ _ f) by assumption. fold P. fold x'.
  rewrite (shares_cost_dot _ _ f) by assumption. fold x'.
  unfold lp_r in *. simpl in *. lra.
Qed.

(** ** Latest prices (C11) *)
Definition widths (n : nat) (rows : list (list (option R))) : Prop :=
  Forall (fun r => length r = n) rows.

Lemma ffill_row_nth : forall prev row i, length prev = length row ->
  cell (ffill_row (A:=R) prev row) i = match cell row i with Some v => Some v | None => cell prev i end.
Proof.
  unfold cell, ffill_row. induction prev as [|p prev IH]; intros [|x row] i H; try discriminate.
  - destruct i; reflexivity.
  - destruct i as [|i]; simpl; [destruct x; reflexivity|]. apply IH. simpl in H; lia.
Qed.

(** the last row after filling, in terms of the raw rows *)
Definition last_price (rows : list (list (option R))) (i : nat) (v : option R) : Prop :=
  match v with
  | Some x => exists before row after, rows = before ++ row :: after /\ cell row i = Some x /\
                Forall (fun r => cell r i = None) after
  | None => Forall (fun r => cell r i = None) rows
  end.

Lemma ffill_from_last : forall rows prev n last rest,
  widths n rows -> length prev = n ->
  rev (ffill_from (A:=R) prev rows) = last :: rest ->
  length last = n /\
  forall i, (exists x, cell last i = Some x /\ last_price rows i (Some x)) \/
            (cell last i = cell prev i /\ last_price rows i None).
Proof.
  induction rows as [|row rows IH]; intros prev n last rest Hw Hp H; [discriminate|].
  inversion Hw; subst. cbn [ffill_from] in H. cbv zeta in H.
  set (r' := ffill_row prev row) in *.
  assert (Hl' : length r' = length prev) by (unfold r', ffill_row; rewrite map2_length; unfold fval in *; lia).
  simpl in H. destruct (rev (ffill_from r' rows)) as [|l rest'] eqn:E.
  - simpl in H. inversion H; subst last rest. split; [assumption|].
    assert (Er : rows = []).
    { destruct rows as [|r2 rows]; [reflexivity|]. simpl in E. apply app_eq_nil in E. destruct E; discriminate. }
    subst rows. intros i. unfold r'. rewrite ffill_row_nth by (unfold fval in *; lia).
    destruct (cell row i) as [v|] eqn:Ec.
    + left. exists v. split; [reflexivity|]. exists [], row, []. repeat split; auto.
    + right. split; [reflexivity|]. constructor; auto.
  - simpl in H. inversion H; subst last.
    destruct (IH r' (length prev) l rest') as [Hll Hi]; auto.
    split; [assumption|]. intros i. destruct (Hi i) as [[x [Hx [b [rw [a [E1 [E2 E3]]]]]]]|[Hx Hn]].
    + left. exists x. split; [assumption|]. exists (row :: b), rw, a. rewrite E1. auto.
    + unfold r' in Hx. rewrite ffill_row_nth in Hx by (unfold fval in *; lia).
      destruct (cell row i) as [v|] eqn:Ec.
      * left. exists v. split; [assumption|]. exists [], row, rows. repeat split; auto.
      * right. split; [assumption|]. constructor; auto.
Qed.

Lemma latest_prices_spec : forall cols rows,
  widths (length cols) rows ->
  (rows = [] -> get_latest_prices (A:=R) (Some (cols, rows)) = Err IndexError) /\
  (rows <> [] -> exists vals, get_latest_prices (Some (cols, rows)) = Ok (combine cols vals) /\
     length vals = length cols /\
     forall i, (i < length cols)%nat -> last_price rows i (cell vals i)).
Proof.
  intros cols rows Hw. split.
  - intros ->. reflexivity.
  - intros Hne. unfold get_latest_prices, ffill. cbn [fst snd].
    destruct (rev (ffill_from (map (fun _ => None) cols) rows)) as [|l rest] eqn:E.
    + exfalso. destruct rows as [|r rows]; [congruence|]. simpl in E. apply app_eq_nil in E. destruct E; discriminate.
    + destruct (ffill_from_last rows (map (fun _ => None) cols) (length cols) l rest Hw
                  (map_length _ _) E) as [Hl Hi].
      exists l. split; [reflexivity|]. split; [assumption|]. intros i Hlt.
      destruct (Hi i) as [[x [Hx Hp]]|[Hx Hp]]; [rewrite Hx; exact Hp|].
      rewrite Hx. assert (cell (map (fun _ : label => @None R) cols) i = None) as ->; [|exact Hp].
      unfold cell. clear. revert i. induction cols as [|c cols IH]; intros [|i]; simpl; auto.
Qed.

(** ** Constructor (C12) *)
Lemma all_some_inv : forall d w, all_some (A:=R) d = Some w -> d = some_dict w.
Proof.
  induction d as [|[k [v|]] d IH]; intros w H; simpl in H; try discriminate.
  - inversion H; reflexivity.
  - destruct (all_some d) as [r|]; [|discriminate]. inversion H; subst. simpl.
    fold (some_dict r). rewrite <- (IH r eq_refl). reflexivity.
Qed.

Lemma all_some_none : forall d : dict (option R), all_some d = None <-> exists k, In (k, None) d.
Proof.
  induction d as [|[k [v|]] d IH]; simpl.
  - split; [discriminate|intros [k []]].
  - destruct (all_some d) as [r|].
    + split; [discriminate|]. intros [k' [E|Hin]]; [discriminate|].
      assert (Some r = None) by (apply IH; eauto). discriminate.
    + split; [|reflexivity]. intros _. destruct IH as [IH _]. destruct (IH eq_refl) as [k' Hk]. eauto.
  - split; [|reflexivity]. intros _. exists k. auto.
Qed.

Lemma default_short_ratio_spec : forall w, default_short_ratio (A:=R) w = short_total w.
Proof.
  unfold default_short_ratio. induction w as [|[t x] w IH]; simpl; [apply vsum_nil|].
  simpl in IH. destruct (Rltb x 0) eqn:E; rprop; simpl; rewrite ?vsum_cons, IH.
  - rewrite Rmax_right by lra. reflexivity.
  - rewrite Rmax_left by lra. lra.
Qed.

Lemma da_init_accepts : forall w p T sr d,
  da_init (A:=R) w p T sr = Ok d <->
  exists ws b ps, w = WDict (some_dict ws) /\ p = PSeries b (some_dict ps) /\ 0 < T /\
    (forall x, sr = Some x -> 0 <= x) /\
    d = mkDA ws ps b T (match sr with Some x => x | None => short_total ws end) None.
Proof.
  intros w p T sr d. split.
  - intros H. unfold da_init in H. destruct w as [dw|]; [|discriminate].
    destruct (all_some dw) as [ws|] eqn:Ew; [|discriminate].
    destruct p as [b s|]; [|discriminate]. destruct (all_some s) as [ps|] eqn:Ep; [|discriminate].
    runfold. destruct (Rleb T 0) eqn:ET; rprop; [discriminate|].
    apply all_some_inv in Ew. apply all_some_inv in Ep. subst.
    exists ws, b, ps. split; [reflexivity|]. split; [reflexivity|]. split; [assumption|].
    destruct sr as [x|].
    + destruct (Rltb x 0) eqn:Ex; rprop; [discriminate|]. inversion H; subst. split; [|reflexivity].
      intros y Hy. inversion Hy; subst; assumption.
    + inversion H; subst. split; [discriminate|]. rewrite default_short_ratio_spec. reflexivity.
  - intros [ws [b [ps [-> [-> [HT [Hsr ->]]]]]]]. unfold da_init. rewrite !all_some_some_dict. runfold.
    destruct (Rleb T 0) eqn:ET; rprop; [lra|]. destruct sr as [x|].
    + destruct (Rltb x 0) eqn:Ex; rprop; [|reflexivity]. specialize (Hsr _ eq_refl). lra.
    + rewrite default_short_ratio_spec. reflexivity.
Qed.

Lemma da_init_errors : forall w p T sr,
  (w = WNotDict -> da_init (A:=R) w p T sr = Err TypeError) /\
  (forall dw k, w = WDict dw -> In (k, None) dw -> da_init w p T sr = Err ValueError) /\
  (forall dw, w = WDict (some_dict dw) ->
     (p = PNotSeries -> da_init w p T sr = Err TypeError) /\
     (forall b s k, p = PSeries b s -> In (k, None) s -> da_init w p T sr = Err TypeError) /\
     (forall b s, p = PSeries b (some_dict s) ->
        (T <= 0 -> da_init w p T sr = Err ValueError) /\
        (0 < T -> forall x, sr = Some x -> x < 0 -> da_init w p T sr = Err ValueError))).
Proof.
  intros w p T sr. split; [intros ->; reflexivity|]. split.
  { intros dw k -> Hin. unfold da_init. assert (all_some dw = None) as -> by (apply all_some_none; eauto). reflexivity. }
  intros dw ->. unfold da_init. rewrite all_some_some_dict. split; [intros ->; reflexivity|]. split.
  { intros b s k -> Hin. assert (all_some s = None) as -> by (apply all_some_none; eauto). reflexivity. }
  intros b s ->. rewrite all_some_some_dict. runfold. split.
  - intros HT. destruct (Rleb T 0) eqn:E; rprop; [reflexivity|lra].
  - intros HT x -> Hx. destruct (Rleb T 0) eqn:E; rprop; [lra|].
    destruct (Rltb x 0) eqn:Ex; rprop; [reflexivity|lra].
Qed.
