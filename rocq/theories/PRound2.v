(** * greedy_portfolio in rounded arithmetic (C118) *)
From Coq Require Import ZArith List Bool Reals Lra Lia Psatz Permutation.
From Verif Require Import Num Py RBase PyLemmas MAlloc SAlloc MRound SRound PAlloc PRound1.
Import ListNotations.
Local Open Scope R_scope.

Definition zsum (ss : list Z) : R := fold_right (fun s a => IZR s + a) 0 ss.

Lemma zsum_bump : forall ss i, (i < length ss)%nat -> zsum (list_set i (nth i ss 0%Z + 1)%Z ss) = zsum ss + 1.
Proof.
  induction ss as [|s ss IH]; intros [|i] H; cbn [length] in H; try lia; cbn [list_set nth zsum fold_right].
  - rewrite plus_IZR. fold (zsum ss). lra.
  - fold (zsum ss). change (fold_right (fun s a => IZR s + a) 0 (list_set i (nth i ss 0%Z + 1)%Z ss)) with (zsum (list_set i (nth i ss 0%Z + 1)%Z ss)).
    rewrite IH by lia. lra.
Qed.

Section Rounded.
  Variable rnd : R -> R.
  Hypothesis Hr : rounding rnd.
  Variable u : R.
  Hypothesis Hacc : accurate u rnd.
  Hypothesis Hu : 0 <= u <= 1 / 4.
  Let N : Num R := RndNum rnd.

  Lemma inner_same : @inner R N = @inner R RNum.
  Proof. unfold inner. reflexivity. Qed.

  Lemma cost_error : forall n p B, 0 <= n -> 0 < p -> rnd (rnd n * p) <= B -> Rabs (rnd (rnd n * p) - n * p) <= 4 * u * B.
  Proof.
    intros n p B Hn Hp Hb.
    pose proof (err_pos rnd u Hacc n Hn) as E1. set (x := rnd n) in *. assert (Hx : 0 <= x) by (apply (rnd_nonneg rnd Hr), Hn).
    assert (Hxp : 0 <= x * p) by (apply Rmult_le_pos; lra).
    pose proof (err_pos rnd u Hacc (x * p) Hxp) as E2. set (c := rnd (x * p)) in *.
    assert (Hnp : 0 <= n * p) by (apply Rmult_le_pos; lra).
    assert (L : (1 - u) * (n * p) <= x * p) by (rewrite <- Rmult_assoc; apply Rmult_le_compat_r; lra).
    assert (U : x * p <= (1 + u) * (n * p)) by (rewrite <- Rmult_assoc; apply Rmult_le_compat_r; lra).
    assert (L2 : (1 - u) * ((1 - u) * (n * p)) <= c) by (apply Rle_trans with ((1 - u) * (x * p)); [apply Rmult_le_compat_l; lra|lra]).
    assert (U2 : c <= (1 + u) * ((1 + u) * (n * p))) by (apply Rle_trans with ((1 + u) * (x * p)); [lra|apply Rmult_le_compat_l; lra]).
    set (m := n * p) in *. clearbody m c x.
    assert (Hm : 9 * m <= 16 * B).
    { assert (0 <= (1 / 4 - u) * m) by (apply Rmult_le_pos; lra). assert (0 <= (1 - u) * ((1 / 4 - u) * m)) by (apply Rmult_le_pos; lra). nra. }
    assert (P : 0 <= u * (1 / 4 - u) * m) by (apply Rmult_le_pos; [apply Rmult_le_pos; lra|lra]).
    assert (Q : u * (9 * m) <= u * (16 * B)) by (apply Rmult_le_compat_l; lra).
    assert (S : 0 <= u * u * m) by (apply Rmult_le_pos; [apply Rmult_le_pos; lra|lra]).
    apply Rabs_le. split; nra.
  Qed.

  Lemma sub_error : forall a c B, 0 <= a - c -> a - c <= B -> Rabs (rnd (a - c) - (a - c)) <= u * B.
  Proof.
    intros a c B H1 H2. pose proof (Hacc (a - c)) as A. rewrite (Rabs_pos_eq _ H1) in A. eapply Rle_trans; [exact A|]. apply Rmult_le_compat_l; lra.
  Qed.

  Lemma first_round_rounded : forall prices T B ws av av' ss ps, 0 <= T -> (forall t p, In (t, p) prices -> 0 < p) -> Forall (fun kv => 0 <= snd kv) ws ->
    @first_round R N prices T ws av = Ok (av', ss, ps) -> 0 <= av <= B -> rnd av = av ->
    priced ws prices ps /\ length ss = length ws /\ 0 <= av' <= av /\ rnd av' = av' /\
    Forall2 (fun kv s => (0 <= s)%Z /\ forall p, dget (fst kv) prices = Some p -> (1 - u) * ((1 - u) * (snd kv * T)) < (IZR s + 1) * p) ws ss /\
    Rabs (av' + lvalue ps ss - av) <= 5 * u * B * INR (length ws).
  Proof.
    intros prices T B ws av av' ss ps HT Hpos. revert av av' ss ps.
    induction ws as [|[t w] ws IH]; intros av av' ss ps Hw H Hav Hf; cbn [first_round] in H.
    - inversion H; subst. cbn [lvalue length INR]. split; [constructor|]. split; [reflexivity|]. split; [lra|]. split; [exact Hf|]. split; [constructor|].
      replace (av' + 0 - av') with 0 by ring. rewrite Rabs_R0. lra.
    - unfold dgetE in H. destruct (dget t prices) as [p|] eqn:Hp; cbn [rbind] in H; [|discriminate].
      assert (Pp : 0 < p) by (apply (Hpos t), dget_In, Hp). inversion Hw as [|? ? Hw0 Hw' Ew]; subst. cbn [snd] in Hw0.
      change (@neqb R N p (@n0 R N)) with (Reqb p 0) in H. unfold Reqb in H at 1. destruct (Req_EM_T p 0) as [|Np0]; [lra|].
      change (@ndiv R N (@nmul R N w T) p) with (rnd (rnd (w * T) / p)) in H. change (@ntrunc R N) with Rtrunc in H.
      set (n := Rtrunc (rnd (rnd (w * T) / p))) in *.
      change (@nmul R N (@nofZ R N n) p) with (rnd (rnd (IZR n) * p)) in H. set (c := rnd (rnd (IZR n) * p)) in *.
      change (@nleb R N c av) with (Rleb c av) in H. destruct (Rleb c av) eqn:Ec; [|discriminate]. rprop.
      change (@nsub R N av c) with (rnd (av - c)) in H.
      assert (HwT : 0 <= w * T) by (apply Rmult_le_pos; lra).
      pose proof (err_pos rnd u Hacc _ HwT) as E1. assert (H1 : 0 <= rnd (w * T)) by (apply (rnd_nonneg rnd Hr), HwT).
      assert (Hq : 0 <= rnd (w * T) / p) by (apply Rmult_le_pos; [exact H1|left; apply Rinv_0_lt_compat, Pp]).
      pose proof (err_pos rnd u Hacc _ Hq) as E2. assert (H2 : 0 <= rnd (rnd (w * T) / p)) by (apply (rnd_nonneg rnd Hr), Hq).
      destruct (Rtrunc_nonneg _ H2) as [Hn [_ Hn1]]. fold n in Hn, Hn1.
      assert (Hn0 : 0 <= IZR n) by (apply IZR_le, Hn).
      assert (Hc0 : 0 <= c) by (apply (rnd_nonneg rnd Hr), Rmult_le_pos; [apply (rnd_nonneg rnd Hr), Hn0|lra]).
      assert (Ha1 : 0 <= rnd (av - c) <= av).
      { split; [apply (rnd_nonneg rnd Hr); lra|]. rewrite <- Hf at 2. apply (rnd_mono rnd Hr). lra. }
      destruct (first_round prices T ws (rnd (av - c))) as [[[a s] q]|e] eqn:Er; cbn [rbind] in H; [|discriminate].
      inversion H; subst a ss ps.
      destruct (IH _ _ _ _ Hw' Er ltac:(lra) (rnd_idem rnd Hr _)) as (I1 & I2 & I3 & I4 & I5 & I6).
      split; [constructor; [exact Hp|exact I1]|]. split; [cbn [length]; lia|]. split; [lra|]. split; [exact I4|]. split.
      + constructor; [|exact I5]. cbn [fst snd]. split; [exact Hn|]. intros p' Hp'. assert (p' = p) as -> by congruence.
        apply Rle_lt_trans with (rnd (rnd (w * T) / p) * p); [|apply Rmult_lt_compat_r; lra].
        apply Rle_trans with ((1 - u) * (rnd (w * T) / p) * p).
        * replace ((1 - u) * (rnd (w * T) / p) * p) with ((1 - u) * rnd (w * T)) by (field; lra). apply Rmult_le_compat_l; lra.
        * apply Rmult_le_compat_r; lra.
      + cbn [lvalue length]. rewrite S_INR.
        pose proof (cost_error (IZR n) p B Hn0 Pp ltac:(fold c; lra)) as C1. fold c in C1.
        pose proof (sub_error av c B ltac:(lra) ltac:(lra)) as C2.
        replace (av' + (p * IZR n + lvalue q s) - av) with ((av' + lvalue q s - rnd (av - c)) + (rnd (av - c) - (av - c)) + - (c - IZR n * p)) by ring.
        eapply Rle_trans; [apply Rabs_triang|]. rewrite Rabs_Ropp. eapply Rle_trans; [apply Rplus_le_compat_r, Rabs_triang|]. lra.
  Qed.

  Lemma second_round_rounded : forall B fuel ip ws prices ps ss av av' ss',
    priced ws prices ps -> length ss = length ws -> (forall t p, In (t, p) prices -> 0 < p) ->
    @second_round R N fuel ip ws prices ps ss av = Ok (av', ss') -> 0 <= av <= B -> rnd av = av ->
    length ss' = length ws /\ 0 <= av' <= av /\ bumped ss ss' /\
    Rabs (av' + lvalue ps ss' - (av + lvalue ps ss)) <= u * B * (zsum ss' - zsum ss).
  Proof.
    intros B. induction fuel as [|fuel IH]; intros ip ws prices ps ss av av' ss' Hpr Hlen Hpos H Hav Hf; [discriminate|].
    cbn [second_round] in H. change (@nltb R N (@n0 R N) av) with (Rltb 0 av) in H.
    assert (Z : forall x, Rabs (x - x) <= u * B * (zsum ss - zsum ss)) by (intros x; replace (x - x) with 0 by ring; rewrite Rabs_R0; lra).
    destruct (Rltb 0 av) eqn:Eav; rprop.
    2:{ inversion H; subst. split; [exact Hlen|]. split; [lra|]. split; [apply bumped_refl|apply Z]. }
    destruct ip; [discriminate|].
    destruct (deficits ws ps ss) as [df|] eqn:Ed; cbn [rbind] in H; [|discriminate].
    pose proof (priced_length _ _ _ Hpr) as Hlp.
    assert (Hldf : length df = length ws).
    { unfold deficits in Ed. destruct (neqb _ _).
      - destruct (forallb _ _); [|discriminate]. inversion Ed; subst. apply map_length.
      - inversion Ed; subst. rewrite !map2_length. lia. }
    destruct (nth_error ws (argmax df)) as [[t w]|] eqn:Ew; [|discriminate].
    unfold dgetE in H. destruct (dget t prices) as [p|] eqn:Ep; cbn [rbind] in H; [|discriminate].
    destruct (inner inner_fuel ws prices av df (argmax df) p 0) as [[[[df' i'] p'] c']|] eqn:Ei; cbn [rbind] in H; [|discriminate].
    assert (Hn : nth_error ps (argmax (A:=R) df) = Some p) by (eapply priced_nth; [exact Hpr|exact Ew|exact Ep]).
    change (@argmax R N df) with (@argmax R RNum df) in Ei. rewrite inner_same in Ei.
    destruct (inner_spec _ _ _ _ _ _ _ _ _ _ _ _ _ Hpr Hldf Hn Ei) as [Hl' Hbuy].
    change (@fnonpos R N (@at_idx R N df' i')) with (@fnonpos R RNum (@at_idx R RNum df' i')) in H.
    destruct (@fnonpos R RNum (@at_idx R RNum df' i') || Nat.eqb c' 10) eqn:Eb.
    - inversion H; subst. split; [exact Hlen|]. split; [lra|]. split; [apply bumped_refl|apply Z].
    - destruct (Hbuy eq_refl) as [Hp' Hle].
      set (ss1 := list_set i' (nth i' ss 0%Z + 1)%Z ss) in *.
      assert (Hl1 : length ss1 = length ws) by (unfold ss1; rewrite list_set_length; assumption).
      assert (Hv : lvalue ps ss1 = lvalue ps ss + p') by (apply lvalue_bump; [lia|assumption]).
      assert (Hi : (i' < length ss)%nat) by (rewrite Hlen, <- Hlp; apply nth_error_Some; congruence).
      pose proof (zsum_bump ss i' Hi) as Hz. fold ss1 in Hz.
      assert (Pp : 0 < p').
      { apply nth_error_In in Hp'. clear - Hpr Hp' Hpos. induction Hpr as [|kv q ws ps E F IH]; [contradiction|]. destruct Hp' as [->|Hp']; [|auto].
        apply (Hpos (fst kv)), dget_In, E. }
      change (@nsub R N av p') with (rnd (av - p')) in H.
      assert (Ha1 : 0 <= rnd (av - p') <= av).
      { split; [apply (rnd_nonneg rnd Hr); lra|]. rewrite <- Hf at 2. apply (rnd_mono rnd Hr). lra. }
      destruct (IH _ _ _ _ _ _ _ _ Hpr Hl1 Hpos H ltac:(lra) (rnd_idem rnd Hr _)) as (I1 & I2 & I3 & I4).
      split; [exact I1|]. split; [lra|]. split; [eapply bumped_trans; [apply bumped_set|exact I3]|].
      pose proof (sub_error av p' B ltac:(lra) ltac:(lra)) as C.
      replace (av' + lvalue ps ss' - (av + lvalue ps ss)) with ((av' + lvalue ps ss' - (rnd (av - p') + lvalue ps ss1)) + (rnd (av - p') - (av - p'))) by (rewrite Hv; ring).
      eapply Rle_trans; [apply Rabs_triang|]. rewrite Hz in I4. lra.
  Qed.

  Lemma greedy_long_rounded : forall fuel d al lo, valid_da d -> long_only (da_weights d) -> positive_prices (da_prices d) -> rnd (da_total d) = da_total d ->
    @greedy_long R N fuel d = Ok (al, lo) ->
    exists ps ss, priced (da_weights d) (da_prices d) ps /\ length ss = length (da_weights d) /\
      al = remove_zero_positions (combine (map fst (da_weights d)) ss) /\ 0 <= lo <= da_total d /\
      Forall2 (fun kv s => (0 <= s)%Z /\ forall p, dget (fst kv) (da_prices d) = Some p -> (1 - u) * ((1 - u) * (snd kv * da_total d)) < (IZR s + 1) * p) (da_weights d) ss /\
      Rabs (lo + lvalue ps ss - da_total d) <= u * da_total d * (5 * INR (length (da_weights d)) + zsum ss).
  Proof.
    intros fuel d al lo [Hnd [HT _]] Hl Hpos Hf H. unfold greedy_long in H.
    destruct (first_round (da_prices d) (da_total d) (da_weights d) (da_total d)) as [[[av ss0] ps]|] eqn:E1; cbn [rbind] in H; [|discriminate].
    destruct (second_round fuel (da_int d) (da_weights d) (da_prices d) ps ss0 av) as [[av' ss]|] eqn:E2; cbn [rbind] in H; [|discriminate].
    inversion H; subst.
    assert (Fw : Forall (fun kv => 0 <= snd kv) (da_weights d)) by (apply Forall_forall; intros [t x] Hx; exact (Hl t x Hx)).
    assert (T0 : 0 <= da_total d) by lra. assert (TT : 0 <= da_total d <= da_total d) by lra.
    destruct (first_round_rounded _ _ (da_total d) _ _ _ _ _ T0 Hpos Fw E1 TT Hf) as (F1 & F2 & F3 & F4 & F5 & F6).
    assert (AA : 0 <= av <= da_total d) by lra.
    destruct (second_round_rounded (da_total d) _ _ _ _ _ _ _ _ _ F1 F2 Hpos E2 AA F4) as (S1 & S2 & S3 & S4).
    exists ps, ss. split; [exact F1|]. split; [exact S1|]. split.
    { rewrite dict_of_pairs_NoDup; [reflexivity|]. rewrite combine_map_fst; [assumption|rewrite map_length; auto]. }
    split; [lra|]. split.
    - clear - F5 S3 F1 Hpos. unfold bumped in S3. revert ps F1 ss S3. induction F5 as [|kv s ws ss0 [A B] F IH]; intros ps F1 ss S3; inversion S3; subst; constructor.
      + inversion F1 as [|? pp ? ? Ep]; subst. split; [lia|]. intros p Hp. specialize (B p Hp). eapply Rlt_le_trans; [exact B|].
        assert (0 < p) by (apply (Hpos (fst kv)), dget_In, Hp). apply Rmult_le_compat_r; [lra|]. apply Rplus_le_compat_r, IZR_le. assumption.
      + inversion F1; subst. eapply IH; eassumption.
    - assert (Hz : 0 <= zsum ss0).
      { clear - F5. induction F5 as [|kv s ws ss [A _] F IH]; cbn [zsum fold_right]; [lra|]. fold (zsum ss). apply IZR_le in A. lra. }
      assert (HuT : 0 <= u * da_total d) by (apply Rmult_le_pos; lra).
      replace (lo + lvalue ps ss - da_total d) with ((lo + lvalue ps ss - (av + lvalue ps ss0)) + (av + lvalue ps ss0 - da_total d)) by ring.
      eapply Rle_trans; [apply Rabs_triang|]. assert (0 <= u * da_total d * zsum ss0) by (apply Rmult_le_pos; assumption). lra.
  Qed.
End Rounded.

Lemma share_count_remove : forall al, share_count (remove_zero_positions al) = share_count al.
Proof.
  induction al as [|[t n] al IH]; [reflexivity|]. unfold remove_zero_positions in *. cbn [filter snd]. destruct (Z.eqb_spec n 0) as [->|]; cbn [negb share_count fold_right snd] in *.
  - unfold share_count in *. rewrite IH. lra.
  - unfold share_count in *. rewrite IH. reflexivity.
Qed.
Lemma share_count_combine : forall (ks : list label) ss, length ss = length ks -> share_count (combine ks ss) = zsum ss.
Proof.
  induction ks as [|k ks IH]; intros [|s ss] H; cbn [length] in H; try lia; [reflexivity|]. cbn [combine]. unfold share_count, zsum in *. cbn [fold_right snd]. rewrite IH by lia. reflexivity.
Qed.

Theorem greedy_rounded : forall rnd u fuel d r d' al lo, rounding rnd -> accurate u rnd -> 0 <= u <= 1 / 4 ->
  valid_da d -> long_only (da_weights d) -> positive_prices (da_prices d) -> rnd (da_total d) = da_total d ->
  @greedy_portfolio R (RndNum rnd) fuel d r = (d', Ok (al, lo)) ->
  0 <= lo <= da_total d /\
  (forall t n, In (t, n) al -> (0 < n)%Z /\ In t (map fst (da_weights d))) /\
  (forall t w p, In (t, w) (da_weights d) -> dget t (da_prices d) = Some p -> (1 - u) ^ 2 * (w * da_total d) < (IZR (shares_in al t) + 1) * p) /\
  Rabs (alloc_value (da_prices d) al + lo - da_total d) <= u * da_total d * (5 * INR (length (da_weights d)) + share_count al).
Proof.
  intros rnd u fuel d r d' al lo Hr Ha Hu Hv Hl Hpos Hf H. unfold greedy_portfolio in H.
  destruct (da_weights d) as [|kv w] eqn:Ew. { cbn [greedy_at set_weights_da da_weights] in H. rewrite Ew in H. inversion H. } rewrite <- Ew in *.
  set (d1 := set_weights_da d (sort_weights (da_weights d))) in *.
  assert (Hp : Permutation (da_weights d1) (da_weights d)) by apply sort_weights_perm.
  assert (G : @greedy_at R (RndNum rnd) 2 fuel d r = match @greedy_long R (RndNum rnd) fuel d1 with Ok (al, lo) => (set_alloc d1 al, Ok (al, lo)) | Err e => (d1, Err e) end).
  { cbn [greedy_at]. change (set_weights_da d (@sort_weights R (RndNum rnd) (da_weights d))) with d1.
    change (da_weights d1) with (sort_weights (da_weights d)).
    destruct (last_weight (sort_weights (da_weights d))) as [x|] eqn:E.
    - destruct (last_weight_in _ _ E) as [t Hin]. assert (0 <= x) by (apply (Hl t); eapply Permutation_in; [exact Hp|exact Hin]).
      change (@nltb R (RndNum rnd) x (@n0 R (RndNum rnd))) with (Rltb x 0). destruct (Rltb x 0) eqn:Ex; rprop; [lra|reflexivity].
    - apply last_weight_none in E. exfalso. change (da_weights d1) with (sort_weights (da_weights d)) in Hp. rewrite E in Hp. apply Permutation_nil in Hp. congruence. }
  rewrite G in H. destruct (@greedy_long R (RndNum rnd) fuel d1) as [[al' lo']|] eqn:E; inversion H; subst al' lo'. clear H G.
  assert (V1 : valid_da d1).
  { destruct Hv as (A & B & C). split; [|split; [exact B|exact C]]. apply NoDup_fst_perm with (a := da_weights d); [symmetry; exact Hp|exact A]. }
  assert (L1 : long_only (da_weights d1)) by (apply long_only_perm with (a := da_weights d); [symmetry; exact Hp|exact Hl]).
  destruct (greedy_long_rounded rnd Hr u Ha Hu fuel d1 al lo V1 L1 Hpos Hf E) as (ps & ss & P1 & P2 & P3 & P4 & P5 & P6).
  change (da_total d1) with (da_total d) in *. change (da_prices d1) with (da_prices d) in *.
  assert (Hlen : length (da_weights d1) = length (da_weights d)) by (apply Permutation_length, Hp).
  assert (Hcf : map fst (combine (map fst (da_weights d1)) ss) = map fst (da_weights d1)) by (apply combine_map_fst; rewrite map_length; auto).
  assert (Hnd : NoDup (map fst (da_weights d1))) by apply V1.
  split; [exact P4|]. split; [|split].
  - intros t n Hin. rewrite P3 in Hin. unfold remove_zero_positions in Hin. apply filter_In in Hin. destruct Hin as [Hin Hz]. cbn [snd] in Hz.
    assert (Ht : In t (map fst (da_weights d1))) by (apply in_combine_l in Hin; exact Hin).
    split; [|apply in_map_iff in Ht; destruct Ht as [kv' [Ek Hk]]; apply in_map_iff; exists kv'; split; [exact Ek|eapply Permutation_in; [exact Hp|exact Hk]]].
    apply in_combine_r in Hin. assert (F : Forall (fun s => (0 <= s)%Z) ss).
    { clear - P5. induction P5 as [|? ? ? ? [A _] ? IH]; constructor; auto. }
    rewrite Forall_forall in F. specialize (F n Hin). destruct (Z.eqb_spec n 0); [discriminate|lia].
  - intros t x p Hx Hprice. apply (Permutation_in _ (Permutation_sym Hp)) in Hx. apply In_nth_error in Hx. destruct Hx as [i Hi].
    destruct (Forall2_nth_error_l _ _ _ _ _ P5 Hi) as [s [Hs [_ B]]]. cbn [fst snd] in B. specialize (B p Hprice).
    rewrite P3, shares_in_remove_zero by (rewrite Hcf; exact Hnd). unfold shares_in.
    rewrite (dget_combine _ _ i t s Hnd); [|rewrite nth_error_map, Hi; reflexivity|exact Hs]. lra.
  - rewrite P3, alloc_value_remove_zero, share_count_remove, share_count_combine by (rewrite map_length; exact P2).
    rewrite (alloc_value_combine _ _ ps) by assumption. rewrite <- Hlen, (Rplus_comm (lvalue ps ss) lo). exact P6.
Qed.
