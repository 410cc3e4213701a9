(** * Proofs about the greedy allocation *)
From Coq Require Import ZArith List Bool Reals Lra Lia Permutation Sorted.
From Verif Require Import Num Py MAlloc SAlloc RBase PyLemmas.
Import ListNotations.
Local Open Scope R_scope.

(** ** argmax *)
Lemma argmax_go_lt : forall l i best bi,
  (bi < i)%nat -> (argmax_go (A:=R) l i best bi < i + length l)%nat.
Proof.
  induction l as [|x l IH]; simpl; intros i best bi H.
  - destruct best; lia.
  - destruct best as [b|]; [|lia].
    destruct x as [x|]; [|lia].
    runfold; rcase.
    + eapply Nat.lt_le_trans; [apply IH; lia|lia].
    + eapply Nat.lt_le_trans; [apply IH; lia|lia].
Qed.

Lemma argmax_lt : forall l, l <> [] -> (argmax (A:=R) l < length l)%nat.
Proof.
  intros [|x l] H; [congruence|]. unfold argmax.
  eapply Nat.lt_le_trans; [apply argmax_go_lt; lia|simpl; lia].
Qed.

(** all entries of a list of [option R] are numbers *)
Definition no_nan (l : list (option R)) : Prop := Forall (fun x => x <> None) l.

Lemma argmax_go_max : forall l pre i b bi,
  no_nan l -> i = length pre -> nth_error pre bi = Some (Some b) ->
  (forall j v, nth_error pre j = Some (Some v) -> v <= b) ->
  exists m, nth_error (pre ++ l) (argmax_go (A:=R) l i (Some b) bi) = Some (Some m) /\
            forall j v, nth_error (pre ++ l) j = Some (Some v) -> v <= m.
Proof.
  induction l as [|x l IH]; simpl; intros pre i b bi Hnn Hi Hbi Hmax.
  - rewrite app_nil_r. eauto.
  - inversion Hnn; subst. destruct x as [x|]; [|congruence].
    runfold. rcase.
    + destruct (IH (pre ++ [Some x]) (S (length pre)) b bi) as [m [Hm1 Hm2]]; auto.
      * rewrite app_length; simpl; lia.
      * rewrite nth_error_app1; [assumption|]. apply nth_error_Some; congruence.
      * intros j v Hj. destruct (Nat.lt_ge_cases j (length pre)) as [Hlt|Hge].
        { rewrite nth_error_app1 in Hj by assumption. eauto. }
        rewrite nth_error_app2 in Hj by assumption.
        destruct (j - length pre)%nat as [|k]; simpl in Hj; [inversion Hj; subst; lra|].
        destruct k; discriminate.
      * rewrite <- app_assoc in Hm1, Hm2. simpl in Hm1, Hm2. eauto.
    + destruct (IH (pre ++ [Some x]) (S (length pre)) x (length pre)) as [m [Hm1 Hm2]]; auto.
      * rewrite app_length; simpl; lia.
      * rewrite nth_error_app2, Nat.sub_diag by lia. reflexivity.
      * intros j v Hj. destruct (Nat.lt_ge_cases j (length pre)) as [Hlt|Hge].
        { rewrite nth_error_app1 in Hj by assumption. apply Hmax in Hj. lra. }
        rewrite nth_error_app2 in Hj by assumption.
        destruct (j - length pre)%nat as [|k]; simpl in Hj; [inversion Hj; subst; lra|].
        destruct k; discriminate.
      * rewrite <- app_assoc in Hm1, Hm2. simpl in Hm1, Hm2. eauto.
Qed.

Lemma argmax_max : forall l, l <> [] -> no_nan l ->
  exists m, nth_error l (argmax (A:=R) l) = Some (Some m) /\
            forall j v, nth_error l j = Some (Some v) -> v <= m.
Proof.
  intros [|x l] Hne Hnn; [congruence|]. inversion Hnn; subst.
  destruct x as [x|]; [|congruence]. unfold argmax.
  destruct (argmax_go_max l [Some x] 1 x 0) as [m [Hm1 Hm2]]; auto.
  - intros [|j] v Hj; simpl in Hj; [inversion Hj; lra|destruct j; discriminate].
  - exists m. split; assumption.
Qed.

(** ** Value of share lists *)
Fixpoint lvalue (ps : list R) (ss : list Z) : R :=
  match ps, ss with
  | p :: ps', s :: ss' => p * IZR s + lvalue ps' ss'
  | _, _ => 0
  end.

Lemma lvalue_vsum : forall ps ss, vsum (A:=R) (map2 (fun p n => nmul p (nofZ n)) ps ss) = lvalue ps ss.
Proof.
  induction ps; destruct ss; simpl; rewrite ?vsum_nil, ?vsum_cons; try reflexivity.
  rewrite IHps. reflexivity.
Qed.

Lemma lvalue_bump : forall ps ss i p,
  length ps = length ss -> nth_error ps i = Some p ->
  lvalue ps (list_set i (nth i ss 0%Z + 1)%Z ss) = lvalue ps ss + p.
Proof.
  induction ps as [|q ps IH]; destruct ss as [|s ss]; simpl; intros i p Hlen Hi;
    try discriminate; [destruct i; discriminate|].
  destruct i as [|i]; simpl in *.
  - inversion Hi; subst. rewrite plus_IZR. lra.
  - rewrite IH with (p := p); [lra|lia|assumption].
Qed.

(** list of buy prices of the weights, when all are priced *)
Definition priced (ws prices : dict R) (ps : list R) : Prop :=
  Forall2 (fun kv p => dget (fst kv) prices = Some p) ws ps.

Lemma priced_nth : forall ws prices ps i t w p,
  priced ws prices ps -> nth_error ws i = Some (t, w) -> dget t prices = Some p ->
  nth_error ps i = Some p.
Proof.
  induction ws as [|kv ws IH]; intros prices ps i t w p H Hi Hp; [destruct i; discriminate|].
  inversion H; subst. destruct i as [|i]; simpl in *.
  - inversion Hi; subst. simpl in *. congruence.
  - eapply IH; eauto.
Qed.

Lemma priced_length : forall ws prices ps, priced ws prices ps -> length ps = length ws.
Proof. intros ws prices ps H; apply Forall2_length in H; auto. Qed.

(** ** First round *)
Lemma first_round_spec : forall prices T ws av av' ss ps,
  first_round (A:=R) prices T ws av = Ok (av', ss, ps) ->
  priced ws prices ps /\ length ss = length ws /\
  av' + lvalue ps ss = av /\ (0 <= av -> 0 <= av') /\
  Forall2 (fun kv s => exists p, dget (fst kv) prices = Some p /\ p <> 0 /\
                                 s = Rtrunc (snd kv * T / p)) ws ss.
Proof.
  induction ws as [|[t w] ws IH]; intros av av' ss ps H; simpl in H.
  - inversion H; subst. repeat split; auto; simpl; try lra; constructor.
  - destruct (dget t prices) as [p|] eqn:Hp; unfold dgetE in H; rewrite Hp in H; simpl in H; [|discriminate].
    runfold.
    destruct (Reqb p 0) eqn:Ep; [destruct (Reqb (w * T) 0); discriminate|].
    destruct (Rleb (IZR (Rtrunc (w * T / p)) * p) av) eqn:Ec; [|discriminate].
    rprop.
    destruct (first_round prices T ws (av - IZR (Rtrunc (w * T / p)) * p)) as [[[a s] q]|e] eqn:Hr;
      simpl in H; [|discriminate].
    inversion H; subst. specialize (IH _ _ _ _ Hr).
    destruct IH as [H1 [H2 [H3 [H4 H5]]]].
    split; [constructor; auto|]. split; [simpl; lia|]. split; [simpl; lra|].
    split; [intros; apply H4; lra|]. constructor; [|assumption].
    exists p; simpl; auto.
Qed.

(** ** Inner loop *)
Lemma fneg_fnonpos : forall x, fneg (A:=R) x = true -> fnonpos x = true.
Proof. intros [x|]; simpl; intros H; [|discriminate]. runfold. rprop. lra. Qed.

Lemma inner_spec : forall fuel ws prices ps av df idx price c df' idx' price' c',
  priced ws prices ps ->
  length df = length ws -> nth_error ps idx = Some price ->
  inner (A:=R) fuel ws prices av df idx price c = Ok (df', idx', price', c') ->
  (length df' = length ws) /\
  (fnonpos (at_idx df' idx') || Nat.eqb c' 10 = false ->
   nth_error ps idx' = Some price' /\ price' <= av).
Proof.
  induction fuel as [|fuel IH]; intros ws prices ps av df idx price c df' idx' price' c' Hpr Hlen Hi H;
    [discriminate|].
  cbn [inner] in H. runfold.
  destruct (Rltb av price) eqn:Eav; rprop.
  - set (df1 := list_set idx (Some 0) df) in *.
    assert (Hlen1 : length df1 = length ws) by (unfold df1; rewrite list_set_length; assumption).
    destruct (fneg (at_idx df1 (argmax df1)) || Nat.eqb c 10) eqn:Eb.
    + inversion H; subst. split; [assumption|].
      intros Hf. exfalso. apply orb_false_iff in Hf. destruct Hf as [Hf1 Hf2].
      apply orb_true_iff in Eb. destruct Eb as [Eb|Eb]; [|congruence].
      apply fneg_fnonpos in Eb. congruence.
    + destruct (nth_error ws (argmax df1)) as [[t w]|] eqn:Ew; [|discriminate].
      unfold dgetE in H. destruct (dget t prices) as [p1|] eqn:Ep; simpl in H; [|discriminate].
      eapply IH in H; eauto. eapply priced_nth; eauto.
  - inversion H; subst. split; [assumption|]. intros _. split; [assumption|lra].
Qed.

Lemma deficits_length : forall ws ps ss df,
  length ps = length ws -> length ss = length ws ->
  deficits (A:=R) ws ps ss = Ok df -> length df = length ws.
Proof.
  intros ws ps ss df H1 H2 H. unfold deficits in H.
  destruct (neqb _ _).
  - destruct (forallb _ _); [|discriminate]. inversion H; subst. apply map_length.
  - inversion H; subst. rewrite !map2_length. lia.
Qed.

(** ** Second round *)
Definition bumped (ss ss' : list Z) : Prop := Forall2 (fun a b => (a <= b)%Z) ss ss'.

Lemma bumped_refl : forall ss, bumped ss ss.
Proof. induction ss; constructor; auto; lia. Qed.
Lemma bumped_trans : forall a b c, bumped a b -> bumped b c -> bumped a c.
Proof.
  intros a b c H; revert c. induction H; intros c Hc; inversion Hc; subst; constructor; eauto.
  lia. apply IHForall2; assumption.
Qed.
Lemma bumped_set : forall ss i, bumped ss (list_set i (nth i ss 0%Z + 1)%Z ss).
Proof.
  induction ss as [|x ss IH]; destruct i as [|i]; simpl; try constructor; try lia.
  - apply bumped_refl.
  - apply IH.
Qed.

Lemma second_round_spec : forall fuel ip ws prices ps ss av av' ss',
  priced ws prices ps -> length ss = length ws ->
  second_round (A:=R) fuel ip ws prices ps ss av = Ok (av', ss') ->
  length ss' = length ws /\ av' + lvalue ps ss' = av + lvalue ps ss /\
  (0 <= av -> 0 <= av') /\ bumped ss ss' /\ (ip = true -> 0 <= av -> av = 0).
Proof.
  induction fuel as [|fuel IH]; intros ip ws prices ps ss av av' ss' Hpr Hlen H; [discriminate|].
  cbn [second_round] in H. runfold.
  destruct (Rltb 0 av) eqn:Eav; rprop.
  2:{ inversion H; subst. repeat split; auto using bumped_refl. intros; lra. }
  destruct ip; [discriminate|].
  destruct (deficits ws ps ss) as [df|] eqn:Ed; cbn [rbind] in H; [|discriminate].
  pose proof (priced_length _ _ _ Hpr) as Hlp.
  pose proof (deficits_length _ _ _ _ Hlp Hlen Ed) as Hldf.
  destruct (nth_error ws (argmax df)) as [[t w]|] eqn:Ew; [|discriminate].
  unfold dgetE in H. destruct (dget t prices) as [p|] eqn:Ep; cbn [rbind] in H; [|discriminate].
  destruct (inner inner_fuel ws prices av df (argmax df) p 0) as [[[[df' i'] p'] c']|] eqn:Ei;
    cbn [rbind] in H; [|discriminate].
  assert (Hn : nth_error ps (argmax df) = Some p) by (eapply priced_nth; eauto).
  destruct (inner_spec _ _ _ _ _ _ _ _ _ _ _ _ _ Hpr Hldf Hn Ei) as [Hl' Hbuy].
  destruct (fnonpos (at_idx df' i') || Nat.eqb c' 10) eqn:Eb.
  - inversion H; subst. repeat split; auto using bumped_refl. discriminate.
  - destruct (Hbuy eq_refl) as [Hp' Hle].
    set (ss1 := list_set i' (nth i' ss 0%Z + 1)%Z ss) in *.
    assert (Hl1 : length ss1 = length ws) by (unfold ss1; rewrite list_set_length; assumption).
    assert (Hv : lvalue ps ss1 = lvalue ps ss + p') by (apply lvalue_bump; [lia|assumption]).
    destruct (IH _ _ _ _ _ _ _ _ Hpr Hl1 H) as [H1 [H2 [H3 [H4 H5]]]].
    split; [assumption|]. split; [lra|]. split; [intros _; apply H3; lra|].
    split; [eapply bumped_trans; [apply bumped_set|exact H4]|discriminate].
Qed.

(** ** From share lists to allocations *)
Lemma alloc_value_app : forall prices a b,
  alloc_value prices (a ++ b) = alloc_value prices a + alloc_value prices b.
Proof. induction a as [|[t n] a IH]; simpl; intros; [lra|rewrite IH; lra]. Qed.

Lemma alloc_value_remove_zero : forall prices al,
  alloc_value prices (remove_zero_positions al) = alloc_value prices al.
Proof.
  induction al as [|[t n] al IH]; simpl; [reflexivity|].
  destruct (Z.eqb_spec n 0) as [->|]; simpl; rewrite IH; lra.
Qed.

Lemma alloc_value_combine : forall ws prices ps ss,
  priced ws prices ps -> length ss = length ws ->
  alloc_value prices (combine (map fst ws) ss) = lvalue ps ss.
Proof.
  induction ws as [|[t w] ws IH]; intros prices ps ss Hp Hl; inversion Hp; subst;
    destruct ss as [|s ss]; try discriminate; simpl; [reflexivity|].
  rewrite IH with (ps := l'); [|assumption|simpl in Hl; lia].
  unfold price_of. simpl in H1. rewrite H1. lra.
Qed.


(** ** A successful long-only run *)
Lemma greedy_long_spec : forall fuel d al lo,
  greedy_long (A:=R) fuel d = Ok (al, lo) -> NoDup (map fst (da_weights d)) -> 0 <= da_total d ->
  exists ps ss0 ss,
    priced (da_weights d) (da_prices d) ps /\ length ss = length (da_weights d) /\
    al = remove_zero_positions (combine (map fst (da_weights d)) ss) /\
    lo + lvalue ps ss = da_total d /\ 0 <= lo /\ bumped ss0 ss /\
    Forall2 (fun kv s => exists p, dget (fst kv) (da_prices d) = Some p /\ p <> 0 /\
                                   s = Rtrunc (snd kv * da_total d / p)) (da_weights d) ss0 /\
    (da_int d = true -> lo = 0).
Proof.
  intros fuel d al lo H Hnd HT. unfold greedy_long in H.
  destruct (first_round (da_prices d) (da_total d) (da_weights d) (da_total d))
    as [[[av ss0] ps]|] eqn:E1; cbn [rbind] in H; [|discriminate].
  destruct (second_round fuel (da_int d) (da_weights d) (da_prices d) ps ss0 av)
    as [[av' ss]|] eqn:E2; cbn [rbind] in H; [|discriminate].
  inversion H; subst.
  destruct (first_round_spec _ _ _ _ _ _ _ E1) as [F1 [F2 [F3 [F4 F5]]]].
  destruct (second_round_spec _ _ _ _ _ _ _ _ _ F1 F2 E2) as [S1 [S2 [S3 [S4 S5]]]].
  exists ps, ss0, ss. repeat (split; [assumption|]).
  split.
  { rewrite dict_of_pairs_NoDup; [reflexivity|].
    rewrite combine_map_fst; [assumption|rewrite map_length; auto]. }
  split; [lra|]. split; [auto|]. split; [assumption|]. split; [assumption|].
  intros Hi. assert (av = 0) by auto.
  (* with an integer dtype the loop must not have been entered *)
  subst av. destruct fuel; [discriminate|]. cbn [second_round] in E2. runfold.
  destruct (Rltb 0 0) eqn:E; rprop; [lra|]. inversion E2; reflexivity.
Qed.

Lemma NoDup_fst_perm : forall {V} (a b : dict V), Permutation a b ->
  NoDup (map fst a) -> NoDup (map fst b).
Proof.
  intros V a b Hp Hn. eapply Permutation_NoDup; [|exact Hn]. apply Permutation_map. exact Hp.
Qed.

Lemma sort_weights_perm : forall w, Permutation (sort_weights (A:=R) w) w.
Proof. intros w; apply isort_perm. Qed.

Lemma sort_total : forall (x y : label * R),
  nleb (snd y) (snd x) = false -> nleb (snd x) (snd y) = true.
Proof. intros x y H; runfold; rprop; lra. Qed.

Lemma sort_weights_idem : forall w, sort_weights (A:=R) (sort_weights w) = sort_weights w.
Proof.
  intros w. unfold sort_weights. apply isort_idem.
  intros x y H. apply sort_total. exact H.
Qed.

Lemma last_weight_in : forall w x, last_weight (A:=R) w = Some x -> exists t, In (t, x) w.
Proof.
  intros w x H. unfold last_weight in H. destruct (rev w) as [|[t y] r] eqn:E; [discriminate|].
  inversion H; subst. exists t. apply in_rev. rewrite E. left; reflexivity.
Qed.

Lemma last_weight_none : forall w, last_weight (A:=R) w = None <-> w = [].
Proof.
  intros w. unfold last_weight. destruct (rev w) as [|kv r] eqn:E.
  - split; auto. intros _. apply (f_equal (@rev _)) in E. rewrite rev_involutive in E. exact E.
  - split; [discriminate|]. intros ->. discriminate.
Qed.

(** the last of the sorted weights is the smallest *)
Lemma last_weight_sorted_min : forall w x, last_weight (sort_weights (A:=R) w) = Some x ->
  forall t y, In (t, y) w -> x <= y.
Proof.
  intros w x H t y Hin.
  pose proof (isort_sorted _ sort_total w) as Hs. fold (sort_weights w) in Hs.
  apply Permutation_in with (l' := sort_weights w) in Hin; [|symmetry; apply sort_weights_perm].
  unfold last_weight in H. destruct (rev (sort_weights w)) as [|[t' x'] r] eqn:E; [discriminate|].
  inversion H; subst x'. clear H.
  apply (f_equal (@rev _)) in E. rewrite rev_involutive in E. simpl in E.
  rewrite E in *. clear E.
  apply Sorted_StronglySorted in Hs.
  2:{ intros a b c H1 H2. runfold. rprop. lra. }
  apply in_app_iff in Hin. destruct Hin as [Hin|[Hin|[]]]; [|inversion Hin; lra].
  induction (rev r) as [|z l IH]; [destruct Hin|].
  simpl in Hs. inversion Hs; subst. destruct Hin as [->|Hin]; [|auto].
  rewrite Forall_forall in H2. specialize (H2 (t', x)). rewrite in_app_iff in H2.
  assert (nleb (snd (t', x)) (snd (t, y)) = true) by (apply H2; right; left; reflexivity).
  simpl in H. rprop. exact H.
Qed.

Lemma long_only_perm : forall a b, Permutation a b -> long_only a -> long_only b.
Proof. intros a b Hp H t x Hin. apply (H t). eapply Permutation_in; [symmetry; exact Hp|exact Hin]. Qed.

(** how a call on a long-only portfolio unfolds *)
Lemma greedy_long_only : forall depth fuel d r,
  long_only (da_weights d) -> da_weights d <> [] ->
  let d1 := set_weights_da d (sort_weights (da_weights d)) in
  greedy_at (A:=R) (S depth) fuel d r =
  match greedy_long fuel d1 with
  | Ok (al, lo) => (set_alloc d1 al, Ok (al, lo))
  | Err e => (d1, Err e)
  end.
Proof.
  intros depth fuel d r Hl Hne d1. cbn [greedy_at]. fold d1.
  change (da_weights d1) with (sort_weights (da_weights d)).
  destruct (last_weight (sort_weights (da_weights d))) as [x|] eqn:E.
  - destruct (last_weight_in _ _ E) as [t Hin].
    assert (0 <= x).
    { apply (Hl t). eapply Permutation_in; [apply sort_weights_perm|exact Hin]. }
    runfold. destruct (Rltb x 0) eqn:Ex; rprop; [lra|reflexivity].
  - apply last_weight_none in E. exfalso. apply Hne.
    pose proof (sort_weights_perm (da_weights d)) as Hp. rewrite E in Hp.
    apply Permutation_nil in Hp. exact Hp.
Qed.

(** ** C01, C02 *)
Lemma greedy_conservation_at : forall depth fuel d r d' al lo,
  valid_da d -> long_only (da_weights d) ->
  greedy_at (S depth) fuel d r = (d', Ok (al, lo)) ->
  alloc_value (da_prices d) al + lo = da_total d /\ 0 <= lo.
Proof.
  intros depth fuel d r d' al lo [Hnd [HT _]] Hl H.
  destruct (da_weights d) as [|kv w] eqn:Ew.
  { cbn [greedy_at set_weights_da da_weights] in H. rewrite Ew in H. inversion H. }
  rewrite <- Ew in *.
  rewrite greedy_long_only in H by (auto; rewrite Ew; discriminate).
  set (d1 := set_weights_da d (sort_weights (da_weights d))) in *.
  destruct (greedy_long fuel d1) as [[al' lo']|] eqn:E; inversion H; subst.
  apply greedy_long_spec in E.
  - destruct E as [ps [ss0 [ss [E1 [E2 [E3 [E4 [E5 _]]]]]]]]. subst al.
    rewrite alloc_value_remove_zero.
    change (da_prices d) with (da_prices d1).
    rewrite alloc_value_combine with (ps := ps) by assumption.
    change (da_total d) with (da_total d1). split; lra.
  - apply NoDup_fst_perm with (a := da_weights d); [symmetry; apply sort_weights_perm|assumption].
  - simpl. lra.
Qed.

Lemma shares_in_remove_zero : forall al t, NoDup (map fst al) ->
  shares_in (remove_zero_positions al) t = shares_in al t.
Proof.
  intros al t Hnd. unfold shares_in.
  induction al as [|[k n] al IH]; [reflexivity|].
  inversion Hnd; subst. simpl.
  destruct (Z.eqb_spec n 0) as [->|Hn]; simpl.
  - destruct (label_eqb_spec t k) as [->|Hne]; [|auto].
    rewrite IH by assumption.
    apply dget_None in H1. rewrite H1. reflexivity.
  - destruct (label_eqb_spec t k); [reflexivity|auto].
Qed.

Lemma remove_zero_NoDup : forall al, NoDup (map fst al) -> NoDup (map fst (remove_zero_positions al)).
Proof.
  intros al. unfold remove_zero_positions. induction al as [|[k n] al IH]; simpl; intros H; [constructor|].
  inversion H; subst. destruct (negb (Z.eqb n 0)); simpl; auto.
  constructor; auto. intros Hin. apply H2. apply in_map_iff in Hin.
  destruct Hin as [kv [E Hin]]. apply filter_In in Hin. destruct Hin as [Hin _].
  apply in_map_iff. eauto.
Qed.

Lemma dget_combine : forall (keys : list label) (ss : list Z) i t s,
  NoDup keys -> nth_error keys i = Some t -> nth_error ss i = Some s ->
  dget t (combine keys ss) = Some s.
Proof.
  induction keys as [|k keys IH]; intros ss i t s Hnd Hk Hs; [destruct i; discriminate|].
  inversion Hnd; subst.
  destruct i as [|i]; destruct ss as [|s' ss]; simpl in *; try discriminate.
  - inversion Hk; inversion Hs; subst. rewrite label_eqb_refl. reflexivity.
  - rewrite label_eqb_neq; [eapply IH; eauto|].
    intros ->. apply H1. eapply nth_error_In; eauto.
Qed.

Lemma Forall2_nth_error : forall {X Y} (P : X -> Y -> Prop) l m i x y,
  Forall2 P l m -> nth_error l i = Some x -> nth_error m i = Some y -> P x y.
Proof.
  intros X Y P l m i x y H; revert i. induction H; intros i Hi Hj; destruct i; simpl in *;
    try discriminate; [congruence|eauto].
Qed.

Lemma Forall2_nth_error_l : forall {X Y} (P : X -> Y -> Prop) l m i x,
  Forall2 P l m -> nth_error l i = Some x -> exists y, nth_error m i = Some y /\ P x y.
Proof.
  intros X Y P l m i x H; revert i. induction H; intros i Hi; destruct i; simpl in *;
    try discriminate; [inversion Hi; subst; eauto|eauto].
Qed.

(** everything about the share numbers of a successful long-only run *)
Lemma greedy_shares_at : forall depth fuel d r d' al lo,
  valid_da d -> long_only (da_weights d) -> positive_prices (da_prices d) ->
  greedy_at (S depth) fuel d r = (d', Ok (al, lo)) ->
  NoDup (map fst al) /\
  (forall t n, In (t, n) al -> (0 < n)%Z /\ In t (map fst (da_weights d))) /\
  (forall t w, In (t, w) (da_weights d) ->
     w * da_total d < (IZR (shares_in al t) + 1) * price_of (da_prices d) t).
Proof.
  intros depth fuel d r d' al lo [Hnd [HT _]] Hl Hpos H.
  destruct (da_weights d) as [|kv w] eqn:Ew.
  { cbn [greedy_at set_weights_da da_weights] in H. rewrite Ew in H. inversion H. }
  rewrite <- Ew in *.
  rewrite greedy_long_only in H by (auto; rewrite Ew; discriminate).
  set (d1 := set_weights_da d (sort_weights (da_weights d))) in *.
  destruct (greedy_long fuel d1) as [[al' lo']|] eqn:E; inversion H; subst.
  assert (Hnd1 : NoDup (map fst (da_weights d1))).
  { apply NoDup_fst_perm with (a := da_weights d); [symmetry; apply sort_weights_perm|assumption]. }
  assert (Hl1 : long_only (da_weights d1)).
  { apply long_only_perm with (a := da_weights d); [symmetry; apply sort_weights_perm|assumption]. }
  apply greedy_long_spec in E; [|assumption|simpl; lra].
  destruct E as [ps [ss0 [ss [E1 [E2 [E3 [E4 [E5 [E6 [E7 _]]]]]]]]]]. subst al.
  assert (Hcf : map fst (combine (map fst (da_weights d1)) ss) = map fst (da_weights d1)).
  { apply combine_map_fst. rewrite map_length. auto. }
  assert (Hndc : NoDup (map fst (combine (map fst (da_weights d1)) ss))) by (rewrite Hcf; assumption).
  assert (Hent : forall i t w, nth_error (da_weights d1) i = Some (t, w) ->
            exists s, nth_error ss i = Some s /\ (0 <= s)%Z /\
                      w * da_total d < (IZR s + 1) * price_of (da_prices d) t).
  { intros i t w0 Hi.
    destruct (Forall2_nth_error_l _ _ _ _ _ E7 Hi) as [s0 [Hs0 [p [Hp [Hp0 Hs]]]]].
    destruct (Forall2_nth_error_l _ _ _ _ _ E6 Hs0) as [s [Hs1 Hle]].
    simpl in Hp, Hs. exists s. split; [assumption|].
    assert (Hpp : 0 < p) by (apply (Hpos t), dget_In; exact Hp).
    assert (Hw : 0 <= w0) by (apply (Hl1 t), nth_error_In with (n := i); assumption).
    assert (Hq : 0 <= w0 * da_total d / p).
    { apply Rmult_le_pos; [apply Rmult_le_pos; lra|left; apply Rinv_0_lt_compat; assumption]. }
    destruct (Rtrunc_nonneg _ Hq) as [Hz [Hz1 Hz2]]. rewrite <- Hs in *.
    split; [lia|].
    unfold price_of. rewrite Hp.
    assert (IZR s0 <= IZR s) by (apply IZR_le; assumption).
    assert (w0 * da_total d = w0 * da_total d / p * p) as -> by (field; lra).
    apply Rmult_lt_compat_r; lra. }
  split; [apply remove_zero_NoDup; assumption|]. split.
  - intros t n Hin. unfold remove_zero_positions in Hin. apply filter_In in Hin.
    destruct Hin as [Hin Hnz]. simpl in Hnz.
    apply In_nth_error in Hin. destruct Hin as [i Hi].
    assert (Hk : nth_error (map fst (combine (map fst (da_weights d1)) ss)) i = Some t)
      by exact (map_nth_error fst _ _ Hi).
    rewrite Hcf in Hk.
    destruct (nth_error (da_weights d1) i) as [[t' w0]|] eqn:Hi'.
    2:{ apply nth_error_None in Hi'. assert (length (da_weights d1) <= i)%nat by assumption.
        assert (Hn : nth_error (map fst (da_weights d1)) i = None)
          by (apply nth_error_None; rewrite map_length; assumption).
        rewrite Hk in Hn. discriminate. }
    assert (t' = t).
    { pose proof (map_nth_error fst _ _ Hi') as Hf. rewrite Hk in Hf. inversion Hf. reflexivity. } subst t'.
    destruct (Hent _ _ _ Hi') as [s [Hs [Hs0 _]]].
    assert (n = s).
    { assert (Hd : dget t (combine (map fst (da_weights d1)) ss) = Some s).
      { eapply dget_combine; [exact Hnd1|exact Hk|exact Hs]. }
      assert (Hd2 : dget t (combine (map fst (da_weights d1)) ss) = Some n).
      { apply In_dget; [assumption|]. eapply nth_error_In; eauto. }
      congruence. } subst s.
    split.
    + destruct (Z.eqb_spec n 0); simpl in Hnz; [discriminate|lia].
    + apply in_map_iff. exists (t, w0). split; [reflexivity|].
      eapply Permutation_in; [apply sort_weights_perm|]. eapply nth_error_In; eauto.
  - intros t w0 Hin.
    apply Permutation_in with (l' := da_weights d1) in Hin; [|symmetry; apply sort_weights_perm].
    apply In_nth_error in Hin. destruct Hin as [i Hi].
    destruct (Hent _ _ _ Hi) as [s [Hs [Hs0 Hlt]]].
    rewrite shares_in_remove_zero by assumption.
    unfold shares_in.
    rewrite (dget_combine _ ss i t s Hnd1 (map_nth_error fst _ _ Hi) Hs). exact Hlt.
Qed.
