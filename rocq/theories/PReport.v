(** * Proofs about the reports on an allocation *)
From Coq Require Import String ZArith List Reals Lra Lia Bool Permutation Sorted.
From Verif Require Import Num Py MAlloc SAlloc RBase PyLemmas PAlloc PAlloc2 PAlloc3 PAlloc4 PAlloc5 MReport SReport.
Import ListNotations.
Local Open Scope R_scope.

Lemma portfolio_val_ok : forall prices al acc, held_priced al prices ->
  portfolio_val (A:=R) prices al acc = Ok (acc + alloc_value prices al).
Proof.
  induction al as [|[t n] al IH]; intros acc H.
  - cbn. f_equal. lra.
  - cbn [portfolio_val]. destruct (H t n (or_introl eq_refl)) as [p Hp].
    unfold dgetE. rewrite Hp. cbn [rbind]. rewrite IH.
    + runfold. cbn [alloc_value]. unfold price_of. rewrite Hp. f_equal. lra.
    + intros t' n' Hin. apply (H t' n'). right. exact Hin.
Qed.

Lemma allocation_weight_ok : forall prices al v t, held_priced al prices ->
  v = alloc_value prices al -> (al <> [] -> v <> 0) ->
  allocation_weight (A:=R) prices al v t = Ok (Some (held_fraction prices al t)).
Proof.
  intros prices al v t H -> Hv. unfold allocation_weight, held_fraction, shares_in.
  destruct (dget t al) as [n|] eqn:E.
  - destruct (H t n (dget_In _ _ _ E)) as [p Hp]. unfold dgetE, price_of. rewrite Hp. cbn [rbind].
    runfold. destruct (Reqb (alloc_value prices al) 0) eqn:Ez; rprop; [|reflexivity].
    exfalso. apply Hv; [|exact Ez]. intros ->. discriminate E.
  - runfold. do 2 f_equal. unfold Rdiv. lra.
Qed.

Lemma sse_ok : forall prices al v ws s, held_priced al prices ->
  v = alloc_value prices al -> (al <> [] -> v <> 0) ->
  sse (A:=R) prices al v ws (Some s) = Ok (Some (s + square_distance ws prices al)).
Proof.
  induction ws as [|[t w] ws IH]; intros s H Hv Hn.
  - cbn. do 2 f_equal. lra.
  - cbn [sse]. rewrite allocation_weight_ok by assumption. cbn [rbind]. rewrite IH by assumption.
    do 2 f_equal. runfold. cbn [square_distance fold_right fst snd]. unfold square_distance, Rsqr. lra.
Qed.

Lemma rmse_ok : forall d al,
  da_alloc d = Some al -> da_weights d <> [] -> held_priced al (da_prices d) ->
  (al <> [] -> alloc_value (da_prices d) al <> 0) ->
  allocation_rmse d = Ok (Some (sqrt (square_distance (da_weights d) (da_prices d) al
                                       / INR (length (da_weights d))))).
Proof.
  intros d al Ha Hw Hp Hv. unfold allocation_rmse, mean_square_error. rewrite Ha.
  rewrite portfolio_val_ok by assumption. cbn [rbind].
  change (@n0 R RNum) with 0. rewrite Rplus_0_l.
  rewrite sse_ok by (auto; reflexivity). cbn [rbind].
  destruct (da_weights d) as [|kv ws] eqn:E; [congruence|]. cbn [rbind].
  do 3 f_equal. rewrite Rplus_0_l. runfold. rewrite <- INR_IZR_INZ. reflexivity.
Qed.

Lemma rmse_undefined : forall d : da (A:=R),
  (da_alloc d = None -> allocation_rmse d = Err AttributeError) /\
  (forall al, da_alloc d = Some al -> da_weights d = [] -> held_priced al (da_prices d) -> allocation_rmse d = Err ZeroDivisionError).
Proof.
  intros d. unfold allocation_rmse, mean_square_error. split; [intros ->; reflexivity|].
  intros al -> Hw Hp. rewrite portfolio_val_ok by assumption. rewrite Hw. reflexivity.
Qed.

Lemma square_distance_nonneg : forall w prices al, 0 <= square_distance w prices al.
Proof.
  induction w as [|kv w IH]; intros prices al; cbn; [lra|].
  specialize (IH prices al). unfold square_distance in IH.
  pose proof (Rle_0_sqr (snd kv - held_fraction prices al (fst kv))). lra.
Qed.

Lemma square_distance_zero : forall w prices al,
  square_distance w prices al = 0 <-> forall t x, In (t, x) w -> x = held_fraction prices al t.
Proof.
  induction w as [|[t0 x0] w IH]; intros prices al.
  - split; [intros _ t x []|reflexivity].
  - cbn [square_distance fold_right fst snd].
    pose proof (square_distance_nonneg w prices al) as P. unfold square_distance in P.
    pose proof (Rle_0_sqr (x0 - held_fraction prices al t0)) as Q.
    specialize (IH prices al). unfold square_distance in IH. split.
    + intros H t x [Hin|Hin].
      * inversion Hin; subst. assert ((x - held_fraction prices al t)² = 0) as Z by lra.
        apply Rsqr_eq_0 in Z. lra.
      * apply IH; [lra|exact Hin].
    + intros H. assert (fold_right (fun kv s => (snd kv - held_fraction prices al (fst kv))² + s) 0 w = 0) as ->.
      { apply IH. intros t x Hin. apply H. right. exact Hin. }
      rewrite (H t0 x0 (or_introl eq_refl)) at 1. unfold Rsqr. lra.
Qed.

Lemma rmse_zero : forall d al,
  da_alloc d = Some al -> da_weights d <> [] -> held_priced al (da_prices d) ->
  (al <> [] -> alloc_value (da_prices d) al <> 0) ->
  (allocation_rmse d = Ok (Some 0) <->
   forall t x, In (t, x) (da_weights d) -> x = held_fraction (da_prices d) al t).
Proof.
  intros d al Ha Hw Hp Hv. rewrite (rmse_ok d al Ha Hw Hp Hv), <- square_distance_zero.
  pose proof (square_distance_nonneg (da_weights d) (da_prices d) al) as P.
  assert (0 < INR (length (da_weights d))) as L.
  { destruct (da_weights d) as [|kv l]; [congruence|]. cbn [length]. rewrite S_INR.
    pose proof (pos_INR (length l)). lra. }
  assert (0 <= square_distance (da_weights d) (da_prices d) al / INR (length (da_weights d))) as D.
  { apply Rmult_le_pos; [exact P|]. left. apply Rinv_0_lt_compat. exact L. }
  split; intros H.
  - injection H as E. apply sqrt_eq_0 in E; [|exact D].
    apply Rmult_integral in E. destruct E as [E|E]; [exact E|].
    exfalso. apply (Rinv_neq_0_compat (INR (length (da_weights d)))); lra.
  - rewrite H. unfold Rdiv. rewrite Rmult_0_l, sqrt_0. reflexivity.
Qed.

(** ** verbose=True changes nothing, for greedy_portfolio *)
Lemma dset_keys : forall {V} (d : dict V) k v, incl (map fst (dset k v d)) (k :: map fst d).
Proof.
  intros V d k v t H. apply dset_keys_in in H. destruct H as [->|H]; [left|right]; auto.
Qed.

Lemma dupdate_keys : forall {V} (d2 d1 : dict V),
  incl (map fst (dupdate d1 d2)) (map fst d1 ++ map fst d2).
Proof.
  induction d2 as [|[k v] d2 IH]; intros d1 t H.
  - cbn in H. apply in_or_app. left. exact H.
  - change (dupdate d1 ((k, v) :: d2)) with (dupdate (dset k v d1) d2) in H.
    apply IH in H. apply in_app_or in H. destruct H as [H|H].
    + apply dset_keys in H. destruct H as [->|H]; apply in_or_app; [right; left; reflexivity|left; exact H].
    + apply in_or_app. right. right. exact H.
Qed.

Lemma remove_zero_keys : forall al, incl (map fst (remove_zero_positions al)) (map fst al).
Proof.
  intros al t H. apply in_map_iff in H. destruct H as [[k n] [E H]].
  apply filter_In in H. apply in_map_iff. exists (k, n). tauto.
Qed.

Lemma combine_keys : forall {V} (ks : list label) (vs : list V), incl (map fst (combine ks vs)) ks.
Proof.
  induction ks as [|k ks IH]; intros vs t H; [destruct H|].
  destruct vs as [|v vs]; [destruct H|]. destruct H as [H|H]; [left; exact H|right; eapply IH; exact H].
Qed.

Lemma alloc_keys : forall (ks : list label) (ss : list Z) t n,
  In (t, n) (remove_zero_positions (dict_of_pairs (combine ks ss))) -> In t ks.
Proof.
  intros ks ss t n H. apply (in_map fst) in H. apply remove_zero_keys in H.
  unfold dict_of_pairs in H. apply dupdate_keys in H. cbn in H. eapply combine_keys. exact H.
Qed.

Lemma priced_all : forall ws prices ps, priced ws prices ps -> all_priced ws prices.
Proof.
  intros ws prices ps H. induction H as [|kv p ws ps Hp H IH]; intros t x Hin; [destruct Hin|].
  destruct Hin as [->|Hin]; [exists p; exact Hp|eapply IH; exact Hin].
Qed.

Lemma greedy_long_held : forall fuel d al lo, greedy_long (A:=R) fuel d = Ok (al, lo) ->
  held_priced al (da_prices d).
Proof.
  intros fuel d al lo H. unfold greedy_long in H.
  destruct (first_round (da_prices d) (da_total d) (da_weights d) (da_total d))
    as [[[av ss0] ps]|] eqn:E1; cbn [rbind] in H; [|discriminate].
  destruct (second_round fuel (da_int d) (da_weights d) (da_prices d) ps ss0 av)
    as [[av' ss]|] eqn:E2; cbn [rbind] in H; [|discriminate].
  inversion H; subst. destruct (first_round_spec _ _ _ _ _ _ _ E1) as [F1 _].
  intros t n Hin. apply alloc_keys in Hin. apply in_map_iff in Hin. destruct Hin as [[t' w] [E Hin]].
  cbn in E; subst t'. exact (priced_all _ _ _ F1 _ _ Hin).
Qed.

(** the sum of square errors is computed without an exception, finite or not *)
Lemma sse_total : forall prices al v ws acc, held_priced al prices ->
  exists s, sse (A:=R) prices al v ws acc = Ok s.
Proof.
  induction ws as [|[t w] ws IH]; intros acc H; [exists acc; reflexivity|].
  cbn [sse]. unfold allocation_weight. destruct (dget t al) as [n|] eqn:E.
  - destruct (H t n (dget_In _ _ _ E)) as [p Hp]. unfold dgetE. rewrite Hp. cbn [rbind].
    destruct (neqb v n0); cbn [rbind]; apply IH; exact H.
  - cbn [rbind]. apply IH. exact H.
Qed.

Lemma mean_square_total : forall d al, da_alloc d = Some al -> da_weights d <> [] ->
  held_priced al (da_prices d) -> exists s, mean_square_error (A:=R) d = Ok s.
Proof.
  intros d al Ha Hw Hp. unfold mean_square_error. rewrite Ha, portfolio_val_ok by assumption. cbn [rbind].
  destruct (sse_total (da_prices d) al (n0 + alloc_value (da_prices d) al) (da_weights d) (Some n0) Hp) as [s Hs].
  change (@n0 R RNum) with 0 in Hs |- *. rewrite Hs. cbn [rbind].
  destruct (da_weights d); [congruence|]. eexists. reflexivity.
Qed.

Lemma greedy_verbose_same : forall fuel d r, greedy_verbose (A:=R) fuel d r = greedy_portfolio fuel d r.
Proof.
  intros fuel d r. unfold greedy_verbose.
  destruct (greedy_portfolio fuel d r) as [d' [[al lo]|e]] eqn:E; [|reflexivity].
  cbn [report fst]. unfold greedy_portfolio in E. cbn [greedy_at] in E.
  set (d1 := set_weights_da d (sort_weights (da_weights d))) in *.
  destruct (last_weight (da_weights d1)) as [wl|] eqn:El; [|discriminate E].
  destruct (nltb wl n0) eqn:Es.
  - match type of E with context [match ?m with Ok _ => _ | Err _ => _ end] =>
      destruct m as [[al' lo']|e'] eqn:Er end; [|discriminate E].
    inversion E; subst. cbn [da_weights set_alloc]. rewrite El, Es. reflexivity.
  - destruct (greedy_long fuel d1) as [[al' lo']|e'] eqn:Er; [|discriminate E].
    inversion E; subst. cbn [da_weights set_alloc]. rewrite El, Es.
    destruct (mean_square_total (set_alloc d1 al) al eq_refl) as [s Hs].
    + cbn [da_weights set_alloc]. intros Hn. rewrite Hn in El. discriminate El.
    + cbn [da_prices set_alloc]. eapply greedy_long_held. exact Er.
    + rewrite Hs. reflexivity.
Qed.

Lemma lp_verbose_same : forall solver d r, da_weights d <> [] -> all_priced (da_weights d) (da_prices d) ->
  lp_verbose (A:=R) solver d r = lp_portfolio solver d r.
Proof.
  intros solver d r Hw Hp. unfold lp_verbose.
  destruct (lp_portfolio solver d r) as [d' [[al lo]|e]] eqn:E; [|reflexivity].
  cbn [report fst]. unfold lp_portfolio in E. cbn [lp_at] in E.
  destruct (existsb (fun kv => nltb (snd kv) n0) (da_weights d)) eqn:Es.
  - match type of E with context [match ?m with Ok _ => _ | Err _ => _ end] =>
      destruct m as [[al' lo']|e'] eqn:Er end; [|discriminate E].
    inversion E; subst. cbn [da_weights set_alloc]. rewrite Es. reflexivity.
  - destruct (lp_long solver d) as [[al' lo']|e'] eqn:Er; [|discriminate E].
    inversion E; subst. cbn [da_weights set_alloc]. rewrite Es.
    destruct (mean_square_total (set_alloc d al) al eq_refl Hw) as [s Hs]; [|rewrite Hs; reflexivity].
    cbn [da_prices set_alloc]. intros t n Hin. unfold lp_long in Er.
    match type of Er with context [if ?b then _ else _] => destruct b; [discriminate Er|] end.
    match type of Er with context [match ?m with LPAnswer _ _ => _ | _ => _ end] =>
      destruct m as [x u| |e]; try discriminate Er end.
    inversion Er; subst. apply alloc_keys in Hin. apply in_map_iff in Hin.
    destruct Hin as [[t' w] [Et Hin]]. cbn in Et; subst t'. exact (Hp _ _ Hin).
Qed.

(** ** The bars of plot_weights *)
Lemma bars_perm : forall w : dict R, Permutation (combine (fst (weight_bars w)) (snd (weight_bars w))) w.
Proof.
  intros w. unfold weight_bars. cbn [fst snd].
  assert (forall l : dict R, combine (map fst l) (map snd l) = l) as C.
  { induction l as [|[k v] l IH]; cbn; [reflexivity|rewrite IH; reflexivity]. }
  rewrite C. apply isort_perm.
Qed.

Lemma bars_descending : forall w : dict R, descending (snd (weight_bars w)).
Proof.
  intros w. unfold weight_bars. cbn [snd].
  pose proof (isort_sorted _ sort_total w) as Hs.
  set (l := isort _ w) in *. clearbody l.
  apply Sorted_StronglySorted in Hs; [|intros a b c H1 H2; runfold; rprop; lra].
  intros i j Hij Hj. revert i j Hij Hj. induction Hs as [|a l Hs IH Hf]; intros i j Hij Hj.
  - cbn in Hj. lia.
  - cbn [map] in *. destruct j as [|j]; [lia|]. destruct i as [|i].
    + cbn [nth]. cbn [length] in Hj.
      rewrite Forall_forall in Hf.
      assert (In (nth j (map snd l) 0) (map snd l)) as Hin by (apply nth_In; lia).
      apply in_map_iff in Hin. destruct Hin as [b [Hb Hin]]. specialize (Hf b Hin).
      rewrite <- Hb. runfold. rprop. exact Hf.
    + cbn [nth]. apply IH; [lia|]. cbn [length] in Hj. lia.
Qed.

(** ** The error of a greedy long-only allocation *)
Lemma fractions_sum : forall (w prices : dict R) al,
  fold_right (fun kv s => held_fraction prices al (fst kv) + s) 0 w =
  shares_cost w prices (shares_in al) / alloc_value prices al.
Proof.
  induction w as [|kv w IH]; intros prices al; cbn; [unfold Rdiv; lra|].
  rewrite IH. unfold held_fraction, shares_cost, Rdiv. lra.
Qed.

Lemma square_distance_le : forall (w prices : dict R) al,
  (forall t x, In (t, x) w -> 0 <= x <= 1 /\ 0 <= held_fraction prices al t <= 1) ->
  square_distance w prices al <=
  total_weight w + fold_right (fun kv s => held_fraction prices al (fst kv) + s) 0 w.
Proof.
  induction w as [|[t x] w IH]; intros prices al H; [cbn; lra|].
  cbn [square_distance total_weight fold_right fst snd].
  assert (square_distance w prices al <=
    total_weight w + fold_right (fun kv s => held_fraction prices al (fst kv) + s) 0 w) as I.
  { apply IH. intros t' x' Hin. apply (H t' x'). right. exact Hin. }
  unfold square_distance, total_weight in I.
  destruct (H t x (or_introl eq_refl)) as [[A B] [C D]].
  set (h := held_fraction prices al t) in *.
  assert ((x - h)² <= x + h) as Q.
  { unfold Rsqr. pose proof (Rmult_le_pos x (1 - x) A ltac:(lra)). pose proof (Rmult_le_pos h (1 - h) C ltac:(lra)).
    pose proof (Rmult_le_pos x h A C). nra. }
  clearbody h. lra.
Qed.

Lemma weight_le_total : forall w t x, long_only w -> In (t, x) w -> x <= total_weight w.
Proof.
  induction w as [|[k y] w IH]; intros t x Hl Hin; [destruct Hin|].
  assert (0 <= total_weight w) as P.
  { assert (long_only w) as L by (intros t' x' H; apply (Hl t' x'); right; exact H).
    clear - L. induction w as [|[k y] w IH]; [cbn; lra|].
    cbn [total_weight fold_right snd]. specialize (L k y (or_introl eq_refl)) as Q.
    assert (0 <= total_weight w) by (apply IH; intros t' x' H; apply (L t' x'); right; exact H).
    unfold total_weight in *. lra. }
  cbn [total_weight fold_right snd]. unfold total_weight in P. destruct Hin as [E|Hin].
  - inversion E; subst. lra.
  - assert (x <= total_weight w) as Q by (eapply IH; [intros t' x' H; apply (Hl t' x'); right; exact H|exact Hin]).
    specialize (Hl k y (or_introl eq_refl)). unfold total_weight in Q. lra.
Qed.

Lemma square_distance_perm : forall a b prices al, Permutation a b ->
  square_distance a prices al = square_distance b prices al.
Proof.
  intros a b prices al H. unfold square_distance. induction H; cbn; try lra. 
Qed.

Lemma fraction_bounds : forall (w prices : dict R) al t x,
  NoDup (map fst al) -> (forall t n, In (t, n) al -> (0 < n)%Z /\ In t (map fst w)) ->
  positive_prices prices -> held_priced al prices -> In (t, x) w ->
  0 <= held_fraction prices al t <= 1.
Proof.
  intros w prices al t x Hn Hal Hp Hh Hin.
  assert (forall l, incl l al -> 0 <= alloc_value prices l) as Nn.
  { induction l as [|[k n] l IH]; intros Hi; cbn; [lra|].
    destruct (Hal k n) as [P _]; [apply Hi; left; reflexivity|].
    destruct (Hh k n) as [p Ep]; [apply Hi; left; reflexivity|].
    unfold price_of. rewrite Ep. apply dget_In in Ep. apply Hp in Ep. apply IZR_lt in P.
    assert (0 <= alloc_value prices l) by (apply IH; intros y Hy; apply Hi; right; exact Hy).
    pose proof (Rmult_lt_0_compat _ _ P Ep). lra. }
  unfold held_fraction, shares_in. destruct (dget t al) as [n|] eqn:E.
  2:{ unfold Rdiv. lra. }
  pose proof (dget_In _ _ _ E) as Hi.
  destruct (Hal t n Hi) as [P _]. destruct (Hh t n Hi) as [p Ep]. unfold price_of. rewrite Ep.
  pose proof (Hp _ _ (dget_In _ _ _ Ep)) as Pp. apply IZR_lt in P.
  pose proof (Rmult_lt_0_compat _ _ P Pp) as Q.
  assert (IZR n * p <= alloc_value prices al) as Le.
  { clear E Hn. revert Hi Nn. clear Hal Hh. induction al as [|[k m] al IH]; intros Hi Nn; [destruct Hi|].
    cbn [alloc_value]. destruct Hi as [Hi|Hi].
    - inversion Hi; subst. unfold price_of. rewrite Ep.
      assert (0 <= alloc_value prices al) by (apply Nn; intros y Hy; right; exact Hy). lra.
    - assert (0 <= alloc_value prices [(k, m)]) as H0.
      { apply Nn. intros y [<-|[]]. left. reflexivity. }
      cbn in H0. assert (IZR n * p <= alloc_value prices al).
      { apply IH; [exact Hi|]. intros l Hl. apply Nn. intros y Hy. right. apply Hl. exact Hy. }
      lra. }
  assert (0 < alloc_value prices al) as V by lra.
  split.
  - apply Rmult_le_pos; [lra|]. left. apply Rinv_0_lt_compat. exact V.
  - apply (Rmult_le_reg_r (alloc_value prices al)); [exact V|].
    unfold Rdiv. rewrite Rmult_assoc, Rinv_l by lra. lra.
Qed.

Lemma greedy_rmse : forall fuel d r d' al lo,
  valid_da d -> long_only (da_weights d) -> positive_prices (da_prices d) ->
  total_weight (da_weights d) <= 1 ->
  greedy_portfolio fuel d r = (d', Ok (al, lo)) ->
  exists e, allocation_rmse d' = Ok (Some e) /\
    e = sqrt (square_distance (da_weights d) (da_prices d) al / INR (length (da_weights d))) /\
    0 <= e <= sqrt (2 / INR (length (da_weights d))).
Proof.
  intros fuel d r d' al lo Hv Hl Hp Ht H.
  destruct (greedy_shares_at 1 fuel d r d' al lo Hv Hl Hp H) as [Hn [Hal _]].
  assert (da_weights d <> []) as Hw.
  { intros E. unfold greedy_portfolio in H. cbn [greedy_at set_weights_da da_weights] in H.
    rewrite E in H. inversion H. }
  unfold greedy_portfolio in H. rewrite greedy_long_only in H by assumption.
  set (d1 := set_weights_da d (sort_weights (da_weights d))) in *.
  destruct (greedy_long fuel d1) as [[al' lo']|] eqn:E; inversion H; subst.
  pose proof (greedy_long_held _ _ _ _ E) as Hh. change (da_prices d1) with (da_prices d) in Hh.
  assert (al <> [] -> alloc_value (da_prices d) al <> 0) as Hnz.
  { intros Hne. destruct al as [|[k n] l]; [congruence|].
    pose proof (fun t x => fraction_bounds (da_weights d) (da_prices d) ((k, n) :: l) t x Hn Hal Hp Hh) as Fb.
    destruct (Hal k n (or_introl eq_refl)) as [P Hk]. destruct (Hh k n (or_introl eq_refl)) as [p Ep].
    pose proof (Hp _ _ (dget_In _ _ _ Ep)) as Pp. apply IZR_lt in P.
    assert (0 <= alloc_value (da_prices d) l) as Q.
    { assert (forall m, incl m l -> 0 <= alloc_value (da_prices d) m) as Nn; [|apply Nn; apply incl_refl].
      induction m as [|[k' n'] m IH]; intros Hi; cbn; [lra|].
      destruct (Hal k' n') as [P' _]; [right; apply Hi; left; reflexivity|].
      destruct (Hh k' n') as [p' Ep']; [right; apply Hi; left; reflexivity|].
      unfold price_of. rewrite Ep'. apply dget_In in Ep'. apply Hp in Ep'. apply IZR_lt in P'.
      assert (0 <= alloc_value (da_prices d) m) by (apply IH; intros y Hy; apply Hi; right; exact Hy).
      pose proof (Rmult_lt_0_compat _ _ P' Ep'). lra. }
    cbn [alloc_value]. unfold price_of. rewrite Ep. pose proof (Rmult_lt_0_compat _ _ P Pp). lra. }
  assert (length (sort_weights (da_weights d)) = length (da_weights d)) as Len
    by (apply Permutation_length; apply sort_weights_perm).
  exists (sqrt (square_distance (da_weights d) (da_prices d) al / INR (length (da_weights d)))).
  split; [|split; [reflexivity|]].
  - rewrite (rmse_ok (set_alloc d1 al) al eq_refl).
    + cbn [da_weights da_prices set_alloc]. change (da_weights d1) with (sort_weights (da_weights d)).
      change (da_prices d1) with (da_prices d). rewrite Len.
      rewrite (square_distance_perm _ _ _ _ (sort_weights_perm (da_weights d))). reflexivity.
    + cbn [da_weights set_alloc]. change (da_weights d1) with (sort_weights (da_weights d)).
      intros E'. rewrite E' in Len. destruct (da_weights d); [congruence|discriminate Len].
    + exact Hh.
    + exact Hnz.
  - split; [apply sqrt_pos|]. apply sqrt_le_1_alt. apply Rmult_le_compat_r.
    { left. apply Rinv_0_lt_compat. apply lt_0_INR. destruct (da_weights d); [congruence|cbn; lia]. }
    eapply Rle_trans; [apply square_distance_le|].
    + intros t x Hin. split.
      * split; [apply (Hl t x Hin)|]. eapply Rle_trans; [apply (weight_le_total _ _ _ Hl Hin)|exact Ht].
      * apply (fraction_bounds (da_weights d) (da_prices d) al t x); assumption.
    + rewrite fractions_sum, <- alloc_value_cost.
      * destruct al as [|kv al].
        -- cbn. unfold Rdiv. rewrite Rmult_0_l. lra.
        -- unfold Rdiv. rewrite Rinv_r by (apply Hnz; discriminate). lra.
      * exact Hn.
      * apply Hv.
      * intros t Hin. apply in_map_iff in Hin. destruct Hin as [[k n] [<- Hin]]. apply (Hal k n Hin).
Qed.

(** ** verbose=True can make lp_portfolio fail *)
Definition mislabelled : da (A:=R) :=
  mkDA [(LStr "A", 1)] [(LStr "B", 10)] false 100 0 None.
Definition ten_solver (P : lp (A:=R)) : lp_outcome (A:=R) :=
  if andb (Reqb (lp_T P) 100) (andb (if list_eq_dec Req_EM_T (lp_p P) [10] then true else false)
            (if list_eq_dec Req_EM_T (lp_w P) [1] then true else false))
  then LPAnswer [10] [0] else LPBadStatus.

Lemma vsum1 : forall a : R, vsum [a] = a.
Proof. intros a. rewrite vsum_cons, vsum_nil. lra. Qed.

Lemma ten_solver_exact : exact_milp ten_solver.
Proof.
  intros P x u E. unfold ten_solver in E.
  destruct (Reqb (lp_T P) 100) eqn:E1; [|discriminate E].
  destruct (list_eq_dec Req_EM_T (lp_p P) [10]) as [E2|]; [|discriminate E].
  destruct (list_eq_dec Req_EM_T (lp_w P) [1]) as [E3|]; [|discriminate E].
  rprop. inversion E; subst. destruct P as [p w T]; cbn in E1, E2, E3; subst.
  split.
  - unfold lp_feasible, lp_eta, lp_r, dot. cbn. rewrite ?Rplus_0_l.
    split; [reflexivity|]. split; [reflexivity|].
    split; [constructor; [exists 10%Z; reflexivity|constructor]|].
    repeat split; repeat apply Forall2_cons; repeat apply Forall_cons;
      try apply Forall2_nil; try apply Forall_nil; rewrite ?vsum1; cbn; lra.
  - intros x' u' Hf. destruct Hf as [L1 [L2 [_ [F1 [F2 [F3 F4]]]]]].
    cbn in L1, L2. destruct x' as [|a [|]]; try discriminate L1. destruct u' as [|b [|]]; try discriminate L2.
    unfold lp_eta, lp_r, lp_objective, dot in *. cbn in *. rewrite ?vsum1 in *.
    inversion F1; subst. inversion F2; subst. unfold dot. cbn. rewrite ?vsum1. lra.
Qed.

Lemma mislabelled_run : forall r, lp_portfolio ten_solver mislabelled r =
  (set_alloc mislabelled [(LStr "A", 10%Z)], Ok ([(LStr "A", 10%Z)], 0)).
Proof.
  intros r. unfold lp_portfolio. cbn [lp_at mislabelled da_weights existsb snd].
  runfold. destruct (Rltb 1 0) eqn:E; rprop; [lra|]. cbn [orb].
  unfold lp_long. cbn [mislabelled da_weights da_prices da_total map snd fst lp_p lp_w length Nat.eqb negb].
  unfold ten_solver. cbn [lp_T lp_p lp_w].
  destruct (Reqb 100 100) eqn:E1; rprop; [|congruence].
  destruct (list_eq_dec Req_EM_T [10] [10]); [|congruence].
  destruct (list_eq_dec Req_EM_T [1] [1]); [|congruence].
  cbn [andb map combine]. runfold.
  replace (Rrint 10) with 10%Z by (symmetry; apply (Rrint_IZR 10)).
  assert (lp_r (A:=R) (mkLP [10] [1] 100) [10] = 0) as ->.
  { unfold lp_r, dot. cbn. rewrite vsum1. lra. }
  reflexivity.
Qed.

Lemma mislabelled_verbose : forall r, snd (lp_verbose ten_solver mislabelled r) = Err KeyError.
Proof.
  intros r. unfold lp_verbose. rewrite mislabelled_run. cbn [fst report set_alloc mislabelled da_weights existsb snd].
  runfold. destruct (Rltb 1 0) eqn:E; rprop; [lra|]. cbn. reflexivity.
Qed.

Lemma lp_verbose_keyerror : exists solver d al lo,
  exact_milp solver /\ valid_da d /\ long_only (da_weights d) /\ positive_prices (da_prices d) /\
  forall r, snd (lp_portfolio solver d r) = Ok (al, lo) /\ snd (lp_verbose solver d r) = Err KeyError.
Proof.
  exists ten_solver, mislabelled, [(LStr "A", 10%Z)], 0.
  split; [exact ten_solver_exact|].
  split; [repeat split; cbn; try lra; repeat constructor; intros []|].
  split; [intros t x [E|[]]; inversion E; lra|].
  split; [intros t x [E|[]]; inversion E; lra|].
  intros r. rewrite mislabelled_run. split; [reflexivity|apply mislabelled_verbose].
Qed.

Lemma bars_spec : forall w : dict R,
  Permutation (combine (fst (weight_bars w)) (snd (weight_bars w))) w /\
  length (fst (weight_bars w)) = length (snd (weight_bars w)) /\
  descending (snd (weight_bars w)).
Proof.
  intros w. split; [apply bars_perm|]. split; [|apply bars_descending].
  unfold weight_bars. cbn [fst snd]. rewrite !map_length. reflexivity.
Qed.
