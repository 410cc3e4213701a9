(** * lp_portfolio against greedy_portfolio (C115) *)
From Coq Require Import ZArith List Reals Lra Lia.
From Verif Require Import Num Py RBase PyLemmas MAlloc MReport SLin SAlloc SReport SWays PAlloc PAlloc4 PAlloc5 PReport.
Import ListNotations.
Local Open Scope R_scope.

Lemma greedy_cost : forall fuel d r d' al lo, valid_da d -> long_only (da_weights d) -> positive_prices (da_prices d) ->
  greedy_portfolio fuel d r = (d', Ok (al, lo)) ->
  shares_cost (da_weights d) (da_prices d) (shares_in al) + lo = da_total d /\ 0 <= lo /\
  (forall t, (0 <= shares_in al t)%Z) /\
  forall t w, In (t, w) (da_weights d) -> w * da_total d < (IZR (shares_in al t) + 1) * price_of (da_prices d) t.
Proof.
  intros fuel d r d' al lo V L P G. destruct (greedy_conservation_at 1 _ _ _ _ _ _ V L G) as [C1 C2]. destruct (greedy_shares_at 1 _ _ _ _ _ _ V L P G) as (S1 & S2 & S3).
  rewrite <- (alloc_value_cost al); [|exact S1|exact (proj1 V)|].
  - split; [exact C1|]. split; [exact C2|]. split; [|exact S3]. intros t. unfold shares_in. destruct (dget t al) as [n|] eqn:E; [|lia]. destruct (S2 t n (dget_In _ _ _ E)). lia.
  - intros t Ht. apply in_map_iff in Ht. destruct Ht as ([k n] & <- & Hk). exact (proj2 (S2 k n Hk)).
Qed.
(** who is short by less than one share everywhere and spends the rest misses by little *)
Lemma miss_bound : forall (w prices : dict R) T f, (forall t x, In (t, x) w -> x * T < (IZR (f t) + 1) * price_of prices t) -> (forall t x, In (t, x) w -> 0 <= price_of prices t) ->
  dollar_dev w prices T f <= 2 * price_sum w prices + shares_cost w prices f - total_weight w * T.
Proof.
  intros w prices T f H P. unfold dollar_dev, price_sum, shares_cost, total_weight. induction w as [|[t x] w IH]; cbn [fold_right fst snd]; [lra|].
  pose proof (H t x (or_introl eq_refl)) as H0. pose proof (P t x (or_introl eq_refl)). assert (IH' := IH (fun u y Hy => H u y (or_intror Hy)) (fun u y Hy => P u y (or_intror Hy))).
  destruct (Rle_or_lt 0 (x * T - IZR (f t) * price_of prices t)); [rewrite Rabs_pos_eq by assumption|rewrite Rabs_left by assumption]; lra.
Qed.
Lemma price_nonneg : forall (prices : dict R) t, positive_prices prices -> 0 <= price_of prices t.
Proof. intros prices t P. unfold price_of. destruct (dget t prices) as [p|] eqn:E; [|lra]. pose proof (P t p (dget_In _ _ _ E)). lra. Qed.
Theorem lp_beats_greedy : forall solver fuel d r r' d1 al lo d2 al' lo', exact_milp solver -> valid_da d -> long_only (da_weights d) -> positive_prices (da_prices d) ->
  map fst (da_weights d) = map fst (da_prices d) ->
  lp_portfolio solver d r = (d1, Ok (al, lo)) -> greedy_portfolio fuel d r' = (d2, Ok (al', lo')) ->
  miss (da_weights d) (da_prices d) (da_total d) (shares_in al) lo <= miss (da_weights d) (da_prices d) (da_total d) (shares_in al') lo'.
Proof.
  intros solver fuel d r r' d1 al lo d2 al' lo' E V L P M H G. destruct (lp_optimal _ _ _ _ _ _ E V L M H) as (_ & _ & _ & _ & O).
  destruct (greedy_cost _ _ _ _ _ _ V L P G) as (C & Hlo & N & _). unfold miss. replace lo' with (da_total d - shares_cost (da_weights d) (da_prices d) (shares_in al')) by lra. apply O; [intros t _; apply N|lra].
Qed.
Theorem greedy_miss : forall fuel d r d' al lo, valid_da d -> long_only (da_weights d) -> positive_prices (da_prices d) ->
  greedy_portfolio fuel d r = (d', Ok (al, lo)) ->
  miss (da_weights d) (da_prices d) (da_total d) (shares_in al) lo <= 2 * price_sum (da_weights d) (da_prices d) + (1 - total_weight (da_weights d)) * da_total d.
Proof.
  intros fuel d r d' al lo V L P G. destruct (greedy_cost _ _ _ _ _ _ V L P G) as (C & Hlo & N & S). unfold miss.
  pose proof (miss_bound (da_weights d) (da_prices d) (da_total d) (shares_in al) S (fun t x _ => price_nonneg _ t P)). lra.
Qed.
Theorem lp_miss : forall solver d r d' al lo, exact_milp solver -> valid_da d -> long_only (da_weights d) -> positive_prices (da_prices d) ->
  map fst (da_weights d) = map fst (da_prices d) -> total_weight (da_weights d) <= 1 ->
  lp_portfolio solver d r = (d', Ok (al, lo)) ->
  miss (da_weights d) (da_prices d) (da_total d) (shares_in al) lo <= 2 * price_sum (da_weights d) (da_prices d) + (1 - total_weight (da_weights d)) * da_total d.
Proof.
  intros solver d r d' al lo E V L P M W H. destruct (lp_optimal _ _ _ _ _ _ E V L M H) as (_ & _ & _ & _ & O). unfold miss.
  set (wt := fun t => match dget t (da_weights d) with Some x => x | None => 0 end). set (f := fun t => Int_part (wt t * da_total d / price_of (da_prices d) t)).
  assert (Ew : forall t x, In (t, x) (da_weights d) -> wt t = x) by (intros t x Hx; unfold wt; rewrite (In_dget _ _ _ (proj1 V) Hx); reflexivity).
  assert (Pp : forall t x, In (t, x) (da_weights d) -> 0 < price_of (da_prices d) t).
  { intros t x Hx. assert (Ht : In t (map fst (da_prices d))) by (rewrite <- M; apply in_map_iff; exists (t, x); auto). unfold price_of.
    destruct (dget t (da_prices d)) as [p|] eqn:Ep; [exact (P t p (dget_In _ _ _ Ep))|]. exfalso. apply dget_None in Ep. contradiction. }
  pose proof (proj1 (proj2 V)) as Ht.
  assert (F : forall t x, In (t, x) (da_weights d) -> IZR (f t) * price_of (da_prices d) t <= x * da_total d < (IZR (f t) + 1) * price_of (da_prices d) t).
  { intros t x Hx. unfold f. rewrite (Ew t x Hx). pose proof (Pp t x Hx) as Hp. destruct (base_Int_part (x * da_total d / price_of (da_prices d) t)) as [B1 B2].
    set (q := x * da_total d / price_of (da_prices d) t) in *. assert (Eq : x * da_total d = q * price_of (da_prices d) t) by (unfold q; field; lra). rewrite Eq. nra. }
  assert (Hf : forall t, In t (map fst (da_weights d)) -> (0 <= f t)%Z).
  { intros t Hi. apply in_map_iff in Hi. destruct Hi as ([k x] & <- & Hx). cbn [fst]. unfold f. rewrite (Ew k x Hx). pose proof (Pp k x Hx) as Hp. pose proof (L k x Hx) as H0.
    set (q := x * da_total d / price_of (da_prices d) k). assert (0 <= q) by (unfold q, Rdiv; apply Rmult_le_pos; [nra|left; apply Rinv_0_lt_compat; exact Hp]).
    destruct (base_Int_part q) as [_ B]. apply Z.lt_succ_r. apply lt_IZR. rewrite succ_IZR. lra. }
  assert (Cost : shares_cost (da_weights d) (da_prices d) f <= total_weight (da_weights d) * da_total d).
  { clearbody f. revert F. unfold shares_cost, total_weight. clear. induction (da_weights d) as [|[t x] w IH]; intros F; cbn [fold_right fst snd]; [lra|].
    destruct (F t x (or_introl eq_refl)) as [F1 _]. assert (IH' := IH (fun u y Hy => F u y (or_intror Hy))). lra. }
  pose proof (O f Hf ltac:(nra)) as O'.
  pose proof (miss_bound (da_weights d) (da_prices d) (da_total d) f (fun t x Hx => proj2 (F t x Hx)) (fun t x _ => price_nonneg _ t P)). lra.
Qed.
Theorem lp_beats_greedy_sides : forall solver fuel d r d1 al lo d2 al' lo', exact_milp solver -> valid_da d -> has_short (da_weights d) -> positive_prices (da_prices d) ->
  lp_portfolio solver d r = (d1, Ok (al, lo)) -> greedy_portfolio fuel d r = (d2, Ok (al', lo')) ->
  let longs := long_side (da_weights d) in let shorts := short_side (da_weights d) in
  let sv := da_total d * da_short_ratio d in let lv := if r then da_total d + sv else da_total d in
  exists l s l' s', lo = l + s /\ lo' = l' + s' /\ 0 <= l /\ 0 <= s /\ 0 <= l' /\ 0 <= s' /\
    miss longs (da_prices d) lv (shares_in al) l <= miss longs (da_prices d) lv (shares_in al') l' /\
    miss shorts (da_prices d) sv (fun t => - shares_in al t)%Z s <= miss shorts (da_prices d) sv (fun t => - shares_in al' t)%Z s'.
Proof.
  intros solver fuel d r d1 al lo d2 al' lo' E V S P H G. destruct (lp_long_short _ _ _ _ _ _ E V S H) as (l & s & E1 & P1 & P2 & _ & _ & C1 & C2 & _ & O1 & O2).
  destruct (greedy_sides _ _ _ _ _ _ V S P G) as (l' & s' & E1' & P1' & P2' & C1' & C2' & N1 & N2). cbv zeta in *.
  exists l, s, l', s'. do 6 (split; [assumption|]). unfold miss. split.
  - eapply Rle_trans; [apply (O1 (shares_in al'))|].
    + intros t Ht. apply in_map_iff in Ht. destruct Ht as ([k x] & <- & Hk). exact (proj1 (N1 k x Hk)).
    + lra.
    + lra.
  - eapply Rle_trans; [apply (O2 (fun t => - shares_in al' t)%Z)|].
    + intros t Ht. apply in_map_iff in Ht. destruct Ht as ([k x] & <- & Hk). pose proof (proj1 (N2 k x Hk)). cbn [fst]. lia.
    + lra.
    + lra.
Qed.
