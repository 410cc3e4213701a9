(** * Long/short allocations: both halves follow their own targets *)
From Coq Require Import ZArith List Bool Reals Lra Lia Permutation Sorted.
From Verif Require Import Num Py MAlloc SAlloc SReport RBase PyLemmas PAlloc PAlloc2 PAlloc3 PAlloc4.
Import ListNotations.
Local Open Scope R_scope.

Lemma total_weight_vsum : forall w : dict R, vsum (map snd w) = total_weight w.
Proof. induction w as [|kv w IH]; cbn; rewrite ?vsum_nil, ?vsum_cons; [reflexivity|rewrite IH; reflexivity]. Qed.

Lemma longs_filter : forall w : dict R,
  longs_of w = filter (fun kv => if Rle_dec 0 (snd kv) then true else false) w.
Proof.
  intros w. unfold longs_of. apply filter_ext. intros kv. runfold.
  destruct (Rleb 0 (snd kv)) eqn:E; rprop; destruct (Rle_dec 0 (snd kv)); auto; lra.
Qed.

Lemma shorts_filter : forall w : dict R,
  filter (fun kv => nltb (snd kv) n0) w = filter (fun kv => if Rlt_dec (snd kv) 0 then true else false) w.
Proof.
  intros w. apply filter_ext. intros kv. runfold.
  destruct (Rltb (snd kv) 0) eqn:E; rprop; destruct (Rlt_dec (snd kv) 0); auto; lra.
Qed.

Lemma short_total_filter : forall w : dict R,
  total_weight (map (fun kv => (fst kv, - snd kv))
    (filter (fun kv => if Rlt_dec (snd kv) 0 then true else false) w)) = short_total w.
Proof.
  induction w as [|kv w IH]; cbn; [reflexivity|].
  destruct (Rlt_dec (snd kv) 0) as [L|L]; cbn; unfold total_weight, short_total in *; rewrite IH.
  - rewrite Rmax_right by lra. reflexivity.
  - rewrite Rmax_left by lra. lra.
Qed.

Lemma normalise_longs : forall (w v : dict R), normalise (longs_of w) = Ok v -> v = long_side w.
Proof.
  intros w v H. unfold normalise in H. rewrite total_weight_vsum, longs_filter in H.
  unfold long_side. cbv zeta.
  set (l := filter _ w) in *. destruct (neqb (total_weight l) n0).
  - destruct l; [inversion H; reflexivity|discriminate H].
  - inversion H. reflexivity.
Qed.

Lemma normalise_shorts : forall (w v : dict R), normalise (shorts_of w) = Ok v -> v = short_side w.
Proof.
  intros w v H. unfold normalise in H. rewrite total_weight_vsum in H. unfold shorts_of in H.
  rewrite shorts_filter in H. unfold short_side. cbv zeta.
  change (fun kv : label * R => (fst kv, nopp (snd kv))) with (fun kv : label * R => (fst kv, - snd kv)) in H.
  rewrite short_total_filter in H. set (l := filter _ w) in *.
  destruct (neqb (short_total w) n0).
  - destruct l; [inversion H; reflexivity|discriminate H].
  - inversion H. rewrite map_map. reflexivity.
Qed.

Lemma total_weight_perm : forall a b, Permutation a b -> total_weight a = total_weight b.
Proof. intros a b H. unfold total_weight. induction H; cbn; lra. Qed.
Lemma short_total_perm : forall a b, Permutation a b -> short_total a = short_total b.
Proof. intros a b H. unfold short_total. induction H; cbn; lra. Qed.

Lemma long_side_perm : forall a b, Permutation a b -> Permutation (long_side a) (long_side b).
Proof.
  intros a b H. unfold long_side. cbv zeta.
  pose proof (filter_perm (fun kv : label * R => if Rle_dec 0 (snd kv) then true else false) _ _ H) as P.
  rewrite (total_weight_perm _ _ P). apply Permutation_map. exact P.
Qed.
Lemma short_side_perm : forall a b, Permutation a b -> Permutation (short_side a) (short_side b).
Proof.
  intros a b H. unfold short_side. cbv zeta.
  pose proof (filter_perm (fun kv : label * R => if Rlt_dec (snd kv) 0 then true else false) _ _ H) as P.
  rewrite (short_total_perm _ _ H). apply Permutation_map. exact P.
Qed.

Lemma long_side_in : forall w t, In t (map fst (long_side w)) -> exists x, In (t, x) w /\ 0 <= x.
Proof.
  intros w t H. unfold long_side in H. rewrite map_map in H. cbn in H.
  apply in_map_iff in H. destruct H as [[k x] [E H]]. cbn in E; subst k.
  apply filter_In in H. destruct H as [H Hx]. cbn in Hx. destruct (Rle_dec 0 x); [eauto|discriminate].
Qed.
Lemma short_side_in : forall w t, In t (map fst (short_side w)) -> exists x, In (t, x) w /\ x < 0.
Proof.
  intros w t H. unfold short_side in H. rewrite map_map in H. cbn in H.
  apply in_map_iff in H. destruct H as [[k x] [E H]]. cbn in E; subst k.
  apply filter_In in H. destruct H as [H Hx]. cbn in Hx. destruct (Rlt_dec x 0); [eauto|discriminate].
Qed.
Lemma sides_disjoint : forall w t, NoDup (map fst w) ->
  In t (map fst (long_side w)) -> ~ In t (map fst (short_side w)).
Proof.
  intros w t Hn H1 H2. apply long_side_in in H1. apply short_side_in in H2.
  destruct H1 as [x [I1 X1]]. destruct H2 as [y [I2 X2]].
  apply (In_dget _ _ _ Hn) in I1. apply (In_dget _ _ _ Hn) in I2. assert (x = y) by congruence. lra.
Qed.
Lemma combined : forall (al1 al2 : dict Z),
  (forall t n, In (t, n) al1 -> (0 < n)%Z) -> (forall t n, In (t, n) al2 -> (0 < n)%Z) ->
  NoDup (map fst al2) -> (forall t, In t (map fst al1) -> ~ In t (map fst al2)) ->
  remove_zero_positions (dupdate al1 (negate_alloc al2)) = al1 ++ negate_alloc al2.
Proof.
  intros al1 al2 H1 H2 Hn Hd.
  assert (map fst (negate_alloc al2) = map fst al2) as K by (unfold negate_alloc; rewrite map_map; reflexivity).
  rewrite dupdate_disjoint.
  - unfold remove_zero_positions.
    assert (forall l : dict Z, (forall t n, In (t, n) l -> n <> 0%Z) ->
              filter (fun kv => negb (Z.eqb (snd kv) 0)) l = l) as F.
    { induction l as [|[t n] l IH]; intros H; cbn; [reflexivity|].
      destruct (Z.eqb_spec n 0) as [->|]; [exfalso; apply (H t 0%Z); [left|]; reflexivity|].
      cbn. f_equal. apply IH. intros t' n' Hin. apply (H t' n'). right. exact Hin. }
    apply F. intros t n Hin. apply in_app_or in Hin. destruct Hin as [Hin|Hin].
    + apply H1 in Hin. lia.
    + apply in_map_iff in Hin. destruct Hin as [[k m] [E Hin]]. inversion E; subst. apply H2 in Hin. lia.
  - rewrite K. exact Hn.
  - intros k Hk Hk'. first [rewrite K in Hk'; exact (Hd k Hk Hk') | rewrite K in Hk; exact (Hd k Hk' Hk)].
Qed.

Lemma dget_app : forall {V} (a b : dict V) t,
  dget t (a ++ b) = match dget t a with Some v => Some v | None => dget t b end.
Proof.
  induction a as [|[k v] a IH]; intros b t; cbn; [reflexivity|]. destruct (label_eqb t k); [reflexivity|apply IH].
Qed.

Lemma shares_neg : forall al t, shares_in (negate_alloc al) t = (- shares_in al t)%Z.
Proof.
  intros al t. unfold shares_in. induction al as [|[k n] al IH]; cbn; [reflexivity|].
  destruct (label_eqb t k); [reflexivity|exact IH].
Qed.

Lemma shares_left : forall al1 al2 t, ~ In t (map fst al2) ->
  shares_in (al1 ++ negate_alloc al2) t = shares_in al1 t.
Proof.
  intros al1 al2 t H. unfold shares_in. rewrite dget_app. destruct (dget t al1); [reflexivity|].
  fold (shares_in (negate_alloc al2) t). rewrite shares_neg. unfold shares_in.
  apply dget_None in H. rewrite H. reflexivity.
Qed.
Lemma shares_right : forall al1 al2 t, ~ In t (map fst al1) ->
  shares_in (al1 ++ negate_alloc al2) t = (- shares_in al2 t)%Z.
Proof.
  intros al1 al2 t H. unfold shares_in at 1. rewrite dget_app.
  apply dget_None in H. rewrite H. fold (shares_in (negate_alloc al2) t). apply shares_neg.
Qed.

Lemma dollar_dev_ext : forall w p p' T f f',
  (forall t, In t (map fst w) -> price_of p t = price_of p' t) ->
  (forall t, In t (map fst w) -> f t = f' t) -> dollar_dev w p T f = dollar_dev w p' T f'.
Proof.
  intros w p p' T f f' Hp Hf. unfold dollar_dev. induction w as [|kv w IH]; cbn; [reflexivity|].
  rewrite Hp, Hf by (left; reflexivity). rewrite IH; [reflexivity| |];
    intros t Ht; [apply Hp|apply Hf]; right; exact Ht.
Qed.
Lemma shares_cost_ext : forall w p p' f f',
  (forall t, In t (map fst w) -> price_of p t = price_of p' t) ->
  (forall t, In t (map fst w) -> f t = f' t) -> shares_cost w p f = shares_cost w p' f'.
Proof.
  intros w p p' f f' Hp Hf. unfold shares_cost. induction w as [|kv w IH]; cbn; [reflexivity|].
  rewrite Hp, Hf by (left; reflexivity). rewrite IH; [reflexivity| |];
    intros t Ht; [apply Hp|apply Hf]; right; exact Ht.
Qed.

Lemma shares_in_cons : forall k t n al,
  shares_in ((t, n) :: al) k = if label_eqb k t then n else shares_in al k.
Proof. intros k t n al. unfold shares_in. cbn [dget]. destruct (label_eqb k t); reflexivity. Qed.

Lemma cost_other : forall prices t n al (l : dict R), ~ In t (map fst l) ->
  shares_cost l prices (shares_in ((t, n) :: al)) = shares_cost l prices (shares_in al).
Proof.
  induction l as [|[k x] l IHl]; intros Hl; [reflexivity|].
  change (IZR (shares_in ((t, n) :: al) k) * price_of prices k + shares_cost l prices (shares_in ((t, n) :: al)) =
          IZR (shares_in al k) * price_of prices k + shares_cost l prices (shares_in al)).
  rewrite IHl by (intros H; apply Hl; right; exact H).
  rewrite shares_in_cons, label_eqb_neq; [reflexivity|].
  intros ->. apply Hl. left. reflexivity.
Qed.

Lemma shares_cons_cost : forall (w prices : dict R) t n al, ~ In t (map fst al) -> NoDup (map fst w) ->
  In t (map fst w) ->
  shares_cost w prices (shares_in ((t, n) :: al)) = IZR n * price_of prices t + shares_cost w prices (shares_in al).
Proof.
  induction w as [|[k x] w IH]; intros prices t n al Hn Hd Hin; [destruct Hin|].
  cbn [map fst] in Hd. inversion Hd as [|? ? Hk Hd']; subst.
  change (IZR (shares_in ((t, n) :: al) k) * price_of prices k + shares_cost w prices (shares_in ((t, n) :: al)) =
          IZR n * price_of prices t + (IZR (shares_in al k) * price_of prices k + shares_cost w prices (shares_in al))).
  rewrite shares_in_cons. destruct (label_eqb_spec k t) as [->|Hne].
  - rewrite cost_other by exact Hk.
    assert (shares_in al t = 0%Z) as ->; [|lra].
    unfold shares_in. apply dget_None in Hn. rewrite Hn. reflexivity.
  - destruct Hin as [Hin|Hin]; [cbn in Hin; congruence|].
    rewrite (IH prices t n al Hn Hd' Hin). lra.
Qed.

Lemma alloc_value_cost : forall al (w prices : dict R), NoDup (map fst al) -> NoDup (map fst w) ->
  incl (map fst al) (map fst w) -> alloc_value prices al = shares_cost w prices (shares_in al).
Proof.
  induction al as [|[t n] al IH]; intros w prices Ha Hw Hi.
  - cbn [alloc_value]. unfold shares_cost. induction w as [|kv w IHw]; [reflexivity|].
    cbn in *. inversion Hw; subst. rewrite <- IHw; [lra|assumption|]. intros x [].
  - cbn [map fst] in Ha. inversion Ha; subst.
    rewrite shares_cons_cost; [|assumption|assumption|apply Hi; left; reflexivity].
    cbn [alloc_value]. rewrite (IH w prices); [reflexivity|assumption|assumption|].
    intros x Hx. apply Hi. right. exact Hx.
Qed.

Lemma shares_cost_perm : forall a b p f, Permutation a b -> shares_cost a p f = shares_cost b p f.
Proof. intros a b p f H. unfold shares_cost. induction H; cbn; lra. Qed.

Lemma lp_short_unfold : forall solver d r,
  has_short (da_weights d) ->
  let sv := da_total d * da_short_ratio d in
  snd (lp_portfolio (A:=R) solver d r) =
  (do longs <- normalise (longs_of (da_weights d)) ;
   do shorts <- normalise (shorts_of (da_weights d)) ;
   do da1 <- sub_da d longs (if r then da_total d + sv else da_total d) ;
   do rl <- snd (lp_at 1 solver da1 false) ;
   do da2 <- sub_da d shorts sv ;
   do rs <- snd (lp_at 1 solver da2 false) ;
   Ok (remove_zero_positions (dupdate (fst rl) (negate_alloc (fst rs))), snd rl + snd rs)).
Proof.
  intros solver d r [t [x [Hin Hx]]] sv. unfold lp_portfolio.
  remember 1%nat as one. cbn [lp_at].
  assert (existsb (fun kv => nltb (snd kv) n0) (da_weights d) = true) as ->.
  { apply existsb_exists. exists (t, x). split; [exact Hin|]. cbn. runfold. rprop. exact Hx. }
  destruct (normalise (longs_of (da_weights d))) as [longs|]; cbn [rbind]; [|reflexivity].
  destruct (normalise (shorts_of (da_weights d))) as [shorts|]; cbn [rbind]; [|reflexivity].
  runfold. fold sv.
  destruct (sub_da d longs _) as [da1|]; cbn [rbind]; [|reflexivity].
  destruct (snd (lp_at one solver da1 false)) as [[al1 lo1]|]; cbn [rbind]; [|reflexivity].
  destruct (sub_da d shorts sv) as [da2|]; cbn [rbind]; [|reflexivity].
  destruct (snd (lp_at one solver da2 false)) as [[al2 lo2]|]; cbn [rbind]; reflexivity.
Qed.

(** [al] is the best affordable way to hold the targets [w] with budget [T], leaving [lo] *)
Lemma sub_lp : forall solver d w T d1 al lo,
  exact_milp solver -> NoDup (map fst w) -> long_only w -> sub_da d w T = Ok d1 ->
  snd (lp_at 1 solver d1 false) = Ok (al, lo) ->
  alloc_value (da_prices d) al + lo = T /\ 0 <= lo /\ NoDup (map fst al) /\
  (forall t n, In (t, n) al -> (0 < n)%Z /\ In t (map fst w)) /\
  (forall f : label -> Z, (forall t, In t (map fst w) -> (0 <= f t)%Z) ->
     shares_cost w (da_prices d) f <= T ->
     dollar_dev w (da_prices d) T (shares_in al) + lo <=
     dollar_dev w (da_prices d) T f + (T - shares_cost w (da_prices d) f)).
Proof.
  intros solver d w T d1 al lo Hs Hn Hl E G.
  pose proof (sub_da_valid _ _ _ _ E Hn Hl) as V.
  pose proof (sub_da_price_of _ _ _ _ E Hn) as Pr.
  pose proof (sub_da_spec _ _ _ _ E) as [W [T1 [_ [_ [Sp _]]]]].
  apply select_prices_spec in Sp. destruct Sp as [K _].
  assert (long_only (da_weights d1)) as L1 by (rewrite W; exact Hl).
  assert (snd (lp_portfolio solver d1 false) = Ok (al, lo)) as G'.
  { unfold lp_portfolio. rewrite lp_long_only by exact L1. rewrite <- G. symmetry. apply lp_long_only. exact L1. }
  destruct (lp_portfolio solver d1 false) as [d1' r1] eqn:F. cbn in G'. subst r1.
  assert (map fst (da_weights d1) = map fst (da_prices d1)) as A by (rewrite W; symmetry; exact K).
  destruct (lp_optimal _ _ _ _ _ _ Hs V L1 A F) as [O1 [O2 [O3 [O4 O5]]]].
  rewrite W in *. rewrite T1 in *.
  assert (alloc_value (da_prices d1) al = alloc_value (da_prices d) al) as Ev.
  { apply alloc_value_ext. intros t Ht. apply Pr. apply in_map_iff in Ht.
    destruct Ht as [[k n] [<- Hin]]. apply O4 in Hin. tauto. }
  rewrite Ev in O1. repeat (split; [assumption|]).
  intros f Hf Hc.
  rewrite <- (dollar_dev_ext w (da_prices d1) (da_prices d) T (shares_in al) (shares_in al)) by auto.
  rewrite <- (dollar_dev_ext w (da_prices d1) (da_prices d) T f f) by auto.
  rewrite <- (shares_cost_ext w (da_prices d1) (da_prices d) f f) by auto.
  apply O5; [exact Hf|]. rewrite (shares_cost_ext w (da_prices d1) (da_prices d) f f) by auto. exact Hc.
Qed.

Lemma lp_long_short : forall solver d r d' al lo,
  exact_milp solver -> valid_da d -> has_short (da_weights d) ->
  lp_portfolio solver d r = (d', Ok (al, lo)) ->
  let longs := long_side (da_weights d) in let shorts := short_side (da_weights d) in
  let sv := da_total d * da_short_ratio d in
  let lv := if r then da_total d + sv else da_total d in
  exists lo1 lo2, lo = lo1 + lo2 /\ 0 <= lo1 /\ 0 <= lo2 /\ NoDup (map fst al) /\
  (forall t n, In (t, n) al ->
     ((0 < n)%Z /\ In t (map fst longs)) \/ ((n < 0)%Z /\ In t (map fst shorts))) /\
  shares_cost longs (da_prices d) (shares_in al) + lo1 = lv /\
  shares_cost shorts (da_prices d) (fun t => - shares_in al t)%Z + lo2 = sv /\
  gross_value (da_prices d) al + lo = da_total d * (1 + (if r then 2 else 1) * da_short_ratio d) /\
  (forall f : label -> Z, (forall t, In t (map fst longs) -> (0 <= f t)%Z) ->
     shares_cost longs (da_prices d) f <= lv ->
     dollar_dev longs (da_prices d) lv (shares_in al) + lo1 <=
     dollar_dev longs (da_prices d) lv f + (lv - shares_cost longs (da_prices d) f)) /\
  (forall f : label -> Z, (forall t, In t (map fst shorts) -> (0 <= f t)%Z) ->
     shares_cost shorts (da_prices d) f <= sv ->
     dollar_dev shorts (da_prices d) sv (fun t => - shares_in al t)%Z + lo2 <=
     dollar_dev shorts (da_prices d) sv f + (sv - shares_cost shorts (da_prices d) f)).
Proof.
  intros solver d r d' al lo Hs [Hnd [HT Hsr]] Hsh H longs shorts sv lv.
  assert (H' : snd (lp_portfolio solver d r) = Ok (al, lo)) by (rewrite H; reflexivity). clear H.
  rewrite lp_short_unfold in H' by assumption. cbv zeta in H'. fold sv lv in H'.
  destruct (normalise (longs_of (da_weights d))) as [l|] eqn:E1; cbn [rbind] in H'; [|discriminate].
  destruct (normalise (shorts_of (da_weights d))) as [s|] eqn:E2; cbn [rbind] in H'; [|discriminate].
  destruct (sub_da d l lv) as [da1|] eqn:E3; cbn [rbind] in H'; [|discriminate].
  destruct (snd (lp_at 1 solver da1 false)) as [[al1 lo1]|] eqn:G1; cbn [rbind] in H'; [|discriminate H'].
  destruct (sub_da d s sv) as [da2|] eqn:E4; cbn [rbind] in H'; [|discriminate].
  destruct (snd (lp_at 1 solver da2 false)) as [[al2 lo2]|] eqn:G2; cbn [rbind] in H'; [|discriminate H'].
  cbn [fst snd] in H'.
  assert (N1 : NoDup (map fst l)) by (rewrite (normalise_keys _ _ E1); apply filter_fst_NoDup; assumption).
  assert (N2 : NoDup (map fst s))
    by (rewrite (normalise_keys _ _ E2), shorts_keys; apply filter_fst_NoDup; assumption).
  assert (L1 : long_only l) by (eapply normalise_nonneg; [apply longs_of_nonneg|exact E1]).
  assert (L2 : long_only s) by (eapply normalise_nonneg; [apply shorts_of_nonneg|exact E2]).
  destruct (sub_lp _ _ _ _ _ _ _ Hs N1 L1 E3 G1) as [A1 [A2 [A3 [A4 A5]]]].
  destruct (sub_lp _ _ _ _ _ _ _ Hs N2 L2 E4 G2) as [B1 [B2 [B3 [B4 B5]]]].
  apply normalise_longs in E1. apply normalise_shorts in E2. fold longs in E1. fold shorts in E2. subst l s.
  assert (Ka : forall t, In t (map fst al1) -> In t (map fst longs)).
  { intros t Ht. apply in_map_iff in Ht. destruct Ht as [[k n] [<- Hin]]. apply A4 in Hin. tauto. }
  assert (Kb : forall t, In t (map fst al2) -> In t (map fst shorts)).
  { intros t Ht. apply in_map_iff in Ht. destruct Ht as [[k n] [<- Hin]]. apply B4 in Hin. tauto. }
  assert (Dj : forall t, In t (map fst longs) -> ~ In t (map fst shorts)) by (intros t; apply sides_disjoint; assumption).
  rewrite combined in H'.
  2:{ intros t n Hin. apply A4 in Hin. tauto. } 2:{ intros t n Hin. apply B4 in Hin. tauto. }
  2:{ exact B3. } 2:{ intros t Ht Ht'. apply (Dj t); auto. }
  inversion H'; subst al lo. clear H'.
  assert (S1 : forall t, In t (map fst longs) -> shares_in (al1 ++ negate_alloc al2) t = shares_in al1 t).
  { intros t Ht. apply shares_left. intros Hb. apply (Dj t Ht). apply Kb. exact Hb. }
  assert (S2 : forall t, In t (map fst shorts) -> (- shares_in (al1 ++ negate_alloc al2) t)%Z = shares_in al2 t).
  { intros t Ht. rewrite shares_right; [lia|]. intros Ha. apply (Dj t); auto. }
  exists lo1, lo2. split; [reflexivity|]. split; [exact A2|]. split; [exact B2|].
  assert (Nk : map fst (negate_alloc al2) = map fst al2) by (unfold negate_alloc; rewrite map_map; reflexivity).
  split; [|split; [|split; [|split; [|split; [|split]]]]].
  - rewrite map_app, Nk. clear - A3 B3 Ka Kb Dj.
    induction (map fst al1) as [|k m IH]; cbn; [assumption|].
    inversion A3; subst. constructor.
    + rewrite in_app_iff. intros [Hin|Hin]; [contradiction|]. apply (Dj k); [apply Ka; left; reflexivity|apply Kb; exact Hin].
    + apply IH; [assumption|]. intros t Ht. apply Ka. right. exact Ht.
  - intros t n Hin. apply in_app_or in Hin. destruct Hin as [Hin|Hin].
    + left. apply A4. exact Hin.
    + right. apply in_map_iff in Hin. destruct Hin as [[k m] [E Hin]]. inversion E; subst.
      destruct (B4 _ _ Hin). split; [lia|assumption].
  - rewrite (shares_cost_ext longs (da_prices d) (da_prices d) _ (shares_in al1)) by auto.
    rewrite <- A1. f_equal. symmetry. apply alloc_value_cost; auto.
  - rewrite (shares_cost_ext shorts (da_prices d) (da_prices d) _ (shares_in al2)) by auto.
    rewrite <- B1. f_equal. symmetry. apply alloc_value_cost; auto.
  - rewrite gross_value_app, gross_value_negate.
    rewrite !gross_value_pos by (intros t n Hin; first [apply A4 in Hin|apply B4 in Hin]; tauto).
    unfold lv, sv in *. destruct r; lra.
  - intros f Hf Hc. rewrite (dollar_dev_ext longs (da_prices d) (da_prices d) lv _ (shares_in al1)) by auto.
    apply A5; assumption.
  - intros f Hf Hc. rewrite (dollar_dev_ext shorts (da_prices d) (da_prices d) sv _ (shares_in al2)) by auto.
    apply B5; assumption.
Qed.

(** every long (short) ticker gets all the whole shares its target pays for *)
Lemma greedy_sides : forall fuel d r d' al lo,
  valid_da d -> has_short (da_weights d) -> positive_prices (da_prices d) ->
  greedy_portfolio fuel d r = (d', Ok (al, lo)) ->
  let sv := da_total d * da_short_ratio d in
  let lv := if r then da_total d + sv else da_total d in
  exists lo1 lo2, lo = lo1 + lo2 /\ 0 <= lo1 /\ 0 <= lo2 /\
  shares_cost (long_side (da_weights d)) (da_prices d) (shares_in al) + lo1 = lv /\
  shares_cost (short_side (da_weights d)) (da_prices d) (fun t => - shares_in al t)%Z + lo2 = sv /\
  (forall t x, In (t, x) (long_side (da_weights d)) ->
     (0 <= shares_in al t)%Z /\ x * lv < (IZR (shares_in al t) + 1) * price_of (da_prices d) t) /\
  (forall t x, In (t, x) (short_side (da_weights d)) ->
     (shares_in al t <= 0)%Z /\ x * sv < (1 - IZR (shares_in al t)) * price_of (da_prices d) t).
Proof.
  intros fuel d r d' al lo [Hnd [HT Hsr]] Hsh Hpos H sv lv.
  assert (H' : snd (greedy_portfolio fuel d r) = Ok (al, lo)) by (rewrite H; reflexivity). clear H.
  rewrite greedy_short_unfold in H' by assumption. cbv zeta in H'.
  set (d1 := set_weights_da d (sort_weights (da_weights d))) in *. fold sv lv in H'.
  pose proof (sort_weights_perm (da_weights d)) as Hperm.
  assert (Hnd1 : NoDup (map fst (da_weights d1))).
  { apply NoDup_fst_perm with (a := da_weights d); [symmetry; exact Hperm|assumption]. }
  destruct (normalise (longs_of (da_weights d1))) as [l|] eqn:E1; cbn [rbind] in H'; [|discriminate].
  destruct (normalise (shorts_of (da_weights d1))) as [s|] eqn:E2; cbn [rbind] in H'; [|discriminate].
  destruct (sub_da d1 l lv) as [da1|] eqn:E3; cbn [rbind] in H'; [|discriminate].
  destruct (greedy_at 1 fuel da1 false) as [d1' r1] eqn:G1.
  destruct r1 as [[al1 lo1]|e1]; cbn [snd rbind] in H'; [|discriminate H'].
  destruct (sub_da d1 s sv) as [da2|] eqn:E4; cbn [rbind] in H'; [|discriminate].
  destruct (greedy_at 1 fuel da2 false) as [d2' r2] eqn:G2.
  destruct r2 as [[al2 lo2]|e2]; cbn [snd rbind] in H'; [|discriminate H'].
  cbn [fst snd] in H'.
  assert (N1 : NoDup (map fst l)) by (rewrite (normalise_keys _ _ E1); apply filter_fst_NoDup; assumption).
  assert (N2 : NoDup (map fst s))
    by (rewrite (normalise_keys _ _ E2), shorts_keys; apply filter_fst_NoDup; assumption).
  assert (L1 : long_only l) by (eapply normalise_nonneg; [apply longs_of_nonneg|exact E1]).
  assert (L2 : long_only s) by (eapply normalise_nonneg; [apply shorts_of_nonneg|exact E2]).
  pose proof (sub_da_valid _ _ _ _ E3 N1 L1) as V1.
  pose proof (sub_da_valid _ _ _ _ E4 N2 L2) as V2.
  pose proof (sub_da_spec _ _ _ _ E3) as [W1 [T1 _]].
  pose proof (sub_da_spec _ _ _ _ E4) as [W2 [T2 _]].
  assert (P1 : positive_prices (da_prices da1)) by (eapply sub_da_positive; eauto).
  assert (P2 : positive_prices (da_prices da2)) by (eapply sub_da_positive; eauto).
  pose proof (sub_da_price_of _ _ _ _ E3 N1) as Q1. pose proof (sub_da_price_of _ _ _ _ E4 N2) as Q2.
  change (da_prices d1) with (da_prices d) in Q1, Q2.
  rewrite <- W1 in L1. rewrite <- W2 in L2.
  destruct (greedy_conservation_at _ _ _ _ _ _ _ V1 L1 G1) as [C1 C1'].
  destruct (greedy_conservation_at _ _ _ _ _ _ _ V2 L2 G2) as [C2 C2'].
  destruct (greedy_shares_at _ _ _ _ _ _ _ V1 L1 P1 G1) as [D1 [A4 F1]].
  destruct (greedy_shares_at _ _ _ _ _ _ _ V2 L2 P2 G2) as [D2 [B4 F2]].
  rewrite W1, T1 in *. rewrite W2, T2 in *.
  apply normalise_longs in E1. apply normalise_shorts in E2.
  assert (Pl : Permutation l (long_side (da_weights d))) by (subst l; apply long_side_perm; exact Hperm).
  assert (Ps : Permutation s (short_side (da_weights d))) by (subst s; apply short_side_perm; exact Hperm).
  assert (Dj : forall t, In t (map fst l) -> ~ In t (map fst s)).
  { intros t H1 H2. subst l s. revert H1 H2. apply sides_disjoint. exact Hnd1. }
  clear E1 E2.
  assert (Ka : forall t, In t (map fst al1) -> In t (map fst l)).
  { intros t Ht. apply in_map_iff in Ht. destruct Ht as [[k n] [<- Hin]]. apply A4 in Hin. tauto. }
  assert (Kb : forall t, In t (map fst al2) -> In t (map fst s)).
  { intros t Ht. apply in_map_iff in Ht. destruct Ht as [[k n] [<- Hin]]. apply B4 in Hin. tauto. }
  rewrite combined in H'.
  2:{ intros t n Hin. apply A4 in Hin. tauto. } 2:{ intros t n Hin. apply B4 in Hin. tauto. }
  2:{ exact D2. } 2:{ intros t Ht Ht'. apply (Dj t); auto. }
  inversion H'; subst al lo. clear H'.
  assert (S1 : forall t, In t (map fst l) -> shares_in (al1 ++ negate_alloc al2) t = shares_in al1 t).
  { intros t Ht. apply shares_left. intros Hb. apply (Dj t Ht). apply Kb. exact Hb. }
  assert (S2 : forall t, In t (map fst s) -> shares_in (al1 ++ negate_alloc al2) t = (- shares_in al2 t)%Z).
  { intros t Ht. apply shares_right. intros Ha. apply (Dj t); auto. }
  assert (S2' : forall t, In t (map fst s) -> (- shares_in (al1 ++ negate_alloc al2) t)%Z = shares_in al2 t).
  { intros t Ht. rewrite S2 by exact Ht. lia. }
  assert (Pos : forall al : dict Z, (forall t n, In (t, n) al -> (0 < n)%Z) -> forall t, (0 <= shares_in al t)%Z).
  { intros al Ha t. unfold shares_in. destruct (dget t al) eqn:E; [|lia]. apply dget_In in E. apply Ha in E. lia. }
  exists lo1, lo2. split; [reflexivity|]. split; [exact C1'|]. split; [exact C2'|].
  split; [|split; [|split]].
  - rewrite (shares_cost_perm (long_side (da_weights d)) l) by (symmetry; exact Pl).
    rewrite (shares_cost_ext l (da_prices d) (da_prices da1) _ (shares_in al1));
      [|intros t Ht; symmetry; apply Q1; exact Ht|exact S1].
    rewrite <- C1. f_equal. symmetry. apply alloc_value_cost; auto.
  - rewrite (shares_cost_perm (short_side (da_weights d)) s) by (symmetry; exact Ps).
    rewrite (shares_cost_ext s (da_prices d) (da_prices da2) _ (shares_in al2));
      [|intros t Ht; symmetry; apply Q2; exact Ht|exact S2'].
    rewrite <- C2. f_equal. symmetry. apply alloc_value_cost; auto.
  - intros t x Hin. apply (Permutation_in _ (Permutation_sym Pl)) in Hin.
    assert (In t (map fst l)) as Ht by (apply (in_map fst) in Hin; exact Hin).
    rewrite S1 by exact Ht. split; [apply Pos; intros t' n Hi; apply A4 in Hi; tauto|].
    rewrite <- Q1 by exact Ht. apply F1. exact Hin.
  - intros t x Hin. apply (Permutation_in _ (Permutation_sym Ps)) in Hin.
    assert (In t (map fst s)) as Ht by (apply (in_map fst) in Hin; exact Hin).
    rewrite S2 by exact Ht.
    assert (0 <= shares_in al2 t)%Z as P0 by (apply Pos; intros t' n Hi; apply B4 in Hi; tauto).
    split; [lia|]. rewrite <- Q2 by exact Ht. rewrite opp_IZR.
    replace (1 - - IZR (shares_in al2 t)) with (IZR (shares_in al2 t) + 1) by lra. apply F2. exact Hin.
Qed.
