(** * From a table of prices to whole shares (C108) *)
From Coq Require Import ZArith List Reals String Lra Lia.
From Verif Require Import Num Py RBase PyLemmas MBase MConvex MEF MFrame MAlloc SLin SHRP SBase SRisk SReturns SAlloc SConvex SPipe.
From Verif Require Import Sums PBase PAlloc PAlloc2 PAlloc4 PMilp PDown5.
Import ListNotations.
Local Open Scope R_scope.

Lemma label_eqb_true : forall a b, label_eqb a b = true -> a = b.
Proof. intros a b H. destruct (label_eqb_spec a b); [assumption|discriminate H]. Qed.
Lemma rounded_nonneg : forall d x y, (0 <= d)%Z -> 0 <= x -> rounded d x y -> 0 <= y.
Proof.
  intros d x y Hd Hx [k [E [H _]]].
  assert (H0 : (0 < 10 ^ d)%Z) by (apply Z.pow_pos_nonneg; lia). apply IZR_lt in H0.
  assert (Hk : (0 <= k)%Z).
  { destruct (Z_lt_le_dec k 0) as [Hk|Hk]; [|exact Hk]. exfalso.
    assert (Hk1 : IZR k <= -1) by (apply (IZR_le k (-1)); lia).
    pose proof (Rle_abs (x * IZR (10 ^ d) - IZR k)). assert (0 <= x * IZR (10 ^ d)) by nra. lra. }
  apply IZR_le in Hk. rewrite <- E in Hk. nra.
Qed.
Lemma cleaned_nonneg : forall x y, 0 <= x -> clean_rel default_cutoff (RdInt 5) x y -> 0 <= y.
Proof.
  intros x y Hx [H1 H2]. destruct (Rlt_le_dec (Rabs x) default_cutoff) as [H|H]; [rewrite (H1 H); lra|].
  apply (rounded_nonneg 5 x); [lia|exact Hx|exact (H2 H)].
Qed.
Lemma default_move : move_bound default_cutoff (RdInt 5) = 1 / 10 ^ 4.
Proof.
  unfold move_bound, half_unit, default_cutoff. runfold. rewrite Rmax_left; [cbn; lra|]. cbn. lra.
Qed.

(** the latest prices of a complete table *)
Lemma combine_some : forall (names : list label) (f : label -> R), combine names (map (fun t => Some (f t)) names) = some_dict (map (fun t => (t, f t)) names).
Proof. intros names f. unfold some_dict. rewrite map_map. induction names as [|t names IH]; cbn; [reflexivity|]. f_equal. exact IH. Qed.
Lemma last_nth : forall (l : list R) n, List.length l = S n -> last l 0 = nth n l 0.
Proof.
  induction l as [|a l IH]; intros n H; [discriminate H|]. destruct l as [|b l]; [destruct n; [reflexivity|discriminate H]|].
  destruct n as [|n]; [discriminate H|]. injection H as H. change (last (a :: b :: l) 0) with (last (b :: l) 0). rewrite (IH n); [reflexivity|cbn; lia].
Qed.
Lemma latest_history : forall T dates names p, (forall t, In t names -> List.length (p t) = S T) ->
  get_latest_prices (Some (names, f_rows (history (S T) dates names p))) = Ok (some_dict (last_prices names p)).
Proof.
  intros T dates names p Hp. set (rows := f_rows (history (S T) dates names p)).
  assert (Hlen : Forall (fun r => List.length r = List.length names) rows).
  { apply Forall_forall. intros r Hr. unfold rows, history in Hr. cbn [f_rows] in Hr. apply in_map_iff in Hr. destruct Hr as [k [<- _]]. apply map_length. }
  assert (Hne : rows <> []) by (unfold rows, history; cbn; discriminate).
  destruct (latest_prices_spec names rows Hlen) as [_ H]. destruct (H Hne) as [vals [E [Hl Hv]]]. rewrite E. f_equal. unfold last_prices.
  rewrite <- combine_some. f_equal. apply nth_ext with (d := None) (d' := None); [rewrite map_length; exact Hl|].
  intros i Hi. rewrite Hl in Hi. specialize (Hv i Hi). unfold last_price, SAlloc.cell in Hv.
  assert (Hrow : forall k, (k <= T)%nat -> nth i (map (fun t => Some (nth k (p t) 0)) names) None = Some (nth k (p (nth i names (LInt 0))) 0)).
  { intros k Hk. rewrite (nth_indep _ None (Some (nth k (p (LInt 0)) 0))) by (rewrite map_length; exact Hi).
    apply (map_nth (fun t => Some (nth k (p t) 0))). }
  assert (Hmem : forall r, In r rows -> nth i r None <> None).
  { intros r Hr. unfold rows, history in Hr. cbn [f_rows] in Hr. apply in_map_iff in Hr. destruct Hr as [k [<- Hk]]. apply in_seq in Hk.
    rewrite Hrow by lia. discriminate. }
  rewrite (nth_indep (map (fun t => Some (last (p t) 0)) names) None (Some (last (p (LInt 0)) 0))) by (rewrite map_length; exact Hi).
  rewrite (map_nth (fun t => Some (last (p t) 0))).
  unfold fval in *. destruct (nth i vals None) as [x|] eqn:Ev.
  - destruct Hv as [before [row [after [Er [Hx Ha]]]]].
    assert (after = []) as ->.
    { destruct after as [|a after]; [reflexivity|]. exfalso. inversion Ha; subst. apply (Hmem a); [|assumption].
      rewrite Er. apply in_or_app. right. right. left. reflexivity. }
    assert (Hrl : row = map (fun t => Some (nth T (p t) 0)) names).
    { unfold rows, history in Er. cbn [f_rows] in Er. rewrite seq_S, map_app in Er. cbn [map plus] in Er. apply app_inj_tail in Er. symmetry. exact (proj2 Er). }
    rewrite Hrl, Hrow in Hx by lia. rewrite <- Hx. f_equal. symmetry. apply last_nth. apply Hp. apply nth_In. exact Hi.
  - exfalso. destruct rows as [|r rows']; [congruence|]. inversion Hv; subst. apply (Hmem r); [left; reflexivity|assumption].
Qed.
Lemma dget_last : forall names p t, In t names -> dget t (last_prices names p) = Some (last (p t) 0).
Proof.
  induction names as [|a names IH]; intros p t H; [destruct H|]. unfold last_prices. cbn [map dget fst snd].
  destruct (label_eqb t a) eqn:E; [apply label_eqb_true in E; subst; reflexivity|].
  destruct H as [->|H]; [rewrite label_eqb_refl in E; discriminate E|]. apply IH. exact H.
Qed.

(** sums over the assets *)
Lemma price_last : forall names p t, In t names -> price_of (last_prices names p) t = last (p t) 0.
Proof. intros names p t H. unfold price_of. rewrite (dget_last names p t H). reflexivity. Qed.
Lemma dev_sum : forall (q : label -> R) money f names x, 
  fold_right (fun kv s => Rabs (snd kv * money - IZR (f (fst kv)) * q (fst kv)) + s) 0 (combine names x) =
  total (map (fun tx => Rabs (snd tx * money - IZR (f (fst tx)) * q (fst tx))) (combine names x)).
Proof. intros q money f names x. induction (combine names x) as [|kv l IH]; cbn; [reflexivity|]. rewrite IH. reflexivity. Qed.
(** two targets that are close have close deviations *)
Lemma dev_close : forall (q : label -> R) money f delta, 0 < money -> forall names x y, List.length x = List.length names -> Forall2 (fun a b => Rabs (b - a) <= delta) x y ->
  fold_right (fun kv s => Rabs (snd kv * money - IZR (f (fst kv)) * q (fst kv)) + s) 0 (combine names x) <=
  fold_right (fun kv s => Rabs (snd kv * money - IZR (f (fst kv)) * q (fst kv)) + s) 0 (combine names y) + INR (List.length names) * money * delta.
Proof.
  intros q money f delta Hm. induction names as [|t names IH]; intros x y Hl H; [destruct x; [|discriminate Hl]; inversion H; subst; cbn; lra|].
  destruct x as [|a x]; [discriminate Hl|]. injection Hl as Hl. inversion H as [|? b ? y' Hab Hxy]; subst. cbn [combine fold_right fst snd].
  specialize (IH x y' Hl Hxy). change (List.length (t :: names)) with (S (List.length names)). rewrite S_INR.
  pose proof (Rabs_triang (b * money - IZR (f t) * q t) (a * money - b * money)) as Ht.
  replace (b * money - IZR (f t) * q t + (a * money - b * money)) with (a * money - IZR (f t) * q t) in Ht by lra.
  assert (Hd : Rabs (a * money - b * money) <= delta * money).
  { replace (a * money - b * money) with (- ((b - a) * money)) by lra. rewrite Rabs_Ropp, Rabs_mult, (Rabs_pos_eq money) by lra.
    apply Rmult_le_compat_r; lra. }
  lra.
Qed.
(** buy for every asset the whole shares its part of the money can pay *)
Lemma floor_dev : forall (q : label -> R) money names x, (forall t, In t names -> 0 < q t) -> 0 < money -> List.length x = List.length names -> Forall (fun a => 0 <= a) x ->
  NoDup names -> exists f : label -> Z, (forall t, (0 <= f t)%Z) /\
    fold_right (fun kv s => Rabs (snd kv * money - IZR (f (fst kv)) * q (fst kv)) + s) 0 (combine names x) <= total (map q names) /\
    total x * money - total (map q names) <= fold_right (fun kv s => IZR (f (fst kv)) * q (fst kv) + s) 0 (combine names x) <= total x * money.
Proof.
  intros q money. induction names as [|t names IH]; intros x Hq Hm Hl Hx Hn.
  - destruct x; [|discriminate Hl]. exists (fun _ => 0%Z). split; [intros; lia|]. cbn. lra.
  - destruct x as [|a x]; [discriminate Hl|]. injection Hl as Hl. inversion Hx as [|? ? Ha Hx']; subst. inversion Hn as [|? ? Hni Hn']; subst.
    destruct (IH x) as [f [F0 [F1 F2]]]; try assumption; [intros u Hu; apply Hq; right; exact Hu|].
    assert (Hqt : 0 < q t) by (apply Hq; left; reflexivity).
    set (k := Int_part (a * money / q t)).
    assert (Hq0 : 0 <= a * money / q t) by (apply Rmult_le_pos; [nra|left; apply Rinv_0_lt_compat; exact Hqt]).
    destruct (base_Int_part (a * money / q t)) as [B1 B2]. fold k in B1, B2.
    assert (Hk : (0 <= k)%Z).
    { destruct (Z_lt_le_dec k 0) as [Hk|Hk]; [|exact Hk]. exfalso. assert (IZR k <= -1) by (apply (IZR_le k (-1)); lia). lra. }
    exists (fun u => if label_eqb u t then k else f u). split; [intros u; destruct (label_eqb u t); [exact Hk|apply F0]|].
    assert (Same : forall (g : label * R -> Z -> R -> R) l, (forall kv, In kv l -> fst kv <> t) ->
      fold_right (fun kv s => g kv (if label_eqb (fst kv) t then k else f (fst kv)) s) 0 l = fold_right (fun kv s => g kv (f (fst kv)) s) 0 l).
    { intros g l H. induction l as [|kv l IHl]; cbn; [reflexivity|]. rewrite IHl by (intros; apply H; right; assumption).
      destruct (label_eqb (fst kv) t) eqn:E; [apply label_eqb_true in E; exfalso; apply (H kv); [left; reflexivity|exact E]|reflexivity]. }
    assert (Hnt : forall kv, In kv (combine names x) -> fst kv <> t).
    { intros [u b] H E. cbn in E. subst u. apply in_combine_l in H. contradiction. }
    cbn [combine fold_right fst snd map]. rewrite label_eqb_refl.
    rewrite (Same (fun kv z s => Rabs (snd kv * money - IZR z * q (fst kv)) + s) _ Hnt).
    rewrite (Same (fun kv z s => IZR z * q (fst kv) + s) _ Hnt). cbn [total].
    assert (C1 : IZR k * q t <= a * money) by (apply Rmult_le_reg_r with (/ q t); [apply Rinv_0_lt_compat; exact Hqt|];
      rewrite Rmult_assoc, Rinv_r, Rmult_1_r by lra; exact B1).
    assert (C2 : a * money < IZR k * q t + q t).
    { apply Rmult_lt_reg_r with (/ q t); [apply Rinv_0_lt_compat; exact Hqt|]. rewrite Rmult_plus_distr_r, (Rmult_assoc (IZR k)), Rinv_r, Rmult_1_r by lra.
      unfold Rdiv in B2. lra. }
    rewrite (Rabs_pos_eq (a * money - IZR k * q t)) by lra. lra.
Qed.

Lemma fold_ext : forall {X} (g h : X -> R -> R) l, (forall x s, In x l -> g x s = h x s) -> fold_right g 0 l = fold_right h 0 l.
Proof. intros X g h l H. induction l as [|a l IH]; cbn; [reflexivity|]. rewrite IH by (intros; apply H; right; assumption). apply H. left. reflexivity. Qed.

Lemma out_combine : forall {V} (out : dict V) (names : list label), map fst out = names -> out = combine names (map snd out).
Proof. intros V out names <-. induction out as [|[k v] out IH]; cbn; [reflexivity|]. f_equal. exact IH. Qed.

(** the steps after the optimization *)
Theorem after_weights : forall milp b T dates names p x r money, exact_milp milp -> complete_milp milp -> names <> [] -> NoDup names ->
  (forall t, In t names -> List.length (p t) = S T) -> (forall t, In t names -> Forall (fun v => 0 < v) (p t)) -> 0 < money ->
  b_tickers b = names -> b_weights b = Some r -> Forall2 (rounded 16) x r -> invested (List.length names) x ->
  exists al lo, allocated milp b names (f_rows (history (S T) dates names p)) money al lo /\ tracks names p x money al lo.
Proof.
  intros milp b T dates names p x r money Hs Hc Hne Hn Hl Hp Hm Hbt Hbw Hr [Ix [Inn It]].
  assert (Lr : List.length r = List.length names) by (rewrite <- (Forall2_length _ _ _ Hr); exact Ix).
  assert (Nr : Forall (fun a => 0 <= a) r).
  { clear - Hr Inn. induction Hr as [|u v us vs H _ IH]; constructor; inversion Inn; subst; [apply (rounded_nonneg 16 u); [lia|assumption|exact H]|apply IH; assumption]. }
  destruct (clean_weights_ok b r default_cutoff (RdInt 5)) as [out [Ec [Ef Fc]]]; [rewrite Hbt; exact Hn|exact Hbw|rewrite Hbt; exact Lr|right; exists 5%Z; split; [reflexivity|lia]|].
  destruct (clean_weights_bounds b r default_cutoff (RdInt 5) out) as [Bd _]; [rewrite Hbt; exact Hn|exact Hbw|rewrite Hbt; exact Lr|exact Ec|].
  rewrite Hbt in Ef. rewrite default_move in Bd.
  set (y := map snd out) in *.
  assert (Ny : Forall (fun a => 0 <= a) y).
  { clear - Fc Nr. induction Fc as [|u v us vs H _ IH]; constructor; inversion Nr; subst; [apply (cleaned_nonneg u); assumption|apply IH; assumption]. }
  assert (Ly : List.length y = List.length names) by (rewrite <- (Forall2_length _ _ _ Bd); exact Lr).
  assert (Eo : out = combine names y) by (apply out_combine; exact Ef). clearbody y.
  set (delta := 1 / 10 ^ 4 + 1 / 10 ^ 16).
  assert (Cl : Forall2 (fun a c => Rabs (c - a) <= delta) x y).
  { clear - Hr Bd. revert Bd. generalize y as z. induction Hr as [|u v us vs H _ IH]; intros z Bd; inversion Bd as [|? c ? z' H1 H2]; subst; constructor; [|apply IH; exact H2].
    apply rounded_half in H. replace (c - u) with ((c - v) + - (u - v)) by lra. pose proof (Rabs_triang (c - v) (- (u - v))) as Ht. rewrite Rabs_Ropp in Ht.
    assert (half_unit 16 <= 1 / 10 ^ 16) by (unfold half_unit; rewrite <- pow_IZR with (n := 16%nat); cbn [pow]; lra). unfold delta. lra. }
  set (q := fun t => last (p t) 0).
  assert (Hq : forall t, In t names -> 0 < q t).
  { intros t Ht. unfold q. rewrite (last_nth _ T) by (apply Hl; exact Ht). pose proof (Hp t Ht) as H. rewrite Forall_forall in H. apply H. apply nth_In. rewrite (Hl t Ht). lia. }
  set (d := mkDA (A:=R) out (last_prices names p) false money (default_short_ratio out) None).
  assert (Ed : da_init (WDict (some_dict out)) (PSeries false (some_dict (last_prices names p))) money None = Ok d).
  { unfold da_init. rewrite !all_some_some_dict. runfold. destruct (Rleb money 0) eqn:E; rprop; [lra|reflexivity]. }
  assert (Lo : long_only (da_weights d)).
  { intros t a Hin. cbn [d da_weights] in Hin. rewrite Eo in Hin. apply in_combine_r in Hin. rewrite Forall_forall in Ny. apply Ny. exact Hin. }
  assert (Pp : positive_prices (da_prices d)).
  { intros t a Hin. cbn [d da_prices] in Hin. unfold last_prices in Hin. apply in_map_iff in Hin. destruct Hin as [u [E Hu]]. inversion E; subst. apply (Hq t Hu). }
  assert (Kp : map fst (last_prices names p) = names) by (unfold last_prices; rewrite map_map; apply map_id).
  destruct (lp_found milp d false) as [d' [al [lo El]]]; try assumption.
  { cbn [d da_weights]. intros E. rewrite E in Ef. cbn in Ef. congruence. }
  { cbn [d da_weights da_prices]. rewrite <- (map_length fst out), Ef, <- (map_length fst (last_prices names p)), Kp. reflexivity. }
  exists al, lo. split.
  { exists out, (some_dict (last_prices names p)), d, d'. split; [exact Ec|]. split; [apply latest_history; exact Hl|]. split; [exact Ed|exact El]. }
  assert (Vd : valid_da d).
  { destruct (proj1 (da_init_accepts _ _ _ _ _) Ed) as [ws [b0 [ps [_ [_ [_ [_ Edd]]]]]]]. split; [cbn [d da_weights]; rewrite Ef; exact Hn|]. split; [exact Hm|].
    assert (E4 : da_short_ratio d = short_total ws) by (rewrite Edd; reflexivity). rewrite E4. clear. induction ws as [|kv ws IH]; [unfold short_total; cbn [fold_right]; lra|]. unfold short_total in *. cbn [fold_right]. pose proof (Rmax_l 0 (- snd kv)). lra. }
  destruct (lp_optimal milp d false d' al lo Hs Vd Lo) as [O1 [O2 [O3 [O4 O5]]]]; [cbn [d da_weights da_prices]; rewrite Ef, Kp; reflexivity|exact El|].
  cbn [d da_weights da_prices da_total] in *. rewrite Ef in O4.
  split; [exact O1|]. split; [exact O2|]. split; [exact O3|]. split; [exact O4|].
  destruct (floor_dev q money names x Hq Hm Ix Inn Hn) as [f [F0 [F1 [F2 F3]]]]. rewrite It in F2, F3.
  assert (PQ : forall (z : list R) t, In t (map fst (combine names z)) -> price_of (last_prices names p) t = q t).
  { intros z t Ht. apply price_last. apply in_map_iff in Ht. destruct Ht as [[u a] [<- Hu]]. apply in_combine_l in Hu. exact Hu. }
  assert (DD : forall g z, dollar_dev (combine names z) (last_prices names p) money g =
    fold_right (fun kv s => Rabs (snd kv * money - IZR (g (fst kv)) * q (fst kv)) + s) 0 (combine names z)).
  { intros g z. unfold dollar_dev. apply fold_ext. intros kv s Hk. rewrite (PQ z); [reflexivity|apply in_map; exact Hk]. }
  assert (SC : forall z, List.length z = List.length names -> shares_cost (combine names z) (last_prices names p) f = fold_right (fun t s => IZR (f t) * q t + s) 0 names).
  { intros z Hz. unfold shares_cost. transitivity (fold_right (fun kv s => IZR (f (fst kv)) * q (fst kv) + s) 0 (combine names z)).
    - apply fold_ext. intros kv s Hk. rewrite (PQ z); [reflexivity|apply in_map; exact Hk].
    - clear - Hz. revert z Hz. induction names as [|t names IH]; intros [|a z] Hz; try discriminate Hz; cbn; [reflexivity|]. rewrite IH by (injection Hz; auto). reflexivity. }
  assert (SX : fold_right (fun kv s => IZR (f (fst kv)) * q (fst kv) + s) 0 (combine names x) = shares_cost (combine names x) (last_prices names p) f).
  { unfold shares_cost. apply fold_ext. intros kv s Hk. rewrite (PQ x); [reflexivity|apply in_map; exact Hk]. }
  rewrite SX, (SC x Ix) in F2, F3.
  rewrite Eo in O5. specialize (O5 f). rewrite (SC y Ly), !DD in O5. specialize (O5 (fun t _ => F0 t)). 
  assert (O6 := O5 ltac:(lra)).
  pose proof (dev_sum q money (shares_in al) names x) as D0. unfold q at 2 in D0. rewrite <- D0. clear D0.
  pose proof (dev_close q money (shares_in al) delta Hm names x y Ix Cl) as D1.
  assert (Cl' : Forall2 (fun a c => Rabs (c - a) <= delta) y x).
  { clear - Cl. induction Cl as [|u v us vs H _ IH]; constructor; [|exact IH]. rewrite Rabs_minus_sym. exact H. }
  pose proof (dev_close q money f delta Hm names y x Ly Cl') as D2. unfold delta in *. unfold q in *. lra.
Qed.
