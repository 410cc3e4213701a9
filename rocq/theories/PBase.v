(** * Proofs about MBase.v *)
From Coq Require Import ZArith List String Ascii Bool Reals Lra Lia.
From Verif Require Import Num Py RBase PyLemmas MBase SLin SBase.
Import ListNotations.
Local Open Scope R_scope.

(** ** Linear algebra specs and model helpers agree *)
Lemma vsum_total : forall l, vsum (A:=R) l = total l.
Proof. induction l; rewrite ?vsum_nil, ?vsum_cons; simpl; congruence. Qed.
Lemma dot_inner : forall x y, dot (A:=R) x y = inner x y.
Proof.
  unfold dot. induction x as [|a x IH]; destruct y as [|b y]; simpl; rewrite ?vsum_nil, ?vsum_cons; try reflexivity.
  rewrite IH; reflexivity.
Qed.
Lemma matvec_inner : forall M x, matvec (A:=R) M x = map (fun row => inner row x) M.
Proof. intros M x; unfold matvec. apply map_ext. intros; apply dot_inner. Qed.
Lemma quad_qform : forall M x, quad (A:=R) M x = qform M x.
Proof. intros; unfold quad, qform. rewrite matvec_inner. apply dot_inner. Qed.

(** ** C13 *)
Lemma mapM_dgetE_ok : forall (d : dict R) ts, (forall t, In t ts -> exists v, dget t d = Some v) ->
  exists w, mapM (fun t => dgetE t d) ts = Ok w /\ Forall2 (fun t v => dget t d = Some v) ts w.
Proof.
  induction ts as [|t ts IH]; intros H; [exists []; split; [reflexivity|constructor]|].
  destruct (H t (or_introl eq_refl)) as [v Hv]. destruct IH as [w [Ew Fw]]; [intros; apply H; right; auto|].
  exists (v :: w). cbn [mapM]. rewrite (proj2 (dgetE_Ok t d v) Hv). cbn [rbind]. rewrite Ew. cbn [rbind].
  split; [reflexivity|]. constructor; auto.
Qed.
Lemma mapM_dgetE_err : forall (d : dict R) ts, (exists t, In t ts /\ dget t d = None) ->
  mapM (fun t => dgetE t d) ts = Err KeyError.
Proof.
  induction ts as [|t ts IH]; intros [t' [Hin Hn]]; [destruct Hin|].
  cbn [mapM]. unfold dgetE at 1. destruct (dget t d) eqn:E; [|reflexivity]. cbn [rbind].
  destruct Hin as [->|Hin]; [congruence|]. rewrite IH by eauto. reflexivity.
Qed.

Lemma Forall2_dget_combine : forall (d : dict R) ts w, NoDup ts -> Forall2 (fun t v => dget t d = Some v) ts w ->
  forall t, In t ts -> dget t (combine ts w) = dget t d.
Proof.
  induction 2 as [|t v ts w Ht Hf IH]; intros t' Hin; [destruct Hin|].
  inversion H; subst. simpl. destruct (label_eqb_spec t' t) as [->|Hne]; [congruence|].
  apply IH; auto. destruct Hin; congruence.
Qed.

Lemma set_weights_ok : forall (b : base R) d,
  NoDup (b_tickers b) -> (forall t, In t (b_tickers b) -> exists v, dget t d = Some v) ->
  exists b' out, set_weights b d = (b', Ok tt) /\ b_tickers b' = b_tickers b /\
    make_output_weights b' = Ok out /\ map fst out = b_tickers b /\
    forall t, In t (b_tickers b) -> dget t out = dget t d.
Proof.
  intros b d Hnd Hall. destruct (mapM_dgetE_ok d (b_tickers b) Hall) as [w [Ew Fw]].
  unfold set_weights. rewrite Ew. eexists. eexists. split; [reflexivity|]. split; [reflexivity|].
  unfold make_output_weights, make_output_of. simpl.
  assert (El : List.length (b_tickers b) = List.length w) by (eapply Forall2_length; eauto).
  assert (Em : map fst (combine (b_tickers b) w) = b_tickers b) by (apply combine_map_fst; auto).
  rewrite dict_of_pairs_NoDup by (rewrite Em; exact Hnd).
  split; [reflexivity|]. split; [exact Em|]. apply Forall2_dget_combine; auto.
Qed.
Lemma set_weights_missing : forall (b : base R) d,
  (exists t, In t (b_tickers b) /\ dget t d = None) -> set_weights b d = (b, Err KeyError).
Proof. intros b d H. unfold set_weights. rewrite mapM_dgetE_err by exact H. reflexivity. Qed.

Lemma combine_map_snd : forall {X Y} (l : list X) (m : list Y),
  List.length l = List.length m -> map snd (combine l m) = m.
Proof. induction l; destruct m; simpl; intros H; try discriminate; auto. rewrite IHl; auto. Qed.
Lemma dget_combine_Forall2 : forall ts (w : list R), NoDup ts -> List.length ts = List.length w ->
  Forall2 (fun t v => dget t (combine ts w) = Some v) ts w.
Proof.
  induction ts as [|t ts IH]; destruct w as [|x w]; simpl; intros Hnd El; try discriminate; constructor.
  - rewrite label_eqb_refl; reflexivity.
  - inversion Hnd; subst. injection El as El. specialize (IH w H2 El).
    refine (Forall2_impl_In _ _ _ _ _ IH). intros t' v Hin _ H'. simpl. rewrite label_eqb_neq; [exact H'|].
    intros ->; contradiction.
Qed.

(** the round trip the other way: feeding back the output dictionary changes nothing *)
Lemma set_weights_output : forall (b : base R) w out,
  NoDup (b_tickers b) -> b_weights b = Some w -> List.length w = List.length (b_tickers b) ->
  make_output_weights b = Ok out -> set_weights b out = (b, Ok tt).
Proof.
  intros [ts bw] w out Hnd E El Ho. simpl in *. subst bw.
  unfold make_output_weights, make_output_of in Ho. simpl in Ho.
  rewrite dict_of_pairs_NoDup in Ho by (rewrite combine_map_fst by auto; exact Hnd).
  inversion Ho; subst. clear Ho. unfold set_weights. simpl.
  assert (F := dget_combine_Forall2 ts w Hnd (eq_sym El)).
  assert (G : forall d (ts : list label) (w : list R), Forall2 (fun t v => dget t d = Some v) ts w ->
     mapM (fun t => dgetE t d) ts = Ok w).
  { intros d l m; induction 1 as [|t v l m Ht F' IH]; [reflexivity|].
    cbn [mapM]. rewrite (proj2 (dgetE_Ok t d v) Ht). cbn [rbind]. rewrite IH. reflexivity. }
  rewrite (G _ _ _ F). reflexivity.
Qed.

(** ** C14 *)
Lemma pow10_pos : forall d, (1 <= d)%Z -> 0 < IZR (10 ^ d).
Proof. intros d H. apply IZR_lt. apply Z.pow_pos_nonneg; lia. Qed.

Lemma nabs_Rabs : forall x : R, nabs x = Rabs x.
Proof. intros x; unfold nabs; runfold. rcase; rprop; [rewrite Rabs_left; lra|rewrite Rabs_right; lra]. Qed.

Lemma Rrint_tie : forall x, Rabs (x - IZR (Rrint x)) = 1/2 -> Z.Even (Rrint x).
Proof.
  intros x. unfold Rrint. destruct (Int_part_bounds x) as [H1 H2].
  destruct (Rlt_dec (x - IZR (Int_part x)) (1/2)).
  - rewrite Rabs_right by lra. lra.
  - destruct (Rlt_dec (1/2) (x - IZR (Int_part x))).
    + rewrite plus_IZR. rewrite Rabs_left by lra. lra.
    + intros _. destruct (Z.even (Int_part x)) eqn:E; [apply Z.even_spec; exact E|].
      apply Z.even_spec. rewrite Z.add_1_r, Z.even_succ, <- Z.negb_even, E. reflexivity.
Qed.

Lemma np_round_rounded : forall d x, (1 <= d)%Z -> rounded d x (np_round d x).
Proof.
  intros d x Hd. pose proof (pow10_pos d Hd) as Hp. unfold np_round; runfold.
  set (k := Rrint (x * IZR (10 ^ d))). exists k.
  split; [field; lra|]. pose proof (Rrint_close (x * IZR (10 ^ d))) as Hc. fold k in Hc.
  split; [lra|]. intros He. apply Rrint_tie. fold k. lra.
Qed.
Lemma np_round_0 : forall d, (1 <= d)%Z -> np_round d (0:R) = 0.
Proof.
  intros d Hd. pose proof (pow10_pos d Hd) as Hp. unfold np_round; runfold.
  rewrite Rmult_0_l, (Rrint_IZR 0). unfold Rdiv. apply Rmult_0_l.
Qed.

Definition cleaned (cutoff : R) (r : rounding_arg) (x : R) : R :=
  let c := if nltb (nabs x) cutoff then 0 else x in
  match r with RdInt d => np_round d c | _ => c end.
Lemma cleaned_below : forall c r x, (forall d, r = RdInt d -> (1 <= d)%Z) -> Rabs x < c -> cleaned c r x = 0.
Proof.
  intros c r x Hr H. unfold cleaned. rewrite nabs_Rabs. runfold. rewrite (proj2 (Rltb_true _ _) H).
  destruct r; auto. apply np_round_0. auto.
Qed.
Lemma cleaned_above : forall c r x, c <= Rabs x ->
  cleaned c r x = match r with RdInt d => np_round d x | _ => x end.
Proof.
  intros c r x H. unfold cleaned. rewrite nabs_Rabs. runfold. rewrite (proj2 (Rltb_false _ _) H). reflexivity.
Qed.

Lemma clean_weights_run : forall (b : base R) w c r,
  b_weights b = Some w -> (r = RdNone \/ exists d, r = RdInt d /\ (1 <= d)%Z) ->
  clean_weights b c r = (b, Ok (make_output_of b (map (cleaned c r) w))).
Proof.
  intros b w c r E Hr. unfold clean_weights. rewrite E. destruct Hr as [->|[d [-> Hd]]].
  - reflexivity.
  - destruct (Z.ltb_spec d 1); [lia|]. rewrite map_map. reflexivity.
Qed.


Lemma clean_weights_ok : forall (b : base R) w c r,
  NoDup (b_tickers b) -> b_weights b = Some w -> List.length w = List.length (b_tickers b) ->
  (r = RdNone \/ exists d, r = RdInt d /\ (1 <= d)%Z) ->
  exists out, clean_weights b c r = (b, Ok out) /\ map fst out = b_tickers b /\
    Forall2 (clean_rel c r) w (map snd out).
Proof.
  intros b w c r Hnd E El Hr. rewrite (clean_weights_run b w c r E Hr). eexists. split; [reflexivity|].
  unfold make_output_of.
  assert (El' : List.length (b_tickers b) = List.length (map (cleaned c r) w)) by (rewrite map_length; auto).
  rewrite dict_of_pairs_NoDup by (rewrite combine_map_fst by auto; exact Hnd).
  split; [apply combine_map_fst; auto|]. rewrite combine_map_snd by auto.
  clear - Hr. induction w as [|x w IH]; simpl; constructor; auto. split; intros H.
  - apply cleaned_below; auto. intros d ->. destruct Hr as [Hr|[d' [Hr Hd]]]; [discriminate|]. congruence.
  - rewrite cleaned_above by exact H. destruct Hr as [->|[d' [-> Hd]]]; [reflexivity|].
    apply np_round_rounded; exact Hd.
Qed.


Lemma clean_rel_move : forall c r x y, (forall d, r = RdInt d -> (1 <= d)%Z) ->
  clean_rel c r x y -> Rabs (y - x) <= move_bound c r.
Proof.
  intros c r x y Hr [Hlo Hhi]. destruct (Rlt_dec (Rabs x) c) as [H|H].
  - rewrite (Hlo H). rewrite Rminus_0_l, Rabs_Ropp. unfold move_bound.
    destruct r; eapply Rle_trans; [|apply Rmax_l| |apply Rmax_l| |apply Rmax_l]; lra.
  - assert (H' : c <= Rabs x) by lra. specialize (Hhi H').
    assert (Z0 : Rabs (x - x) <= Rmax c 0).
    { rewrite Rminus_diag_eq, Rabs_R0 by reflexivity. apply Rmax_r. }
    destruct r as [|d|]; simpl in *; try (subst y; exact Z0).
    destruct Hhi as [k [H1 [H2 _]]]. pose proof (pow10_pos d (Hr d eq_refl)) as Hp.
    eapply Rle_trans; [|apply Rmax_r]. unfold half_unit. set (p := IZR (10 ^ d)) in *.
    apply Rmult_le_reg_r with p; [exact Hp|].
    replace (1 / 2 / p * p) with (1/2) by (field; lra).
    rewrite <- (Rabs_right p) at 1 by lra. rewrite <- Rabs_mult.
    replace ((y - x) * p) with (- (x * p - IZR k)) by lra. rewrite Rabs_Ropp. lra.
Qed.

Lemma clean_moves : forall c r w ys, (forall d, r = RdInt d -> (1 <= d)%Z) ->
  Forall2 (clean_rel c r) w ys ->
  Forall2 (fun x y => Rabs (y - x) <= move_bound c r) w ys /\
  Rabs (total ys - total w) <= INR (List.length w) * move_bound c r.
Proof.
  intros c r w ys Hr F. split.
  - refine (Forall2_impl_In _ _ _ _ _ F). intros; apply clean_rel_move; auto.
  - induction F as [|x y w ys H F IH]; [simpl; rewrite Rminus_0_r, Rabs_R0; lra|].
    cbn [total]. change (List.length (x :: w)) with (S (List.length w)). rewrite S_INR.
    apply clean_rel_move in H; [|exact Hr].
    replace (y + total ys - (x + total w)) with ((y - x) + (total ys - total w)) by lra.
    eapply Rle_trans; [apply Rabs_triang|]. lra.
Qed.

Lemma clean_weights_bounds : forall (b : base R) w c r out,
  NoDup (b_tickers b) -> b_weights b = Some w -> List.length w = List.length (b_tickers b) ->
  clean_weights b c r = (b, Ok out) ->
  Forall2 (fun x y => Rabs (y - x) <= move_bound c r) w (map snd out) /\
  Rabs (total (map snd out) - total w) <= INR (List.length w) * move_bound c r.
Proof.
  intros b w c r out Hnd E El H.
  assert (Hr : r = RdNone \/ exists d, r = RdInt d /\ (1 <= d)%Z).
  { unfold clean_weights in H. rewrite E in H. destruct r as [|d|]; auto; [|inversion H].
    destruct (Z.ltb_spec d 1); [inversion H|right; eauto]. }
  destruct (clean_weights_ok b w c r Hnd E El Hr) as [out' [E' [_ F]]].
  rewrite H in E'. inversion E'; subst. apply clean_moves; auto.
  intros d ->. destruct Hr as [Hr|[d' [Hr Hd]]]; [discriminate|congruence].
Qed.

Lemma clean_weights_errors : forall (b : base R) c r,
  fst (clean_weights b c r) = b /\
  (b_weights b = None -> snd (clean_weights b c r) = Err AttributeError) /\
  (forall w, b_weights b = Some w -> (r = RdOther \/ exists z, r = RdInt z /\ (z < 1)%Z) ->
     snd (clean_weights b c r) = Err ValueError).
Proof.
  intros b c r. unfold clean_weights. split; [|split].
  - destruct (b_weights b); auto. destruct r; auto. destruct (_ <? _)%Z; auto.
  - intros ->; reflexivity.
  - intros w -> [->|[z [-> Hz]]]; [reflexivity|]. destruct (Z.ltb_spec z 1); [reflexivity|lia].
Qed.

(** ** C15 *)
Lemma cleaned_idem : forall c r x,
  r = RdNone \/ (exists d, r = RdInt d /\ (1 <= d)%Z /\ on_grid d c) ->
  cleaned c r (cleaned c r x) = cleaned c r x.
Proof.
  intros c r x Hr.
  assert (Hr' : forall d, r = RdInt d -> (1 <= d)%Z).
  { intros d ->. destruct Hr as [Hr|[d' [Hr [Hd _]]]]; [discriminate|congruence]. }
  destruct (Rlt_dec (Rabs x) c) as [H|H].
  - rewrite (cleaned_below c r x Hr' H). destruct (Rlt_dec (Rabs 0) c) as [H0|H0].
    + apply cleaned_below; auto.
    + rewrite cleaned_above by lra. destruct r as [|d|]; auto. apply np_round_0; auto.
  - assert (H' : c <= Rabs x) by lra. rewrite (cleaned_above c r x H').
    destruct Hr as [->|[d [-> [Hd [k Hk]]]]]; [apply cleaned_above; exact H'|].
    pose proof (pow10_pos d Hd) as Hp.
    destruct (np_round_rounded d x Hd) as [m [Hm [Hc _]]]. set (y := np_round d x) in *.
    set (p := IZR (10 ^ d)) in *.
    assert (Hy : y = IZR m / p) by (rewrite <- Hm; field; lra).
    rewrite cleaned_above.
    + unfold np_round; runfold. fold p. rewrite Hm, Rrint_IZR. symmetry; exact Hy.
    + apply Rmult_le_reg_r with p; [exact Hp|]. rewrite Hk.
      rewrite <- (Rabs_right p) by lra. rewrite <- Rabs_mult, Hm.
      assert (Hx : IZR k <= Rabs (x * p)).
      { rewrite Rabs_mult, (Rabs_right p) by lra. rewrite <- Hk. apply Rmult_le_compat_r; lra. }
      rewrite <- abs_IZR.
      apply IZR_le. apply Z.nlt_ge. intros Hlt.
      assert (Hlt' : (Z.abs m <= k - 1)%Z) by lia. apply IZR_le in Hlt'. rewrite abs_IZR, minus_IZR in Hlt'.
      assert (Ht : Rabs (x * p) <= Rabs (IZR m) + Rabs (x * p - IZR m)).
      { replace (x * p) with (IZR m + (x * p - IZR m)) at 1 by lra. apply Rabs_triang. }
      lra.
Qed.

(** cleaning, storing the result and cleaning again gives the first result *)
Lemma clean_twice : forall (b : base R) w c r out b',
  NoDup (b_tickers b) -> b_weights b = Some w -> List.length w = List.length (b_tickers b) ->
  r = RdNone \/ (exists d, r = RdInt d /\ (1 <= d)%Z /\ on_grid d c) ->
  clean_weights b c r = (b, Ok out) -> set_weights b out = (b', Ok tt) ->
  clean_weights b' c r = (b', Ok out).
Proof.
  intros b w c r out b' Hnd E El Hr H Hs.
  assert (Hr2 : r = RdNone \/ exists d, r = RdInt d /\ (1 <= d)%Z).
  { destruct Hr as [Hr|[d [Hr [Hd _]]]]; [auto|right; eauto]. }
  rewrite (clean_weights_run b w c r E Hr2) in H. inversion H; subst; clear H.
  assert (El' : List.length (map (cleaned c r) w) = List.length (b_tickers b)) by (rewrite map_length; auto).
  set (b1 := mkBase (b_tickers b) (Some (map (cleaned c r) w))).
  assert (Hb : set_weights b1 (make_output_of b (map (cleaned c r) w)) = (b1, Ok tt)).
  { apply set_weights_output with (w := map (cleaned c r) w); auto. }
  assert (Hb' : b' = b1).
  { unfold set_weights in *. unfold b1 in Hb at 1. cbn [b_tickers] in Hb.
    destruct (mapM (fun t => dgetE t (make_output_of b (map (cleaned c r) w))) (b_tickers b)) as [v|e];
      [|inversion Hs].
    inversion Hs; subst. unfold b1 in Hb. inversion Hb; subst. reflexivity. }
  subst b'. rewrite (clean_weights_run b1 (map (cleaned c r) w) c r eq_refl Hr2).
  do 2 f_equal. unfold make_output_of, b1. cbn [b_tickers]. do 2 f_equal.
  rewrite map_map. apply map_ext. intros x. apply cleaned_idem; exact Hr.
Qed.

(** off the grid: cutoff 0.12, one decimal, weight 0.14 *)
Lemma clean_twice_differs : exists (b : base R) c d out b' out',
  (1 <= d)%Z /\ NoDup (b_tickers b) /\ clean_weights b c (RdInt d) = (b, Ok out) /\
  set_weights b out = (b', Ok tt) /\ clean_weights b' c (RdInt d) = (b', Ok out') /\ out <> out'.
Proof.
  set (b := mkBase [LInt 0] (Some [14/100])).
  assert (R1 : Rrint (14/100 * IZR (10 ^ 1)) = 1%Z).
  { apply Rrint_unique. simpl. rewrite Rabs_right; lra. }
  assert (C1 : cleaned (12/100) (RdInt 1) (14/100) = 1/10).
  { rewrite cleaned_above by (rewrite Rabs_right; lra). unfold np_round. runfold. rewrite R1. simpl. lra. }
  assert (C2 : cleaned (12/100) (RdInt 1) (1/10) = 0).
  { apply cleaned_below; [intros d H; inversion H; lia|]. rewrite Rabs_right; lra. }
  exists b, (12/100), 1%Z, [(LInt 0, 1/10)], (mkBase [LInt 0] (Some [1/10])), [(LInt 0, 0)].
  split; [lia|]. split; [repeat constructor; simpl; tauto|].
  split; [|split; [reflexivity|split]].
  - rewrite (clean_weights_run b [14/100] (12/100) (RdInt 1) eq_refl) by (right; exists 1%Z; split; [reflexivity|lia]).
    cbn [map]. rewrite C1. reflexivity.
  - rewrite (clean_weights_run (mkBase [LInt 0] (Some [1/10])) [1/10] (12/100) (RdInt 1) eq_refl) by (right; exists 1%Z; split; [reflexivity|lia]).
    cbn [map]. rewrite C2. reflexivity.
  - intros H. inversion H. lra.
Qed.

Lemma default_on_grid : on_grid 5 (default_cutoff (A:=R)).
Proof. exists 10%Z. unfold default_cutoff. runfold. simpl. lra. Qed.

(** ** C16 *)
Lemma Forall2_map_dict : forall (d : dict R) ts w,
  Forall2 (fun t x => dget t d = Some x \/ dget t d = None /\ x = 0) ts w ->
  map (fun t => match dget t d with Some x => x | None => 0 end) ts = w.
Proof.
  induction 1 as [|t x ts w H F IH]; simpl; [reflexivity|].
  rewrite IH. destruct H as [->|[-> ->]]; reflexivity.
Qed.

Lemma perf_dict_array : forall mu cov rf ts d w,
  perf_tickers mu cov = Ok ts ->
  Forall2 (fun t x => dget t d = Some x \/ dget t d = None /\ x = 0) ts w ->
  (total w <> 0 ->
     portfolio_performance (WtDict d) mu cov rf = portfolio_performance (WtArray w) mu cov rf) /\
  (total w = 0 -> portfolio_performance (WtDict d) mu cov rf = Err ValueError).
Proof.
  intros mu cov rf ts d w Ht F. unfold portfolio_performance. rewrite Ht. cbn [rbind].
  rewrite (Forall2_map_dict d ts w F), vsum_total. split; intros H.
  - rewrite (proj2 (Reqb_false _ _) H). reflexivity.
  - rewrite (proj2 (Reqb_true _ _) H). reflexivity.
Qed.

Lemma variance_ok : forall w m v, portfolio_variance w m = Ok v <-> square (List.length w) m /\ v = qform m w.
Proof.
  intros w m v. unfold portfolio_variance, square.
  destruct (Nat.eqb_spec (List.length m) (List.length w)) as [E|E]; simpl.
  - destruct (forallb (fun r => (List.length r =? List.length w)%nat) m) eqn:F.
    + rewrite forallb_forall in F. rewrite quad_qform. split.
      * intros H; inversion H; subst. split; [split; [exact E|]|reflexivity].
        apply Forall_forall. intros r Hr. apply Nat.eqb_eq, F, Hr.
      * intros [_ ->]; reflexivity.
    + split; [intros H; inversion H|]. intros [[_ H] _]. exfalso.
      assert (forallb (fun r => (List.length r =? List.length w)%nat) m = true); [|congruence].
      apply forallb_forall. intros r Hr. apply Nat.eqb_eq. rewrite Forall_forall in H. auto.
  - split; [intros H; inversion H|]. intros [[H _] _]; contradiction.
Qed.

(** meaning of the triple *)
Lemma perf_values : forall mu m cov rf w, mu_values mu = Some m ->
  List.length m = List.length w -> square (List.length w) (cov_values cov) ->
  0 < qform (cov_values cov) w ->
  exists r s sh, portfolio_performance (WtArray w) mu cov rf = Ok (Some r, s, Some sh) /\
    r = inner w m /\ 0 < s /\ s * s = qform (cov_values cov) w /\ sh = (r - rf) / s.
Proof.
  intros mu m cov rf w Em El Hs Hq.
  assert (Ev : portfolio_variance w (cov_values cov) = Ok (qform (cov_values cov) w)) by (apply variance_ok; auto).
  unfold portfolio_performance. cbn [rbind]. rewrite Ev. cbn [rbind].
  rewrite (proj2 (Rltb_false _ _)) by lra. rewrite Em.
  unfold portfolio_return, sharpe_ratio. rewrite El, Nat.eqb_refl. cbn [rbind]. rewrite Ev. cbn [rbind].
  rewrite (proj2 (Rleb_false _ _)) by lra. cbn [rbind]. rewrite dot_inner.
  eexists; eexists; eexists. split; [reflexivity|].
  split; [lra|]. split; [apply sqrt_lt_R0; exact Hq|]. split; [apply sqrt_sqrt; lra|]. rewrite !Rmult_1_l. reflexivity.
Qed.

Lemma perf_sharpe : forall wt mu cov rf r s sh,
  portfolio_performance wt mu cov rf = Ok (Some r, s, Some sh) -> 0 < s /\ sh = (r - rf) / s.
Proof.
  intros wt mu cov rf r s sh H. unfold portfolio_performance in H.
  match type of H with rbind ?m _ = _ => destruct m as [w|e] eqn:E1; cbn [rbind] in H; [|discriminate H] end.
  destruct (portfolio_variance w (cov_values cov)) as [v|e] eqn:E2; cbn [rbind] in H; [|discriminate H].
  destruct (Rltb v 0); [discriminate H|].
  destruct (mu_values mu) as [m|]; [|discriminate H].
  unfold portfolio_return, sharpe_ratio in H. rewrite E2 in H.
  destruct (List.length w =? List.length m)%nat; cbn [rbind] in H; [|discriminate H].
  destruct (Rleb v 0) eqn:E3; cbn [rbind] in H; [discriminate H|]. rprop.
  inversion H; subst. split; [apply sqrt_lt_R0; lra|]. rewrite !Rmult_1_l. reflexivity.
Qed.

Lemma perf_no_returns : forall cov rf w, square (List.length w) (cov_values cov) ->
  0 <= qform (cov_values cov) w ->
  exists s, portfolio_performance (WtArray w) MuNone cov rf = Ok (None, s, None) /\
    0 <= s /\ s * s = qform (cov_values cov) w.
Proof.
  intros cov rf w Hs Hq.
  assert (Ev : portfolio_variance w (cov_values cov) = Ok (qform (cov_values cov) w)) by (apply variance_ok; auto).
  unfold portfolio_performance. cbn [rbind]. rewrite Ev. cbn [rbind].
  rewrite (proj2 (Rltb_false _ _)) by lra. cbn [mu_values].
  eexists. split; [reflexivity|]. split; [apply sqrt_pos|apply sqrt_sqrt; exact Hq].
Qed.

(** ** C17 *)
Lemma last_part_dotless : forall e acc, dotless e -> last_part_aux e acc = (acc ++ e)%string.
Proof.
  induction e as [|c e IH]; intros acc H; simpl.
  - clear H. induction acc; simpl; congruence.
  - destruct H as [Hc He]. destruct (Ascii.eqb_spec c "."%char); [contradiction|].
    rewrite IH by exact He. clear. induction acc; simpl; congruence.
Qed.
Lemma last_part_stem : forall stem e acc, dotless e -> last_part_aux (stem ++ "." ++ e) acc = e.
Proof.
  induction stem as [|c stem IH]; intros e acc H.
  - simpl. apply last_part_dotless; exact H.
  - cbn [append last_part_aux]. destruct (Ascii.eqb c "."); apply IH; exact H.
Qed.
Lemma last_part_exists : forall name, exists e, dotless e /\ last_part name = e /\
  (name = e \/ exists stem, name = (stem ++ "." ++ e)%string).
Proof.
  assert (H : forall s acc, dotless acc -> exists e, dotless e /\ last_part_aux s acc = e /\
    (e = (acc ++ s)%string \/ exists stem, s = (stem ++ "." ++ e)%string)).
  { induction s as [|c s IH]; intros acc Ha; simpl.
    - exists acc. split; [exact Ha|]. split; [reflexivity|]. left. clear. induction acc; simpl; congruence.
    - destruct (Ascii.eqb_spec c "."%char) as [->|Hc].
      + destruct (IH EmptyString I) as [e [H1 [H2 H3]]]. exists e. split; [exact H1|]. split; [exact H2|].
        right. destruct H3 as [H3|[stem H3]].
        * exists EmptyString. simpl. rewrite H3. reflexivity.
        * exists (String "."%char stem). rewrite H3. reflexivity.
      + assert (Ha' : dotless (acc ++ String c EmptyString)).
        { clear - Ha Hc. induction acc; simpl in *; tauto. }
        destruct (IH _ Ha') as [e [H1 [H2 H3]]]. exists e. split; [exact H1|]. split; [exact H2|].
        destruct H3 as [H3|[stem H3]].
        * left. rewrite H3. clear. induction acc; simpl; congruence.
        * right. exists (String c stem). rewrite H3. reflexivity. }
  intros name. destruct (H name EmptyString I) as [e [H1 [H2 H3]]]. exists e.
  split; [exact H1|]. split; [exact H2|]. destruct H3 as [H3|H3]; [left; symmetry; exact H3|right; exact H3].
Qed.

(** case folding of the model against the specification; [b] has no capital letters *)
Fixpoint nocaps (b : string) : Prop :=
  match b with
  | EmptyString => True
  | String c b' => ~ (65 <= nat_of_ascii c <= 90)%nat /\ nocaps b'
  end.
Lemma lower_same : forall a b, nocaps b -> (lower a = b <-> same_text a b).
Proof.
  induction a as [|c a IH]; intros [|c' b] Hb; simpl; try (split; [discriminate|tauto]); try tauto.
  destruct Hb as [Hc Hb]. specialize (IH b Hb).
  assert (Hlow : lower_ascii c = c' <->
     (c = c' \/ nat_of_ascii c' = (nat_of_ascii c + 32)%nat /\ (65 <= nat_of_ascii c <= 90)%nat)).
  { unfold lower_ascii.
    destruct (Nat.leb_spec 65 (nat_of_ascii c)) as [H1|H1];
    destruct (Nat.leb_spec (nat_of_ascii c) 90) as [H2|H2]; simpl.
    - split.
      + intros <-. right. split; [|lia]. apply nat_ascii_embedding. lia.
      + intros [->|[H3 _]]; [exfalso; apply Hc; lia|]. rewrite <- H3. apply ascii_nat_embedding.
    - split; [auto|]. intros [H|[_ H]]; [exact H|lia].
    - split; [auto|]. intros [H|[_ H]]; [exact H|lia].
    - split; [auto|]. intros [H|[_ H]]; [exact H|lia]. }
  split.
  - intros H. injection H as H1 H2. tauto.
  - intros [H1 H2]. apply Hlow in H1. apply IH in H2. congruence.
Qed.

Lemma has_ext_lower : forall name ext, nocaps ext ->
  (lower (last_part name) = ext <-> has_ext name ext).
Proof.
  intros name ext Hn. split.
  - intros H. destruct (last_part_exists name) as [e [H1 [H2 H3]]]. exists e. split; [exact H1|].
    split; [|exact H3]. apply lower_same; [exact Hn|]. congruence.
  - intros [e [H1 [H2 H3]]]. apply lower_same in H2; [|exact Hn].
    assert (E : last_part name = e).
    { unfold last_part. destruct H3 as [->|[stem ->]]; [apply last_part_dotless; exact H1|apply last_part_stem; exact H1]. }
    congruence.
Qed.

Ltac no_caps := cbn [nocaps];
  repeat match goal with
  | |- _ /\ _ => split
  | |- True => exact I
  | |- ~ _ => let a := fresh in let b := fresh in
      intros [a b]; apply Nat.leb_le in a; apply Nat.leb_le in b; vm_compute in a, b; congruence
  end.

Lemma fs_write_spec : forall (fs : filesystem R) name c, fs_write fs name c name = Some c /\
  other_files fs (fs_write fs name c) name.
Proof.
  intros fs name c. unfold fs_write. split; [rewrite String.eqb_refl; reflexivity|].
  intros n Hn. destruct (String.eqb_spec n name); [contradiction|reflexivity].
Qed.

Lemma save_errors : forall fs (b : base R) name,
  (b_weights b = None -> save_weights_to_file fs b name = (fs, b, Err AttributeError)) /\
  (forall w, b_weights b = Some w ->
     ~ has_ext name "csv" -> ~ has_ext name "json" -> ~ has_ext name "txt" ->
     save_weights_to_file fs b name = (fs, b, Err NotImplementedError)).
Proof.
  intros fs b name. unfold save_weights_to_file. split.
  - unfold clean_weights. intros ->. reflexivity.
  - intros w E H1 H2 H3.
    rewrite (clean_weights_run b w _ (RdInt 5) E) by (right; exists 5%Z; split; [reflexivity|lia]).
    destruct (String.eqb_spec (lower (last_part name)) "csv") as [H|_].
    { apply has_ext_lower in H; [contradiction|no_caps]. }
    destruct (String.eqb_spec (lower (last_part name)) "json") as [H|_].
    { apply has_ext_lower in H; [contradiction|no_caps]. }
    destruct (String.eqb_spec (lower (last_part name)) "txt") as [H|_].
    { apply has_ext_lower in H; [contradiction|no_caps]. }
    reflexivity.
Qed.

Lemma ext_unique : forall name e1 e2, nocaps e1 -> nocaps e2 ->
  has_ext name e1 -> has_ext name e2 -> e1 = e2.
Proof. intros name e1 e2 N1 N2 H1 H2. apply has_ext_lower in H1; auto. apply has_ext_lower in H2; auto. congruence. Qed.

Lemma save_ok : forall fs (b : base R) w name out,
  b_weights b = Some w -> clean_weights b (1/10000) (RdInt 5) = (b, Ok out) ->
  (forall ext c, ext = "csv"%string /\ c = FCsv out \/ ext = "txt"%string /\ c = FTxt out \/
       ext = "json"%string /\ c = FJson out /\ (forall k x, In (k, x) out -> json_key k = true) ->
     has_ext name ext ->
     exists fs', save_weights_to_file fs b name = (fs', b, Ok tt) /\ fs' name = Some c /\
       other_files fs fs' name) /\
  (has_ext name "json" -> (exists k x, In (k, x) out /\ json_key k = false) ->
     exists fs' c, save_weights_to_file fs b name = (fs', b, Err TypeError) /\
       fs' name = Some (FJsonCut c) /\ (List.length c < List.length out)%nat /\ other_files fs fs' name).
Proof.
  intros fs b w name out E Hc.
  assert (Hd : default_cutoff (A:=R) = 1/10000) by (unfold default_cutoff; runfold; reflexivity).
  split.
  - intros ext c Hcase Hext. unfold save_weights_to_file. rewrite Hd, Hc.
    destruct Hcase as [[-> ->]|[[-> ->]|[-> [-> Hj]]]]; apply has_ext_lower in Hext; try no_caps;
      rewrite Hext; cbn [String.eqb Ascii.eqb Bool.eqb].
    + eexists. split; [reflexivity|]. apply fs_write_spec.
    + eexists. split; [reflexivity|]. apply fs_write_spec.
    + assert (Hf : forallb (fun kv : label * R => json_key (fst kv)) out = true).
      { apply forallb_forall. intros [k x] H. eapply Hj; eauto. }
      rewrite Hf. eexists. split; [reflexivity|]. apply fs_write_spec.
  - intros Hext [k [x [Hin Hk]]]. unfold save_weights_to_file. rewrite Hd, Hc.
    apply has_ext_lower in Hext; [|no_caps]. rewrite Hext; cbn [String.eqb Ascii.eqb Bool.eqb].
    destruct (forallb (fun kv : label * R => json_key (fst kv)) out) eqn:F.
    { rewrite forallb_forall in F. specialize (F _ Hin). simpl in F. congruence. }
    eexists. eexists. split; [reflexivity|]. split; [apply fs_write_spec|]. split; [|apply fs_write_spec].
    clear - Hin Hk. induction out as [|[k' x'] out IH]; [destruct Hin|]. simpl.
    destruct (json_key k') eqn:E; simpl; [|lia].
    destruct Hin as [Hin|Hin]; [congruence|]. specialize (IH Hin). lia.
Qed.
