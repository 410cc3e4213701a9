(** * clean_weights in rounded arithmetic (C127) *)
From Coq Require Import ZArith String List Bool Reals Lra Lia Psatz.
From Verif Require Import Num Py RBase PyLemmas SLin MBase SBase MRound SRound SRound2 PBase PRound1.
Import ListNotations.
Local Open Scope R_scope.

Section Rounded.
  Variable rnd : R -> R.
  Hypothesis Hr : rounding rnd.
  Variable u : R.
  Hypothesis Hacc : accurate u rnd.
  Hypothesis Hu : 0 <= u <= 1 / 4.
  Let N : Num R := RndNum rnd.

  Lemma rnd_nonpos : forall x, x <= 0 -> rnd x <= 0.
  Proof. intros x H. rewrite <- (rnd_0 rnd Hr). apply (rnd_mono rnd Hr). exact H. Qed.
  Lemma np_round_unfold : forall d x, rnd (IZR (10 ^ d)) = IZR (10 ^ d) ->
    @np_round R N d x = rnd (rnd (IZR (Rrint (rnd (x * IZR (10 ^ d))))) / IZR (10 ^ d)).
  Proof. intros d x H. unfold np_round. cbn. rewrite H. reflexivity. Qed.
  Lemma nabs_rounded : forall x, @nabs R N x = Rabs x.
  Proof. intros x. exact (nabs_Rabs x). Qed.

  Lemma twice : forall x p, 0 < p -> Rabs (rnd (rnd x / p) - x / p) <= (2 * u + u * u) * Rabs (x / p).
  Proof.
    intros x p Hp. pose proof (Hacc x) as A. pose proof (Hacc (rnd x / p)) as B.
    assert (Hi : 0 < / p) by (apply Rinv_0_lt_compat; exact Hp).
    assert (C : Rabs (rnd x / p - x / p) <= u * Rabs (x / p)).
    { replace (rnd x / p - x / p) with ((rnd x - x) * / p) by (unfold Rdiv; ring). unfold Rdiv. rewrite !Rabs_mult, (Rabs_pos_eq (/ p)) by lra.
      rewrite <- Rmult_assoc. apply Rmult_le_compat_r; lra. }
    assert (D : Rabs (rnd x / p) <= Rabs (x / p) + u * Rabs (x / p)).
    { replace (rnd x / p) with ((rnd x / p - x / p) + x / p) by ring. eapply Rle_trans; [apply Rabs_triang|]. lra. }
    replace (rnd (rnd x / p) - x / p) with ((rnd (rnd x / p) - rnd x / p) + (rnd x / p - x / p)) by ring.
    eapply Rle_trans; [apply Rabs_triang|].
    assert (u * Rabs (rnd x / p) <= u * (Rabs (x / p) + u * Rabs (x / p))) by (apply Rmult_le_compat_l; lra). lra.
  Qed.
  Lemma rint_rounded : forall x, Rabs (IZR (Rrint (rnd x)) - x) <= 1 / 2 + u * Rabs x.
  Proof.
    intros x. pose proof (Rrint_close (rnd x)) as A. pose proof (Hacc x) as B. rewrite Rabs_minus_sym in A.
    replace (IZR (Rrint (rnd x)) - x) with ((IZR (Rrint (rnd x)) - rnd x) + (rnd x - x)) by ring. eapply Rle_trans; [apply Rabs_triang|]. lra.
  Qed.
  Lemma np_round_nonneg : forall d x, (1 <= d)%Z -> rnd (IZR (10 ^ d)) = IZR (10 ^ d) -> 0 <= x -> 0 <= @np_round R N d x.
  Proof.
    intros d x Hd Hp Hx. rewrite np_round_unfold by exact Hp. pose proof (pow10_pos d Hd) as P.
    apply (rnd_nonneg rnd Hr). apply Rmult_le_pos; [|left; apply Rinv_0_lt_compat; exact P]. apply (rnd_nonneg rnd Hr). apply IZR_le.
    rewrite <- (Rrint_IZR 0). apply Rrint_mono. apply (rnd_nonneg rnd Hr). apply Rmult_le_pos; lra.
  Qed.
  Lemma np_round_nonpos : forall d x, (1 <= d)%Z -> rnd (IZR (10 ^ d)) = IZR (10 ^ d) -> x <= 0 -> @np_round R N d x <= 0.
  Proof.
    intros d x Hd Hp Hx. rewrite np_round_unfold by exact Hp. pose proof (pow10_pos d Hd) as P.
    assert (A : rnd (x * IZR (10 ^ d)) <= 0) by (apply rnd_nonpos; nra).
    assert (B : (Rrint (rnd (x * IZR (10 ^ d))) <= 0)%Z) by (rewrite <- (Rrint_IZR 0); apply Rrint_mono; exact A).
    apply IZR_le in B. apply rnd_nonpos in B. apply rnd_nonpos. assert (0 < / IZR (10 ^ d)) by (apply Rinv_0_lt_compat; exact P). unfold Rdiv. nra.
  Qed.
  Lemma np_round_zero : forall d, (1 <= d)%Z -> rnd (IZR (10 ^ d)) = IZR (10 ^ d) -> @np_round R N d 0 = 0.
  Proof. intros d Hd Hp. apply Rle_antisym; [apply np_round_nonpos|apply np_round_nonneg]; try assumption; lra. Qed.
  (** rounding a second time changes nothing *)
  Lemma np_round_again : forall d x, (1 <= d)%Z -> rnd (IZR (10 ^ d)) = IZR (10 ^ d) -> 8 * u * (2 * Rabs (x * IZR (10 ^ d)) + 1) < 1 ->
    @np_round R N d (@np_round R N d x) = @np_round R N d x.
  Proof.
    intros d x Hd Hp Hs. rewrite (np_round_unfold d (@np_round R N d x)) by exact Hp. rewrite (np_round_unfold d x) by exact Hp.
    pose proof (pow10_pos d Hd) as P. set (p := IZR (10 ^ d)) in *. set (m := Rrint (rnd (x * p))).
    set (y := rnd (rnd (IZR m) / p)). pose proof (twice (IZR m) p P) as T. fold y in T.
    pose proof (rint_rounded (x * p)) as Q. fold m in Q.
    assert (Hm : Rabs (IZR m) <= 2 * Rabs (x * p) + 1).
    { replace (IZR m) with ((IZR m - x * p) + x * p) by ring. eapply Rle_trans; [apply Rabs_triang|]. pose proof (Rabs_pos (x * p)).
      assert (u * Rabs (x * p) <= 1/4 * Rabs (x * p)) by (apply Rmult_le_compat_r; lra). lra. }
    assert (Hy : Rabs (y * p - IZR m) <= (2 * u + u * u) * Rabs (IZR m)).
    { replace (y * p - IZR m) with ((y - IZR m / p) * p) by (field; lra). rewrite Rabs_mult, (Rabs_pos_eq p) by lra.
      replace ((2 * u + u * u) * Rabs (IZR m)) with ((2 * u + u * u) * Rabs (IZR m / p) * p).
      - apply Rmult_le_compat_r; lra.
      - unfold Rdiv. rewrite Rabs_mult, (Rabs_pos_eq (/ p)) by (left; apply Rinv_0_lt_compat; exact P). field. lra. }
    assert (Hz : Rabs (rnd (y * p) - IZR m) < 1 / 2).
    { pose proof (Hacc (y * p)) as B. replace (rnd (y * p) - IZR m) with ((rnd (y * p) - y * p) + (y * p - IZR m)) by ring.
      eapply Rle_lt_trans; [apply Rabs_triang|].
      assert (C : Rabs (y * p) <= Rabs (IZR m) + (2 * u + u * u) * Rabs (IZR m)).
      { replace (y * p) with ((y * p - IZR m) + IZR m) by ring. eapply Rle_trans; [apply Rabs_triang|]. lra. }
      set (a := Rabs (IZR m)) in *. assert (Ha : 0 <= a) by apply Rabs_pos.
      assert (D : u * Rabs (y * p) <= u * (a + (2 * u + u * u) * a)) by (apply Rmult_le_compat_l; lra).
      assert (U : 0 <= u * a) by (apply Rmult_le_pos; lra). assert (U2 : u * (u * a) <= 1/4 * (u * a)) by (apply Rmult_le_compat_r; lra).
      assert (U3 : u * (u * (u * a)) <= 1/4 * (u * (u * a))) by (apply Rmult_le_compat_r; [apply Rmult_le_pos; lra|lra]).
      assert (W : u * a <= u * (2 * Rabs (x * p) + 1)) by (apply Rmult_le_compat_l; lra).
      set (W' := u * (2 * Rabs (x * p) + 1)) in *. replace (8 * u * (2 * Rabs (x * p) + 1)) with (8 * W') in Hs by (unfold W'; ring).
      replace (u * (a + (2 * u + u * u) * a)) with (u * a + 2 * (u * (u * a)) + u * (u * (u * a))) in D by ring.
      replace ((2 * u + u * u) * a) with (2 * (u * a) + u * (u * a)) in Hy by ring. lra. }
    rewrite (Rrint_unique _ m Hz). reflexivity.
  Qed.

  Definition arg_of (d : option Z) : rounding_arg := match d with None => RdNone | Some d => RdInt d end.
  Definition cleaned_r (c : R) (d : option Z) (x : R) : R :=
    let y := if Rltb (Rabs x) c then 0 else x in match d with None => y | Some d => @np_round R N d y end.
  Lemma cleaned_rounded : forall c d x, decimals rnd d -> cut_or_rounded u c d x (cleaned_r c d x).
  Proof.
    intros c d x Hd. unfold cleaned_r. cbv zeta. split; [|split; [|split]].
    - intros H. rewrite (proj2 (Rltb_true _ _) H). destruct d as [d|]; [|reflexivity]. apply np_round_zero; apply Hd.
    - intros H. rewrite (proj2 (Rltb_false _ _) H). destruct d as [d|]; [|reflexivity]. destruct Hd as [Hd Hp].
      exists (Rrint (rnd (x * IZR (10 ^ d)))). split; [apply rint_rounded|]. rewrite np_round_unfold by exact Hp. apply twice. apply pow10_pos. exact Hd.
    - intros H. assert (A : 0 <= if Rltb (Rabs x) c then 0 else x) by (destruct (Rltb (Rabs x) c); lra).
      destruct d as [d|]; [|exact A]. apply np_round_nonneg; try apply Hd. exact A.
    - intros H. assert (A : (if Rltb (Rabs x) c then 0 else x) <= 0) by (destruct (Rltb (Rabs x) c); lra).
      destruct d as [d|]; [|exact A]. apply np_round_nonpos; try apply Hd. exact A.
  Qed.
  Lemma clean_run : forall (b : base R) w c d, decimals rnd d -> b_weights b = Some w ->
    @clean_weights R N b c (arg_of d) = (b, Ok (make_output_of b (map (cleaned_r c d) w))).
  Proof.
    intros b w c d Hd E. unfold clean_weights. rewrite E. destruct d as [d|]; cbn [arg_of].
    - destruct (Z.ltb_spec d 1); [destruct Hd; lia|]. rewrite map_map. do 3 f_equal. apply map_ext. intros x. unfold cleaned_r. rewrite nabs_rounded. reflexivity.
    - do 3 f_equal. apply map_ext. intros x. unfold cleaned_r. rewrite nabs_rounded. reflexivity.
  Qed.
End Rounded.

Theorem clean_weights_rounded : forall rnd u (b : base R) w c d, rounding rnd -> accurate u rnd -> 0 <= u <= 1 / 4 -> decimals rnd d ->
  NoDup (b_tickers b) -> b_weights b = Some w -> List.length w = List.length (b_tickers b) ->
  exists out, @clean_weights R (RndNum rnd) b c (match d with None => RdNone | Some d => RdInt d end) = (b, Ok out) /\
    map fst out = b_tickers b /\ Forall2 (cut_or_rounded u c d) w (map snd out).
Proof.
  intros rnd u b w c d Hr Hacc Hu Hd Hnd E El. change (match d with None => RdNone | Some d => RdInt d end) with (arg_of d).
  rewrite (clean_run rnd b w c d Hd E). eexists. split; [reflexivity|]. unfold make_output_of.
  assert (El' : List.length (b_tickers b) = List.length (map (cleaned_r rnd c d) w)) by (rewrite map_length; auto).
  rewrite dict_of_pairs_NoDup by (rewrite combine_map_fst by auto; exact Hnd).
  split; [apply combine_map_fst; auto|]. rewrite combine_map_snd by auto.
  clear - Hd Hr Hacc Hu. induction w as [|x w IH]; constructor; [|exact IH]. apply cleaned_rounded; assumption.
Qed.
