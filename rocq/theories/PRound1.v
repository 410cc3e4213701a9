(** * HRP in rounded arithmetic (C118) *)
From Coq Require Import ZArith List Bool Reals Lra Lia Psatz.
From Verif Require Import Num Py RBase PyLemmas MBase MFrame MHRP SLin SHRP MRound SAlloc SRound Sums PHRP PHRP2.
Import ListNotations.
Local Open Scope R_scope.

Local Transparent vsum.

Section Rounded.
  Variable rnd : R -> R.
  Hypothesis Hr : rounding rnd.
  Let N : Num R := RndNum rnd.

  Lemma rnd_mono : forall x y, x <= y -> rnd x <= rnd y. Proof. exact (proj1 Hr). Qed.
  Lemma rnd_idem : forall x, rnd (rnd x) = rnd x. Proof. exact (proj1 (proj2 Hr)). Qed.
  Lemma rnd_0 : rnd 0 = 0. Proof. exact (proj1 (proj2 (proj2 Hr))). Qed.
  Lemma rnd_1 : rnd 1 = 1. Proof. exact (proj2 (proj2 (proj2 Hr))). Qed.
  Lemma rnd_nonneg : forall x, 0 <= x -> 0 <= rnd x.
  Proof. intros x H. rewrite <- rnd_0. apply rnd_mono, H. Qed.
  Lemma rnd_le_1 : forall x, x <= 1 -> rnd x <= 1.
  Proof. intros x H. rewrite <- rnd_1. apply rnd_mono, H. Qed.

  Lemma vsum_fixed : forall l, rnd (@vsum R N l) = @vsum R N l.
  Proof.
    intros l. unfold vsum. assert (A : forall l a, rnd a = a -> rnd (fold_left (fun a b => @nadd R N a b) l a) = fold_left (fun a b => @nadd R N a b) l a).
    { clear l. induction l as [|x l IH]; intros a H; cbn [fold_left]; [exact H|]. apply IH. apply rnd_idem. }
    apply A. exact rnd_0.
  Qed.
  Lemma vsum_nonneg : forall l, Forall (fun x => 0 <= x) l -> 0 <= @vsum R N l.
  Proof.
    intros l. unfold vsum. assert (A : forall l a, 0 <= a -> Forall (fun x => 0 <= x) l -> 0 <= fold_left (fun a b => @nadd R N a b) l a).
    { clear l. induction l as [|x l IH]; intros a H F; cbn [fold_left]; [exact H|]. inversion F; subst. apply IH; [|assumption].
      apply rnd_nonneg. lra. }
    apply A. cbn. lra.
  Qed.
  Lemma quad_fixed : forall M x, rnd (@quad R N M x) = @quad R N M x.
  Proof. intros. apply vsum_fixed. Qed.
  Lemma dot_nonneg : forall x y, Forall (fun v => 0 <= v) x -> Forall (fun v => 0 <= v) y -> 0 <= @dot R N x y.
  Proof.
    intros x y Hx Hy. apply vsum_nonneg. revert y Hy. induction Hx as [|a x Ha Hx IH]; intros [|b y] Hy; cbn [map2]; try constructor.
    - inversion Hy; subst. apply rnd_nonneg. apply Rmult_le_pos; assumption.
    - apply IH. inversion Hy; assumption.
  Qed.

  Lemma cluster_fixed : forall cov items v, @cluster_var R N cov items = Ok v -> rnd v = v.
  Proof.
    intros cov items v H. unfold cluster_var in H.
    destruct (mapM _ items) as [s|]; cbn [rbind] in H; [|discriminate].
    destruct (mapM _ items) as [d|]; cbn [rbind] in H; [|discriminate].
    destruct (mapM _ d) as [i|]; cbn [rbind] in H; [|discriminate].
    destruct (neqb _ _); [discriminate|]. inversion H. apply quad_fixed.
  Qed.

  Lemma split_in : forall cov l1 l2 a, (forall v, @cluster_var R N cov l1 = Ok v -> 0 <= v) -> (forall v, @cluster_var R N cov l2 = Ok v -> 0 <= v) ->
    @split_share R N cov l1 l2 = Ok a -> 0 <= a <= 1.
  Proof.
    intros cov l1 l2 a H1 H2 H. unfold split_share in H.
    destruct (@cluster_var R N cov l1) as [v1|] eqn:E1; cbn [rbind] in H; [|discriminate].
    destruct (@cluster_var R N cov l2) as [v2|] eqn:E2; cbn [rbind] in H; [|discriminate].
    specialize (H1 _ eq_refl). specialize (H2 _ eq_refl). pose proof (cluster_fixed _ _ _ E1) as F1.
    change (@neqb R N (@nadd R N v1 v2) (@n0 R N)) with (Reqb (rnd (v1 + v2)) 0) in H.
    destruct (Reqb (rnd (v1 + v2)) 0) eqn:E; [discriminate|].
    assert (Ea : a = rnd (1 - rnd (v1 / rnd (v1 + v2)))) by (inversion H; reflexivity). clear H.
    assert (Hs : v1 <= rnd (v1 + v2)) by (rewrite <- F1 at 1; apply rnd_mono; lra).
    assert (Hp : 0 < rnd (v1 + v2)).
    { destruct (Rle_lt_or_eq_dec 0 (rnd (v1 + v2))) as [P|P]; [lra|exact P|]. unfold Reqb in E. destruct (Req_EM_T (rnd (v1 + v2)) 0); [discriminate|lra]. }
    assert (Hq : 0 <= v1 / rnd (v1 + v2) <= 1).
    { split; [apply Rmult_le_pos; [lra|left; apply Rinv_0_lt_compat, Hp]|]. apply Rmult_le_reg_r with (rnd (v1 + v2)); [exact Hp|].
      unfold Rdiv. rewrite Rmult_assoc, Rinv_l by lra. lra. }
    assert (Hq' : 0 <= rnd (v1 / rnd (v1 + v2)) <= 1) by (split; [apply rnd_nonneg|apply rnd_le_1]; lra).
    subst a. split; [apply rnd_nonneg|apply rnd_le_1]; lra.
  Qed.

  Variable u : R.
  Hypothesis Hacc : accurate u rnd.
  Hypothesis Hu : 0 <= u <= 1.

  Lemma err_pos : forall x, 0 <= x -> (1 - u) * x <= rnd x <= (1 + u) * x.
  Proof.
    intros x H. pose proof (Hacc x) as A. rewrite (Rabs_pos_eq x H) in A.
    apply Rabs_def2' in A || (unfold Rabs in A; destruct (Rcase_abs (rnd x - x)); lra).
  Qed.

  Lemma node_error : forall v a, 0 <= v -> 0 <= a <= 1 ->
    (1 - 3 * u) * v <= rnd (v * a) + rnd (v * rnd (1 - a)) <= (1 + 3 * u) * v.
  Proof.
    intros v a Hv Ha.
    pose proof (err_pos (v * a) ltac:(nra)) as E1. pose proof (err_pos (1 - a) ltac:(lra)) as E2.
    set (b := rnd (1 - a)) in *. assert (Hb : 0 <= b) by (apply rnd_nonneg; lra).
    pose proof (err_pos (v * b) ltac:(nra)) as E3.
    assert (L : v * ((1 - u) * (1 - a)) <= v * b) by (apply Rmult_le_compat_l; lra).
    assert (U : v * b <= v * ((1 + u) * (1 - a))) by (apply Rmult_le_compat_l; lra).
    assert (Q : 0 <= v * (1 - a) <= v) by nra.
    split.
    - apply Rle_trans with ((1 - u) * (v * a) + (1 - u) * (v * ((1 - u) * (1 - a)))); [|apply Rplus_le_compat; [lra|]].
      + assert (0 <= u * (v * a)) by nra. assert (0 <= u * u * (v * (1 - a))) by nra. assert (0 <= u * (v * (1 - a))) by nra. nra.
      + apply Rle_trans with ((1 - u) * (v * b)); [apply Rmult_le_compat_l; lra|lra].
    - apply Rle_trans with ((1 + u) * (v * a) + (1 + u) * (v * ((1 + u) * (1 - a)))); [apply Rplus_le_compat; [lra|]|].
      + apply Rle_trans with ((1 + u) * (v * b)); [lra|apply Rmult_le_compat_l; lra].
      + assert (0 <= u * (v * a)) by nra. assert (0 <= u * (1 - u) * (v * (1 - a))) by (apply Rmult_le_pos; nra). nra.
  Qed.

  Lemma cut_error : forall cov v l w, @cut_weights R N cov v l w ->
    (forall items c, incl items l -> @cluster_var R N cov items = Ok c -> 0 <= c) -> 0 <= v <= 1 ->
    Forall (fun x => 0 <= x <= 1) (map snd w) /\
    forall d, (length l <= 2 ^ d)%nat -> (l <> []) -> Rabs (total (map snd w) - v) <= ((1 + 3 * u) ^ d - 1) * v.
  Proof.
    intros cov v l w H. induction H as [v l Hl|v l1 l2 a d1 d2 Hl Hh Hs H1 IH1 H2 IH2]; intros Hc Hv.
    - split.
      + rewrite map_map. cbn [snd]. apply Forall_forall. intros x Hx. apply in_map_iff in Hx. destruct Hx as [_ [<- _]]. exact Hv.
      + intros d _ Hne. destruct l as [|t [|t' l]]; [congruence| |cbn in Hl; lia]. cbn [map snd]. unfold total. cbn [fold_right].
        replace (v + 0 - v) with 0 by ring. rewrite Rabs_R0. apply Rmult_le_pos; [|lra].
        assert (1 <= (1 + 3 * u) ^ d) by (apply pow_R1_Rle; lra). lra.
    - assert (Ha : 0 <= a <= 1).
      { apply (split_in cov l1 l2); [| |exact Hs]; intros c; apply Hc; [apply incl_appl|apply incl_appr]; apply incl_refl. }
      assert (Hb : 0 <= rnd (1 - a) <= 1) by (split; [apply rnd_nonneg|apply rnd_le_1]; lra).
      assert (V1 : 0 <= rnd (v * a) <= 1) by (split; [apply rnd_nonneg|apply rnd_le_1]; nra).
      assert (V2 : 0 <= rnd (v * rnd (1 - a)) <= 1) by (split; [apply rnd_nonneg|apply rnd_le_1]; nra).
      destruct IH1 as [F1 S1]; [intros i c Hi; apply Hc, incl_appl, Hi|exact V1|].
      destruct IH2 as [F2 S2]; [intros i c Hi; apply Hc, incl_appr, Hi|exact V2|].
      rewrite map_app. split; [apply Forall_app; auto|]. intros d Hd _. rewrite app_length in *.
      destruct d as [|d]; [cbn in Hd; lia|].
      assert (Hh2 : length l1 = ((length l1 + length l2) / 2)%nat) by exact Hh.
      assert (Hdiv := Nat.div_mod_eq (length l1 + length l2) 2). assert (Hmod := Nat.mod_upper_bound (length l1 + length l2) 2 ltac:(lia)).
      cbn [Nat.pow] in Hd.
      assert (N1 : l1 <> []) by (intros ->; cbn in *; lia). assert (N2 : l2 <> []) by (intros ->; cbn in *; lia).
      specialize (S1 d ltac:(lia) N1). specialize (S2 d ltac:(lia) N2).
      pose proof (node_error v a (proj1 Hv) Ha) as E.
      change (@nmul R N v a) with (rnd (v * a)) in *. change (@nmul R N v (@nsub R N (@n1 R N) a)) with (rnd (v * rnd (1 - a))) in *.
      set (x1 := rnd (v * a)) in *. set (x2 := rnd (v * rnd (1 - a))) in *. set (q := (1 + 3 * u) ^ d) in *.
      assert (Hq : 1 <= q) by (apply pow_R1_Rle; lra). cbn [pow]. fold q.
      rewrite total_app. replace (total (map snd d1) + total (map snd d2) - v) with ((total (map snd d1) - x1) + (total (map snd d2) - x2) + (x1 + x2 - v)) by ring.
      eapply Rle_trans; [apply Rabs_triang|]. eapply Rle_trans; [apply Rplus_le_compat_r, Rabs_triang|].
      assert (Rabs (x1 + x2 - v) <= 3 * u * v) by (apply Rabs_le; lra).
      assert ((q - 1) * (x1 + x2) <= (q - 1) * ((1 + 3 * u) * v)) by (apply Rmult_le_compat_l; lra). nra.
  Qed.
End Rounded.

Theorem hrp_rounded : forall rnd u cov ts w, rounding rnd -> accurate u rnd -> 0 <= u <= 1 -> NoDup ts ->
  (forall items v, incl items ts -> @cluster_var R (RndNum rnd) cov items = Ok v -> 0 <= v) ->
  @raw_hrp_allocation R (RndNum rnd) cov ts = Ok w ->
  map fst w = ts /\ Forall (fun x => 0 <= x <= 1) (map snd w) /\
  forall d, ts <> [] -> (length ts <= 2 ^ d)%nat -> Rabs (total (map snd w) - 1) <= (1 + 3 * u) ^ d - 1.
Proof.
  intros rnd u cov ts w Hr Ha Hu Hnd Hc H. destruct (raw_cut cov ts w Hnd H) as [C K]. split; [exact K|].
  destruct (cut_error rnd Hr u Ha Hu cov 1 ts w C Hc) as [F S]; [lra|]. split; [exact F|]. intros d Hne Hd.
  specialize (S d Hd Hne). lra.
Qed.

Lemma cluster_nonneg : forall rnd cov items v, rounding rnd -> (forall t s x, In t items -> In s items -> loc cov t s = Ok x -> 0 <= x) ->
  @cluster_var R (RndNum rnd) cov items = Ok v -> 0 <= v.
Proof.
  intros rnd cov items v Hr Hp H. unfold cluster_var in H.
  destruct (mapM (fun t => mapM (fun u => loc cov t u) items) items) as [s|] eqn:Es; cbn [rbind] in H; [|discriminate].
  destruct (mapM (fun t => loc cov t t) items) as [d|] eqn:Ed; cbn [rbind] in H; [|discriminate].
  destruct (mapM (fun d => if @neqb R (RndNum rnd) d _ then _ else _) d) as [i|] eqn:Ei; cbn [rbind] in H; [|discriminate].
  destruct (neqb _ _); [discriminate|]. inversion H as [Hv]. clear H Hv.
  assert (G : forall X Y (f : X -> res Y) (P : Y -> Prop) (l : list X) m, mapM f l = Ok m -> (forall x y, In x l -> f x = Ok y -> P y) -> Forall P m).
  { clear. intros X Y f P. induction l as [|x l IH]; intros m E Q; cbn [mapM] in E; [inversion E; constructor|].
    destruct (f x) as [y|] eqn:Ex; cbn [rbind] in E; [|discriminate]. destruct (mapM f l) as [r|] eqn:El; cbn [rbind] in E; [|discriminate].
    inversion E; subst. constructor; [apply (Q x); [left; reflexivity|exact Ex]|]. apply IH; [reflexivity|]. intros; eapply Q; [right|]; eassumption. }
  assert (Fs : Forall (Forall (fun x => 0 <= x)) s).
  { apply (G _ _ _ _ _ _ Es). intros t r Ht Er. apply (G _ _ _ _ _ _ Er). intros q x Hq Hx. exact (Hp t q x Ht Hq Hx). }
  assert (Fd : Forall (fun x => 0 <= x) d) by (apply (G _ _ _ _ _ _ Ed); intros t x Ht Hx; exact (Hp t t x Ht Ht Hx)).
  assert (Fi : Forall (fun x => 0 <= x) i).
  { apply (G _ _ _ _ _ _ Ei). intros x y Hx Hy. rewrite Forall_forall in Fd. specialize (Fd x Hx).
    change (@neqb R (RndNum rnd) x (@n0 R (RndNum rnd))) with (Reqb x 0) in Hy. unfold Reqb in Hy. destruct (Req_EM_T x 0) as [|Hx0]; [discriminate|].
    inversion Hy. apply (rnd_nonneg rnd Hr). apply Rmult_le_pos; [lra|]. left. apply Rinv_0_lt_compat. lra. }
  set (S := @vsum R (RndNum rnd) i).
  assert (HS : 0 <= S) by (apply (vsum_nonneg rnd Hr), Fi).
  assert (Fx : Forall (fun x => 0 <= x) (map (fun x => @ndiv R (RndNum rnd) x S) i)).
  { apply Forall_forall. intros y Hy. apply in_map_iff in Hy. destruct Hy as [x [<- Hx]]. rewrite Forall_forall in Fi. specialize (Fi x Hx).
    apply (rnd_nonneg rnd Hr). destruct (Req_dec S 0) as [Z|Z]; [rewrite Z; unfold Rdiv; rewrite Rinv_0; lra|].
    apply Rmult_le_pos; [exact Fi|]. left. apply Rinv_0_lt_compat. lra. }
  unfold quad. apply (dot_nonneg rnd Hr); [exact Fx|]. unfold matvec. apply Forall_forall. intros y Hy. apply in_map_iff in Hy.
  destruct Hy as [row [<- Hrow]]. apply (dot_nonneg rnd Hr); [|exact Fx]. rewrite Forall_forall in Fs. exact (Fs row Hrow).
Qed.

Theorem hrp_rounded_nonneg : forall rnd u cov ts w, rounding rnd -> accurate u rnd -> 0 <= u <= 1 -> NoDup ts ->
  (forall t s x, In t ts -> In s ts -> loc cov t s = Ok x -> 0 <= x) ->
  @raw_hrp_allocation R (RndNum rnd) cov ts = Ok w ->
  map fst w = ts /\ Forall (fun x => 0 <= x <= 1) (map snd w) /\
  forall d, ts <> [] -> (length ts <= 2 ^ d)%nat -> Rabs (total (map snd w) - 1) <= (1 + 3 * u) ^ d - 1.
Proof.
  intros rnd u cov ts w Hr Ha Hu Hnd Hp H. apply (hrp_rounded rnd u cov ts w Hr Ha Hu Hnd); [|exact H].
  intros items v Hi. apply cluster_nonneg; [exact Hr|]. intros t s x Ht Hs. apply Hp; apply Hi; assumption.
Qed.
