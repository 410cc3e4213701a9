(** * The integer program of lp_portfolio always has a best answer (C09, C93) *)
From Coq Require Import ZArith List Bool Reals Lra Lia Arith.
From Verif Require Import Num Py RBase PyLemmas MAlloc SAlloc Sums PAlloc PAlloc2 PAlloc3 PAlloc4 PAlloc5.
Import ListNotations.
Local Open Scope R_scope.

(** vectors of whole numbers with [0 <= x_i <= b_i] *)
Fixpoint grid (bs : list nat) : list (list Z) :=
  match bs with
  | [] => [[]]
  | b :: bs' => flat_map (fun k => map (cons (Z.of_nat k)) (grid bs')) (seq 0 (S b))
  end.
Lemma in_grid : forall bs zs, In zs (grid bs) <-> Forall2 (fun b z => (0 <= z <= Z.of_nat b)%Z) bs zs.
Proof.
  induction bs as [|b bs IH]; intros zs; cbn [grid].
  - split; [intros [<-|[]]; constructor|intros H; inversion H; left; reflexivity].
  - rewrite in_flat_map. split.
    + intros [k [Hk Hz]]. apply in_map_iff in Hz. destruct Hz as [zs' [<- Hz]]. apply in_seq in Hk. constructor; [lia|]. apply IH. exact Hz.
    + intros H. inversion H as [|? z ? zs' Hb Hr]; subst. exists (Z.to_nat z). split; [apply in_seq; lia|].
      apply in_map_iff. exists zs'. split; [rewrite Z2Nat.id by lia; reflexivity|apply IH; exact Hr].
Qed.
Lemma least_in_list : forall {X} (l : list X) (P : X -> Prop) (g : X -> R), (forall x, {P x} + {~ P x}) -> (exists x, In x l /\ P x) ->
  exists x, In x l /\ P x /\ forall y, In y l -> P y -> g x <= g y.
Proof.
  induction l as [|a l IH]; intros P g Hd [x [Hx HP]]; [destruct Hx|].
  destruct (Hd a) as [Ha|Ha].
  - destruct (Exists_dec P l Hd) as [He|He].
    + apply Exists_exists in He. destruct (IH P g Hd He) as [m [Hm [Pm Lm]]].
      destruct (Rle_dec (g a) (g m)) as [Hle|Hle].
      * exists a. split; [left; reflexivity|]. split; [exact Ha|]. intros y [<-|Hy] Py; [lra|]. specialize (Lm y Hy Py). lra.
      * exists m. split; [right; exact Hm|]. split; [exact Pm|]. intros y [<-|Hy] Py; [lra|]. apply Lm; assumption.
    + exists a. split; [left; reflexivity|]. split; [exact Ha|]. intros y [<-|Hy] Py; [lra|]. exfalso. apply He. apply Exists_exists. eauto.
  - destruct Hx as [<-|Hx]; [contradiction|]. destruct (IH P g Hd (ex_intro _ x (conj Hx HP))) as [m [Hm [Pm Lm]]].
    exists m. split; [right; exact Hm|]. split; [exact Pm|]. intros y [<-|Hy] Py; [contradiction|]. apply Lm; assumption.
Qed.

Lemma zcost_bound : forall ps zs T, Forall (fun p => 0 < p) ps -> Forall (fun z => (0 <= z)%Z) zs -> List.length zs = List.length ps ->
  zcost ps zs <= T -> 0 <= zcost ps zs /\ Forall2 (fun p z => IZR z * p <= T) ps zs.
Proof.
  intros ps zs T Hp. revert zs T. induction Hp as [|p ps Hp Hps IH]; intros [|z zs] T Hz Hl H; try discriminate Hl; [split; [cbn; lra|constructor]|].
  cbn [zcost] in *. inversion Hz as [|? ? Hz1 Hz2]; subst. apply IZR_le in Hz1. injection Hl as Hl.
  assert (0 <= IZR z * p) by nra.
  destruct (IH zs (zcost ps zs) Hz2 Hl (Rle_refl _)) as [H1 _].
  destruct (IH zs T Hz2 Hl) as [_ H2]; [lra|]. split; [lra|]. constructor; [lra|exact H2].
Qed.
Definition caps (P : lp (A:=R)) : list nat := map (fun p => Z.to_nat (up (lp_T P / p))) (lp_p P).
Lemma within_caps : forall P zs, Forall (fun p => 0 < p) (lp_p P) -> 0 <= lp_T P -> Forall (fun z => (0 <= z)%Z) zs ->
  Forall2 (fun p z => IZR z * p <= lp_T P) (lp_p P) zs -> In zs (grid (caps P)).
Proof.
  intros P zs Hp HT Hz H. apply in_grid. unfold caps. revert Hp Hz. induction H as [|p z ps zs Hpz H IH]; intros Hp Hz; [constructor|].
  inversion Hp as [|? ? Hp1 Hp2]; subst. inversion Hz as [|? ? Hz1 Hz2]; subst. cbn [map]. constructor; [|apply IH; assumption].
  split; [exact Hz1|]. destruct (archimed (lp_T P / p)) as [Hu _].
  assert (IZR z <= lp_T P / p) by (apply Rmult_le_reg_r with p; [lra|]; field_simplify; lra).
  assert (Hlt : (z < up (lp_T P / p))%Z) by (apply lt_IZR; lra). lia.
Qed.
Lemma zeros_cost : forall ps, zcost ps (repeat 0%Z (List.length ps)) = 0.
Proof. induction ps as [|p ps IH]; cbn; [reflexivity|]. rewrite IH. lra. Qed.

(** the program has a best answer *)
Theorem lp_has_best : forall P, List.length (lp_w P) = List.length (lp_p P) -> Forall (fun p => 0 < p) (lp_p P) -> 0 <= lp_T P ->
  exists x u, lp_feasible P x u /\ forall x' u', lp_feasible P x' u' -> lp_objective P x u <= lp_objective P x' u'.
Proof.
  intros P Hl Hp HT.
  set (ok := fun zs : list Z => 0 <= lp_r P (map IZR zs)).
  set (g := fun zs : list Z => vsum (map Rabs (lp_eta P (map IZR zs))) + lp_r P (map IZR zs)).
  assert (Hr : forall zs, lp_r P (map IZR zs) = lp_T P - zcost (lp_p P) zs) by (intros zs; unfold lp_r; rewrite dot_zcost; reflexivity).
  destruct (least_in_list (grid (caps P)) ok g) as [zs [Hin [Hok Hbest]]].
  { intros zs. unfold ok. apply Rle_dec. }
  { exists (repeat 0%Z (List.length (lp_p P))). split.
    - apply within_caps; try assumption; [apply Forall_forall; intros z Hz; apply repeat_spec in Hz; lia|].
      clear - HT. generalize (lp_p P) as ps. induction ps as [|p ps IH]; cbn [repeat List.length]; constructor; [lra|exact IH].
    - unfold ok. rewrite Hr, zeros_cost. lra. }
  pose proof (proj1 (in_grid _ _) Hin) as Hgr.
  assert (Hz : Forall (fun z => (0 <= z)%Z) zs) by (clear - Hgr; induction Hgr as [|b z bs zs H _ IH]; constructor; [lia|exact IH]).
  assert (Hzl : List.length zs = List.length (lp_p P)) by (apply Forall2_length in Hgr; unfold caps in Hgr; rewrite map_length in Hgr; symmetry; exact Hgr).
  exists (map IZR zs), (map Rabs (lp_eta P (map IZR zs))). split.
  - split; [rewrite map_length; exact Hzl|]. split; [rewrite map_length; apply lp_eta_nth; [exact Hl|rewrite map_length; exact Hzl]|].
    split; [apply Forall_forall; intros y Hy; apply in_map_iff in Hy; destruct Hy as [z [<- _]]; eauto|].
    destruct (abs_feasible (lp_eta P (map IZR zs))) as [A1 A2]. split; [exact A1|]. split; [exact A2|].
    split; [|exact Hok]. apply Forall_forall. intros y Hy. apply in_map_iff in Hy. destruct Hy as [z [<- Hy]]. apply IZR_le.
    rewrite Forall_forall in Hz. exact (Hz z Hy).
  - intros x' u' [F1 [F2 [F3 [F4 [F5 [F6 F7]]]]]]. destruct (integers_list _ F3) as [zs' Hx]. subst x'.
    assert (Hz' : Forall (fun z => (0 <= z)%Z) zs').
    { apply Forall_forall. intros z Hi. rewrite Forall_forall in F6. apply le_IZR. apply F6. apply in_map. exact Hi. }
    assert (Hin' : In zs' (grid (caps P))).
    { apply within_caps; try assumption. rewrite map_length in F1. apply zcost_bound; try assumption. pose proof F7 as F8. rewrite Hr in F8. lra. }
    pose proof (Hbest zs' Hin' F7) as Hb. pose proof (abs_le_u _ _ F4 F5) as Ha. unfold lp_objective. unfold g in Hb. lra.
Qed.

(** lp_portfolio succeeds: long-only *)
Lemma lp_long_found : forall solver d, complete_milp solver -> 0 < da_total d -> da_weights d <> [] -> positive_prices (da_prices d) ->
  List.length (da_weights d) = List.length (da_prices d) -> exists al lo, lp_long solver d = Ok (al, lo).
Proof.
  intros solver d Hc HT Hne Hp Hl. unfold lp_long.
  set (P := mkLP (map snd (da_prices d)) (map snd (da_weights d)) (da_total d)).
  assert (E : Nat.eqb (length (lp_p P)) (length (lp_w P)) = true) by (cbn [P lp_p lp_w]; rewrite !map_length, Hl; apply Nat.eqb_refl).
  rewrite E. cbn [negb].
  destruct (lp_has_best P) as [x [u [Hf Hb]]].
  - cbn [P lp_p lp_w]. rewrite !map_length. exact Hl.
  - cbn [P lp_p]. apply Forall_forall. intros v Hv. apply in_map_iff in Hv. destruct Hv as [[t p] [<- Hin]]. exact (Hp t p Hin).
  - cbn [P lp_T]. lra.
  - destruct (Hc P x u) as [x' [u' ES]]; [|exact Hf|exact Hb|rewrite ES; eauto].
    cbn [P lp_p]. destruct (da_prices d); [destruct (da_weights d); [congruence|discriminate Hl]|discriminate].
Qed.
Theorem lp_found : forall solver d r, complete_milp solver -> 0 < da_total d -> da_weights d <> [] -> long_only (da_weights d) -> positive_prices (da_prices d) ->
  List.length (da_weights d) = List.length (da_prices d) -> exists d' al lo, lp_portfolio solver d r = (d', Ok (al, lo)).
Proof.
  intros solver d r Hc HT Hne Hlo Hp Hl. destruct (lp_long_found solver d Hc HT Hne Hp Hl) as [al [lo E]].
  rewrite <- (lp_long_only 1 solver d r Hlo) in E. unfold lp_portfolio. destruct (lp_at 2 solver d r) as [d' rr]. cbn [snd] in E. subst rr. eauto.
Qed.

(** lp_portfolio succeeds: with short positions *)
Lemma sub_lp_found : forall solver d w T d1, complete_milp solver -> positive_prices (da_prices d) -> w <> [] -> long_only w ->
  sub_da d w T = Ok d1 -> exists al lo, snd (lp_at 1 solver d1 false) = Ok (al, lo).
Proof.
  intros solver d w T d1 Hc Hp Hne Hlo H. pose proof (sub_da_spec _ _ _ _ H) as [W [T1 [T2 [_ [Hsel _]]]]].
  apply select_prices_spec in Hsel. destruct Hsel as [Hk _].
  rewrite (lp_long_only 0) by (rewrite W; exact Hlo). apply lp_long_found; [exact Hc|rewrite T1; exact T2|rewrite W; exact Hne|eapply sub_da_positive; eauto|].
  rewrite W. apply (f_equal (@List.length _)) in Hk. rewrite !map_length in Hk. symmetry. exact Hk.
Qed.
Theorem lp_short_found : forall solver d r, complete_milp solver -> 0 < da_total d -> 0 < da_short_ratio d -> has_short (da_weights d) ->
  (exists t x, In (t, x) (da_weights d) /\ 0 < x) -> all_priced (da_weights d) (da_prices d) -> positive_prices (da_prices d) ->
  exists d' al lo, lp_portfolio solver d r = (d', Ok (al, lo)).
Proof.
  intros solver d r Hc HT Hr Hs Hl Hap Hp.
  assert (E : exists al lo, snd (lp_portfolio solver d r) = Ok (al, lo)).
  2:{ destruct E as [al [lo E]]. destruct (lp_portfolio solver d r) as [d' rr]. cbn [snd] in E. subst rr. eauto. }
  rewrite lp_short_unfold by exact Hs. cbv zeta.
  set (sv := da_total d * da_short_ratio d). assert (Hsv : 0 < sv) by (apply Rmult_lt_0_compat; assumption).
  destruct (longs_normalise _ Hl) as [l [EL [NL NL']]]. destruct (shorts_normalise _ Hs) as [s [ES NS]]. rewrite EL, ES. cbn [rbind].
  assert (PR : forall f k, In k (map fst (filter f (da_weights d))) -> exists v, dget k (da_prices d) = Some v).
  { intros f k Hk. apply in_map_iff in Hk. destruct Hk as [[t x] [<- Hk]]. apply filter_In in Hk. exact (Hap t x (proj1 Hk)). }
  destruct (sub_da_total d l (if r then da_total d + sv else da_total d)) as [d1 E1]; [destruct r; lra|rewrite (normalise_keys _ _ EL); apply PR|].
  destruct (sub_da_total d s sv Hsv) as [d2 E2]; [rewrite (normalise_keys _ _ ES), shorts_keys; apply PR|].
  rewrite E1. cbn [rbind].
  destruct (sub_lp_found solver d l (if r then da_total d + sv else da_total d) d1 Hc Hp NL) as [al1 [lo1 G1]]; [eapply normalise_nonneg; [apply longs_of_nonneg|exact EL]|exact E1|].
  rewrite G1. cbn [rbind]. rewrite E2. cbn [rbind].
  destruct (sub_lp_found solver d s sv d2 Hc Hp NS) as [al2 [lo2 G2]]; [eapply normalise_nonneg; [apply shorts_of_nonneg|exact ES]|exact E2|].
  rewrite G2. cbn [rbind]. eauto.
Qed.
