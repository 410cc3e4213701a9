(** * Critical line algorithm: the path of optimal portfolios *)
From Coq Require Import List Bool Reals Lra Lia Arith.
From Verif Require Import SLin SCLA Sums Mat PCov1.
Import ListNotations.
Local Open Scope R_scope.

Section Path.
  Variables (n : nat) (S : nat -> nat -> R) (mu lb ub : nat -> R).
  Hypotheses (Ssym : sym n S) (Spd : posdef n S).
  Definition ap (x : nat -> R) (i : nat) : R := sumn n (fun j => S i j * x j).
  Lemma ap_lin : forall s t x y i, ap (fun k => s * x k + t * y k) i = s * ap x i + t * ap y i.
  Proof.
    intros. unfold ap. rewrite <- !sumn_scal, <- sumn_plus. apply sumn_ext. intros; ring.
  Qed.
  Lemma ap_ext : forall x y i, (forall k, (k < n)%nat -> x k = y k) -> ap x i = ap y i.
  Proof. intros x y i H. unfold ap. apply sumn_ext. intros j Hj. rewrite H by exact Hj. reflexivity. Qed.

  (** fully invested, as prescribed outside [F], stationary on [F] *)
  Definition sol (F : list nat) (b : nat -> R) (lam : R) (x : nat -> R) (g : R) : Prop :=
    (forall i, (i < n)%nat -> ~ In i F -> x i = b i) /\ sumn n x = 1 /\ (forall i, In i F -> ap x i - lam * mu i = g).
  Definition nu (lam : R) (x : nat -> R) (g : R) (j : nat) : R := ap x j - lam * mu j - g.

  Lemma sol_lin : forall F b l1 l2 x1 x2 g1 g2 t, sol F b l1 x1 g1 -> sol F b l2 x2 g2 ->
    sol F b (t * l1 + (1 - t) * l2) (fun i => t * x1 i + (1 - t) * x2 i) (t * g1 + (1 - t) * g2).
  Proof.
    intros F b l1 l2 x1 x2 g1 g2 t [A1 [B1 C1]] [A2 [B2 C2]]. split; [|split].
    - intros i Hi Hn. rewrite A1, A2 by assumption. ring.
    - rewrite sumn_plus, !sumn_scal, B1, B2. ring.
    - intros i Hi. rewrite ap_lin. specialize (C1 i Hi). specialize (C2 i Hi).
      replace (t * g1 + (1 - t) * g2) with (t * (ap x1 i - l1 * mu i) + (1 - t) * (ap x2 i - l2 * mu i)) by (rewrite C1, C2; ring). ring.
  Qed.
  Lemma nu_lin : forall l1 l2 x1 x2 g1 g2 t j,
    nu (t * l1 + (1 - t) * l2) (fun i => t * x1 i + (1 - t) * x2 i) (t * g1 + (1 - t) * g2) j = t * nu l1 x1 g1 j + (1 - t) * nu l2 x2 g2 j.
  Proof. intros. unfold nu. rewrite ap_lin. ring. Qed.

  (** the difference of two solutions, [j] free in the second one only *)
  Lemma key : forall F b b' j lam x g x' g', ~ In j F -> (forall i, (i < n)%nat -> ~ In i F -> i <> j -> b' i = b i) ->
    sol F b lam x g -> (forall i, (i < n)%nat -> ~ In i F -> i <> j -> x' i = b' i) -> sumn n x' = 1 ->
    (forall i, In i F -> ap x' i - lam * mu i = g') -> (j < n)%nat -> ap x' j - lam * mu j = g' ->
    bil n S (fun i => x' i - x i) (fun i => x' i - x i) = - ((x' j - x j) * nu lam x g j).
  Proof.
    intros F b b' j lam x g x' g' Hj Hb [A [B C]] A' B' C' Hjn D'.
    assert (Hap : forall i, ap (fun k => x' k - x k) i = ap x' i - ap x i).
    { intros i. rewrite (ap_ext _ (fun k => 1 * x' k + (-1) * x k)) by (intros; ring). rewrite ap_lin. ring. }
    unfold bil. fold (ap (fun k => x' k - x k)).
    rewrite (sumn_ext n _ (fun i => (g' - g) * (x' i - x i) + (if Nat.eqb i j then 1 else 0) * (- ((x' i - x i) * nu lam x g i)))).
    - rewrite sumn_plus, sumn_scal, sumn_minus, B, B'.
      rewrite (sumn_delta n j (fun i => - ((x' i - x i) * nu lam x g i))) by exact Hjn. ring.
    - intros i Hi. fold (ap (fun k => x' k - x k) i). rewrite Hap. destruct (Nat.eqb_spec i j) as [->|Hne].
      + unfold nu. replace (ap x' j) with (g' + lam * mu j) by lra. ring.
      + destruct (in_dec Nat.eq_dec i F) as [Hin|Hin].
        * specialize (C i Hin). specialize (C' i Hin). replace (ap x' i - ap x i) with (g' - g) by lra. ring.
        * rewrite A', A, Hb by assumption. ring.
  Qed.

  Lemma bil_pos : forall d, (forall i, (i < n)%nat -> d i = 0) \/ 0 < bil n S d d.
  Proof.
    intros d. destruct (nonzero_dec n d) as [[i [Hi Hd]]|H]; [right; apply Spd; exists i; auto|left; exact H].
  Qed.

  Lemma sol_unique : forall F b lam x g x' g', F <> [] -> (forall i, In i F -> (i < n)%nat) -> sol F b lam x g -> sol F b lam x' g' ->
    (forall i, (i < n)%nat -> x' i = x i) /\ g' = g.
  Proof.
    intros F b lam x g x' g' Hne Hin Hx Hx'. destruct F as [|j F0] eqn:EF; [congruence|]. rewrite <- EF in *.
    assert (Hj : In j F) by (rewrite EF; left; reflexivity).
    assert (E : bil n S (fun i => x' i - x i) (fun i => x' i - x i) = 0).
    { destruct Hx as [A [B C]], Hx' as [A' [B' C']]. unfold bil.
      rewrite (sumn_ext n _ (fun i => (g' - g) * (x' i - x i))); [rewrite sumn_scal, sumn_minus, B, B'; ring|].
      intros i Hi. fold (ap (fun k => x' k - x k) i).
      assert (Hap : ap (fun k => x' k - x k) i = ap x' i - ap x i).
      { rewrite (ap_ext _ (fun k => 1 * x' k + (-1) * x k)) by (intros; ring). rewrite ap_lin. ring. }
      rewrite Hap. destruct (in_dec Nat.eq_dec i F) as [Hi'|Hi'].
      - specialize (C i Hi'). specialize (C' i Hi'). replace (ap x' i - ap x i) with (g' - g) by lra. ring.
      - rewrite A, A' by assumption. ring. }
    destruct (bil_pos (fun i => x' i - x i)) as [H|H]; [|lra].
    assert (Hxx : forall i, (i < n)%nat -> x' i = x i) by (intros i Hi; specialize (H i Hi); cbn in H; lra).
    split; [exact Hxx|]. destruct Hx as [_ [_ C]], Hx' as [_ [_ C']]. specialize (C j Hj). specialize (C' j Hj).
    rewrite (ap_ext x' x) in C' by exact Hxx. lra.
  Qed.

  (** existence, supplied from outside *)
  Hypothesis Hex : forall F b lam, free_set n F -> exists x g, sol F b lam x g.

  Definition side (bj lj uj v : R) : Prop := (bj = lj /\ 0 <= v) \/ (bj = uj /\ v <= 0).
  Definition sides (F : list nat) (b : nat -> R) (lam : R) (x : nat -> R) (g : R) : Prop :=
    forall j, (j < n)%nat -> ~ In j F -> side (b j) (lb j) (ub j) (nu lam x g j).
  Definition inbox (F : list nat) (x : nat -> R) : Prop := forall i, In i F -> lb i <= x i <= ub i.
  Definition valid (F : list nat) (b : nat -> R) (lam : R) : Prop :=
    exists x g, sol F b lam x g /\ inbox F x /\ sides F b lam x g.

  (** the behaviour of candidate values *)
  Definition in_cand (F : list nat) (b : nat -> R) (i : nat) (c : option (R * R)) : Prop :=
    match c with
    | Some (l, bi) => exists kap, kap <> 0 /\ bi = (if Rlt_dec 0 kap then ub i else lb i) /\
                      forall lam x g, sol F b lam x g -> x i = bi - (lam - l) * kap
    | None => forall lam x g lam' x' g', sol F b lam x g -> sol F b lam' x' g' -> x i = x' i
    end.
  Definition out_cand (F : list nat) (b : nat -> R) (j : nat) (l : R) : Prop :=
    exists kap, kap <> 0 /\ forall lam x g, sol (F ++ [j]) b lam x g -> x j = b j - (lam - l) * kap.

  Lemma free_app : forall F j, free_set n F -> (j < n)%nat -> ~ In j F -> free_set n (F ++ [j]).
  Proof.
    intros F j [H1 [H2 H3]] Hj Hn. split; [destruct F; discriminate|]. split.
    - apply NoDup_rev in H2. rewrite <- (rev_involutive (F ++ [j])). apply NoDup_rev. rewrite rev_app_distr. cbn.
      constructor; [rewrite <- in_rev; exact Hn|exact H2].
    - intros i Hi. apply in_app_or in Hi. destruct Hi as [Hi|[<-|[]]]; auto.
  Qed.
  Lemma sol_grow : forall F b lam x g j, ~ In j F -> (j < n)%nat -> sol F b lam x g -> nu lam x g j = 0 -> sol (F ++ [j]) b lam x g.
  Proof.
    intros F b lam x g j Hn Hj [A [B C]] H. split; [|split; [exact B|]].
    - intros i Hi Hi'. apply A; [exact Hi|]. intros Hc. apply Hi', in_or_app. left; exact Hc.
    - intros i Hi. apply in_app_or in Hi. destruct Hi as [Hi|[<-|[]]]; [apply C, Hi|]. unfold nu in H. lra.
  Qed.

  (** the multiplier of [j] vanishes exactly at the candidate value *)
  Lemma nu_zero : forall F b j l lam x g, free_set n F -> (j < n)%nat -> ~ In j F -> out_cand F b j l -> sol F b lam x g ->
    (nu lam x g j = 0 <-> lam = l).
  Proof.
    intros F b j l lam x g HF Hj Hn [kap [Hk Hc]] Hx. split.
    - intros H0. specialize (Hc lam x g (sol_grow F b lam x g j Hn Hj Hx H0)).
      destruct Hx as [A _]. rewrite (A j Hj Hn) in Hc. assert (E : (lam - l) * kap = 0) by lra.
      apply Rmult_integral in E. destruct E; lra.
    - intros ->. destruct (Hex (F ++ [j]) b l (free_app F j HF Hj Hn)) as [x' [g' Hx']].
      pose proof (Hc l x' g' Hx') as Hxj. replace (b j - (l - l) * kap) with (b j) in Hxj by ring.
      assert (Hxj0 : x j = b j) by (destruct Hx as [A _]; apply A; assumption).
      destruct Hx' as [A' [B' C']].
      assert (EK : bil n S (fun i => x' i - x i) (fun i => x' i - x i) = - ((x' j - x j) * nu l x g j)).
      { apply (key F b b j l x g x' g'); auto.
        - intros i Hi Hni Hne. apply A'; [exact Hi|]. intros Hc'. apply in_app_or in Hc'. destruct Hc' as [?|[?|[]]]; [contradiction|congruence].
        - intros i Hi. apply C', in_or_app. left; exact Hi.
        - apply C', in_or_app. right; left; reflexivity. }
      rewrite Hxj, Hxj0 in EK.
      destruct (bil_pos (fun i => x' i - x i)) as [Hz|Hp].
      2:{ replace (- ((b j - b j) * nu l x g j)) with 0 in EK by ring. lra. }
      assert (Hxx : forall i, (i < n)%nat -> x' i = x i) by (intros i Hi; specialize (Hz i Hi); cbn in Hz; lra).
      assert (Hg : g' = g).
      { destruct HF as [HF1 [_ HF3]]. destruct F as [|a F0]; [congruence|]. destruct Hx as [_ [_ C]].
        specialize (C a (or_introl eq_refl)). specialize (C' a (or_introl eq_refl)). rewrite (ap_ext x' x) in C' by exact Hxx. lra. }
      assert (Cj : ap x' j - l * mu j = g') by (apply C', in_or_app; right; left; reflexivity).
      unfold nu. rewrite (ap_ext x' x) in Cj by exact Hxx. lra.
  Qed.

  (** an affine quantity without a zero between two values has the same sign at both *)
  Lemma same_sign : forall F b j l l1 x1 g1 l2 x2 g2, free_set n F -> (j < n)%nat -> ~ In j F -> out_cand F b j l ->
    sol F b l1 x1 g1 -> sol F b l2 x2 g2 -> (l < l1 /\ l < l2) \/ (l1 < l /\ l2 < l) -> 
    (0 <= nu l1 x1 g1 j -> 0 <= nu l2 x2 g2 j) /\ (nu l1 x1 g1 j <= 0 -> nu l2 x2 g2 j <= 0).
  Proof.
    intros F b j l l1 x1 g1 l2 x2 g2 HF Hj Hn Hc H1 H2 Hl.
    pose proof (nu_zero F b j l l1 x1 g1 HF Hj Hn Hc H1) as Z1. pose proof (nu_zero F b j l l2 x2 g2 HF Hj Hn Hc H2) as Z2.
    assert (Hopp : nu l1 x1 g1 j * nu l2 x2 g2 j < 0 -> False).
    { intros Hneg. set (a := nu l1 x1 g1 j) in *. set (c := nu l2 x2 g2 j) in *.
      assert (Hne : a - c <> 0) by (intros E; replace a with c in Hneg by lra; pose proof (Rle_0_sqr c) as Hs; unfold Rsqr in Hs; lra).
      set (t := - c / (a - c)).
      assert (Ht : 0 < t < 1).
      { unfold t. destruct (Rlt_le_dec 0 a) as [Ha|Ha].
        - assert (Hc0 : c < 0) by nra. split.
          + apply Rmult_lt_0_compat; [lra|apply Rinv_0_lt_compat; lra].
          + apply (Rmult_lt_reg_r (a - c)); [lra|]. unfold Rdiv. rewrite Rmult_assoc, Rinv_l by lra. lra.
        - assert (Hc0 : 0 < c) by nra. assert (Ha0 : a < 0) by nra.
          replace (- c / (a - c)) with (c / (c - a)) by (field; lra). split.
          + apply Rmult_lt_0_compat; [lra|apply Rinv_0_lt_compat; lra].
          + apply (Rmult_lt_reg_r (c - a)); [lra|]. unfold Rdiv. rewrite Rmult_assoc, Rinv_l by lra. lra. }
      pose proof (sol_lin F b l1 l2 x1 x2 g1 g2 t H1 H2) as Hs.
      pose proof (nu_lin l1 l2 x1 x2 g1 g2 t j) as Hn'. fold a c in Hn'.
      assert (E0 : t * a + (1 - t) * c = 0) by (unfold t; field; exact Hne).
      rewrite E0 in Hn'. apply (nu_zero F b j l _ _ _ HF Hj Hn Hc Hs) in Hn'. nra. }
    split; intros Hs.
    - destruct (Rle_lt_dec 0 (nu l2 x2 g2 j)) as [|Hlt]; [assumption|]. exfalso. apply Hopp.
      assert (nu l1 x1 g1 j <> 0) by (rewrite Z1; lra). nra.
    - destruct (Rle_lt_dec (nu l2 x2 g2 j) 0) as [|Hlt]; [assumption|]. exfalso. apply Hopp.
      assert (nu l1 x1 g1 j <> 0) by (rewrite Z1; lra). nra.
  Qed.

  (** ** The invariant *)
  Definition below (last : option R) (l : R) : Prop := match last with None => True | Some L => l < L end.
  Definition upto (last : option R) (l : R) : Prop := match last with None => True | Some L => l <= L end.
  Definition Inv (F : list nat) (b : nat -> R) (last : option R) : Prop :=
    free_set n F /\ (forall j, (j < n)%nat -> ~ In j F -> b j = lb j \/ b j = ub j) /\
    match last with
    | Some L => 0 <= L /\ exists x g, sol F b L x g /\ inbox F x /\ sides F b L x g /\
        (forall j, (j < n)%nat -> ~ In j F -> nu L x g j = 0 ->
           forall lam y gy, lam < L -> sol F b lam y gy -> side (b j) (lb j) (ub j) (nu lam y gy j))
    | None => exists a, F = [a] /\ (forall lam x g, sol F b lam x g -> lb a <= x a <= ub a) /\
        (forall j, (j < n)%nat -> j <> a -> (b j = lb j /\ mu j <= mu a) \/ (b j = ub j /\ mu a <= mu j))
    end.

  (** with a single free asset nothing moves *)
  Lemma single_const : forall a b lam x g lam' x' g', (a < n)%nat -> sol [a] b lam x g -> sol [a] b lam' x' g' ->
    forall i, (i < n)%nat -> x i = x' i.
  Proof.
    intros a b lam x g lam' x' g' Ha [A [B _]] [A' [B' _]].
    assert (Hne : forall i, (i < n)%nat -> i <> a -> x i = x' i) by (intros i Hi Hia; rewrite A, A' by (auto; intros [?|[]]; congruence); reflexivity).
    assert (E : sumn n (fun i => x i - x' i) = x a - x' a).
    { apply (sumn_single n (fun i => x i - x' i)); [exact Ha|]. intros i Hi Hia. rewrite Hne by assumption. ring. }
    rewrite sumn_minus, B, B' in E. intros i Hi. destruct (Nat.eq_dec i a) as [->|Hia]; [lra|auto].
  Qed.

  (** the configuration stays optimal down to the next event *)
  Theorem valid_down : forall F b last low, Inv F b last -> upto last low ->
    (forall i, In i F -> last = None \/ exists c, in_cand F b i c /\ match c with Some (l, _) => l <= low | None => True end) ->
    (forall j, (j < n)%nat -> ~ In j F -> exists l, out_cand F b j l /\ (below last l -> l <= low)) ->
    forall lam, low <= lam -> upto last lam -> valid F b lam.
  Proof.
    intros F b last low [HF [Hb HI]] Hlow Hin Hout lam H1 H2. destruct (Hex F b lam HF) as [x [g Hx]].
    exists x, g. split; [exact Hx|]. destruct last as [L|].
    - destruct HI as [HL [X [G [HX [Hbox [Hsides Hdir]]]]]]. cbn [upto] in H2. split.
      + intros i Hi. destruct (Hin i Hi) as [Hc|[c [Hc Hl]]]; [discriminate|]. specialize (Hbox i Hi). destruct c as [[l bi]|].
        * destruct Hc as [kap [Hk [Hbi Hc]]]. pose proof (Hc _ _ _ Hx) as E1. pose proof (Hc _ _ _ HX) as E2.
          destruct (Rlt_dec 0 kap) as [Hp|Hp].
          -- assert (0 <= (lam - l) * kap) by (apply Rmult_le_pos; lra).
             assert ((lam - l) * kap <= (L - l) * kap) by (apply Rmult_le_compat_r; lra). lra.
          -- assert (0 <= (lam - l) * - kap) by (apply Rmult_le_pos; lra).
             assert ((lam - l) * - kap <= (L - l) * - kap) by (apply Rmult_le_compat_r; lra). lra.
        * rewrite (Hc _ _ _ _ _ _ Hx HX). exact Hbox.
      + intros j Hj Hn. destruct (Hout j Hj Hn) as [l [Hc Hbl]]. cbn [below] in Hbl.
        pose proof (nu_zero F b j l lam x g HF Hj Hn Hc Hx) as Zx. pose proof (nu_zero F b j l L X G HF Hj Hn Hc HX) as ZX.
        destruct (Req_dec lam l) as [->|Hne].
        * rewrite (proj2 Zx eq_refl). unfold side. destruct (Hb j Hj Hn); [left|right]; split; auto; lra.
        * destruct (Req_dec L l) as [EL|HneL].
          -- assert (Hz : nu L X G j = 0) by (apply ZX; exact EL). destruct (Rle_lt_or_eq_dec lam L H2) as [Hlt|Heq]; [|lra].
             apply (Hdir j Hj Hn Hz lam x g Hlt Hx).
          -- assert (Hor : (l < L /\ l < lam) \/ (L < l /\ lam < l)).
             { destruct (Rlt_le_dec l L) as [Hll|Hll]; [|right; lra]. left. specialize (Hbl Hll). lra. }
             destruct (same_sign F b j l L X G lam x g HF Hj Hn Hc HX Hx Hor) as [S1 S2].
             destruct (Hsides j Hj Hn) as [[E1 E2]|[E1 E2]]; [left|right]; split; auto.
    - destruct HI as [a [-> [Hbox Hmu]]]. split.
      + intros i [<-|[]]. apply (Hbox lam x g Hx).
      + intros j Hj Hn. destruct (Hout j Hj Hn) as [l [Hc Hbl]]. specialize (Hbl I). assert (Hja : j <> a) by (intros ->; apply Hn; left; reflexivity).
        assert (Ha : (a < n)%nat) by (apply HF; left; reflexivity).
        destruct (Req_dec lam l) as [->|Hne].
        * rewrite (proj2 (nu_zero [a] b j l l x g HF Hj Hn Hc Hx) eq_refl). unfold side. destruct (Hb j Hj Hn); [left|right]; split; auto; lra.
        * (* far up the path the sign is that of the difference of the means *)
          set (big := Rmax (lam + 1) (lam + 1 + Rabs (nu lam x g j))).
          assert (Hform : forall lam' x' g', sol [a] b lam' x' g' -> nu lam' x' g' j = nu lam x g j - (lam' - lam) * (mu j - mu a)).
          { intros lam' x' g' Hx'. pose proof (single_const a b lam x g lam' x' g' Ha Hx Hx') as Hsame.
            destruct Hx as [_ [_ C]]. destruct Hx' as [_ [_ C']]. specialize (C a (or_introl eq_refl)). specialize (C' a (or_introl eq_refl)).
            unfold nu. rewrite (ap_ext x' x) by (intros; symmetry; apply Hsame; assumption).
            rewrite (ap_ext x' x) in C' by (intros; symmetry; apply Hsame; assumption). lra. }
          assert (Hmne : mu j - mu a <> 0).
          { intros E0. assert (Hall : forall lam' x' g', sol [a] b lam' x' g' -> nu lam' x' g' j = nu lam x g j).
            { intros lam' x' g' Hx'. rewrite (Hform lam' x' g' Hx'), E0. ring. }
            destruct (Hex [a] b l HF) as [xl [gl Hxl]].
            pose proof (proj2 (nu_zero [a] b j l l xl gl HF Hj Hn Hc Hxl) eq_refl) as Hz. rewrite (Hall _ _ _ Hxl) in Hz.
            apply (nu_zero [a] b j l lam x g HF Hj Hn Hc Hx) in Hz. contradiction. }
          destruct (Hex [a] b l HF) as [xl [gl Hxl]].
          pose proof (proj2 (nu_zero [a] b j l l xl gl HF Hj Hn Hc Hxl) eq_refl) as Hz. rewrite (Hform _ _ _ Hxl) in Hz.
          assert (Hlt : 0 < lam - l) by lra.
          destruct (Hmu j Hj Hja) as [[E1 E2]|[E1 E2]]; [left|right]; (split; [exact E1|]); nra.
  Qed.

  (** ** Events *)
  (** general position: never two fixed assets with multiplier zero on the path *)
  Definition gpos : Prop := forall F b lam x g i j, free_set n F -> (forall k, (k < n)%nat -> ~ In k F -> b k = lb k \/ b k = ub k) ->
    0 <= lam -> sol F b lam x g -> inbox F x -> sides F b lam x g ->
    (i < n)%nat -> (j < n)%nat -> ~ In i F -> ~ In j F -> nu lam x g i = 0 -> nu lam x g j = 0 -> i = j.
  Hypothesis GP : gpos.
  Hypothesis Hbounds : forall i, (i < n)%nat -> lb i <= ub i.

  Theorem event_out : forall F b lam j, free_set n F -> (forall k, (k < n)%nat -> ~ In k F -> b k = lb k \/ b k = ub k) -> 0 <= lam ->
    (j < n)%nat -> ~ In j F -> out_cand F b j lam -> valid F b lam -> Inv (F ++ [j]) b (Some lam).
  Proof.
    intros F b lam j HF Hb Hlam Hj Hn Hc [x [g [Hx [Hbox Hs]]]].
    assert (Hz : nu lam x g j = 0) by (apply (nu_zero F b j lam lam x g HF Hj Hn Hc Hx); reflexivity).
    split; [apply free_app; assumption|]. split.
    { intros k Hk Hnk. apply Hb; [exact Hk|]. intros Hc'. apply Hnk, in_or_app. left; exact Hc'. }
    split; [exact Hlam|]. exists x, g. split; [apply sol_grow; assumption|]. split; [|split].
    - intros i Hi. apply in_app_or in Hi. destruct Hi as [Hi|[<-|[]]]; [apply Hbox, Hi|].
      assert (E : x j = b j) by (destruct Hx as [A _]; apply A; assumption). rewrite E. specialize (Hbounds j Hj). destruct (Hb j Hj Hn); lra.
    - intros k Hk Hnk. apply Hs; [exact Hk|]. intros Hc'. apply Hnk, in_or_app. left; exact Hc'.
    - intros k Hk Hnk Hzk. exfalso. apply Hnk, in_or_app. right. left.
      apply (GP F b lam x g j k); auto. intros Hc'. apply Hnk, in_or_app. left; exact Hc'.
  Qed.

  Definition upd (b : nat -> R) (i : nat) (v : R) (k : nat) : R := if Nat.eqb k i then v else b k.
  (** [F'] is [F] without [i] *)
  Theorem event_in : forall F F' b lam i bi, free_set n F -> free_set n F' -> (forall k, In k F' <-> In k F /\ k <> i) ->
    (forall k, (k < n)%nat -> ~ In k F -> b k = lb k \/ b k = ub k) -> 0 <= lam ->
    In i F -> in_cand F b i (Some (lam, bi)) -> valid F b lam -> Inv F' (upd b i bi) (Some lam).
  Proof.
    intros F F' b lam i bi HF HF' Hrem Hb Hlam Hi [kap [Hk [Hbi Hc]]] [x [g [Hx [Hbox Hs]]]].
    assert (Hin : (i < n)%nat) by (apply HF, Hi).
    assert (Hxi : x i = bi) by (rewrite (Hc lam x g Hx); ring).
    assert (Hnu : nu lam x g i = 0) by (destruct Hx as [_ [_ C]]; specialize (C i Hi); unfold nu; lra).
    assert (Hni : ~ In i F') by (rewrite Hrem; tauto).
    assert (Hbi' : bi = lb i \/ bi = ub i) by (destruct (Rlt_dec 0 kap); auto).
    assert (Hb' : forall k, (k < n)%nat -> ~ In k F' -> upd b i bi k = lb k \/ upd b i bi k = ub k).
    { intros k Hkn Hk'. unfold upd. destruct (Nat.eqb_spec k i) as [->|Hne]; [exact Hbi'|]. apply Hb; [exact Hkn|]. rewrite Hrem in Hk'. tauto. }
    assert (Hx' : sol F' (upd b i bi) lam x g).
    { destruct Hx as [A [B C]]. split; [|split; [exact B|]].
      - intros k Hkn Hk'. unfold upd. destruct (Nat.eqb_spec k i) as [->|Hne]; [exact Hxi|]. apply A; [exact Hkn|]. rewrite Hrem in Hk'. tauto.
      - intros k Hk'. apply C, Hrem, Hk'. }
    assert (Hbox' : inbox F' x) by (intros k Hk'; apply Hbox, Hrem, Hk').
    assert (Hs' : sides F' (upd b i bi) lam x g).
    { intros k Hkn Hk'. destruct (Nat.eq_dec k i) as [->|Hne].
      + rewrite Hnu. unfold side, upd. rewrite Nat.eqb_refl. destruct Hbi'; [left|right]; split; auto; lra.
      + unfold upd. destruct (Nat.eqb_spec k i); [contradiction|]. apply Hs; [exact Hkn|]. rewrite Hrem in Hk'. tauto. }
    split; [exact HF'|]. split; [exact Hb'|]. split; [exact Hlam|]. exists x, g. split; [exact Hx'|]. split; [exact Hbox'|]. split; [exact Hs'|].
    { intros k Hkn Hk' Hz lam' y gy Hlt Hy.
      assert (k = i) by (apply (GP F' (upd b i bi) lam x g k i); auto). subst k.
      destruct (Hex F b lam' HF) as [x' [g' Hx1]]. pose proof (Hc lam' x' g' Hx1) as Hxi'.
      assert (Hyi : y i = bi) by (destruct Hy as [A _]; rewrite A by assumption; unfold upd; rewrite Nat.eqb_refl; reflexivity).
      assert (EK : bil n S (fun k => x' k - y k) (fun k => x' k - y k) = - ((x' i - y i) * nu lam' y gy i)).
      { destruct Hx1 as [A1 [B1 C1]]. apply (key F' (upd b i bi) b i lam' y gy x' g'); auto.
        - intros k Hkn' Hk1 Hne. unfold upd. destruct (Nat.eqb_spec k i); [contradiction|reflexivity].
        - intros k Hkn' Hk1 Hne. apply A1; [exact Hkn'|]. rewrite Hrem in Hk1. tauto.
        - intros k Hk1. apply C1, Hrem, Hk1. }
      assert (Hd : x' i - y i = (lam - lam') * kap) by (rewrite Hxi', Hyi; ring). rewrite Hd in EK.
      destruct (bil_pos (fun k => x' k - y k)) as [Hz0|Hp].
      { specialize (Hz0 i Hin). cbn in Hz0. rewrite Hd in Hz0. apply Rmult_integral in Hz0. destruct Hz0; lra. }
      unfold side, upd. rewrite Nat.eqb_refl. destruct (Rlt_dec 0 kap) as [Hkp|Hkn'].
      + right. split; [exact Hbi|]. assert (0 < (lam - lam') * kap) by (apply Rmult_lt_0_compat; lra). nra.
      + left. split; [exact Hbi|]. assert (0 < (lam - lam') * - kap) by (apply Rmult_lt_0_compat; lra). nra. }
  Qed.

  (** candidates of free assets are never above the current value *)
  Theorem in_cand_upto : forall F b L i l bi, Inv F b (Some L) -> In i F -> in_cand F b i (Some (l, bi)) -> l <= L.
  Proof.
    intros F b L i l bi [HF [_ [_ [X [G [HX [Hbox _]]]]]]] Hi [kap [Hk [Hbi Hc]]]. specialize (Hbox i Hi). pose proof (Hc _ _ _ HX) as E.
    destruct (Rlt_dec 0 kap) as [Hp|Hp].
    - assert (0 <= (L - l) * kap) by lra. apply Rnot_lt_le. intros Hlt. assert ((L - l) * kap < 0) by nra. lra.
    - assert (0 <= (L - l) * - kap) by lra. apply Rnot_lt_le. intros Hlt. assert ((L - l) * - kap < 0) by nra. lra.
  Qed.

  (** ** Optimality conditions are sufficient *)
  Theorem valid_optimal : forall F b lam x g, sol F b lam x g -> inbox F x -> sides F b lam x g ->
    (forall k, (k < n)%nat -> ~ In k F -> b k = lb k \/ b k = ub k) ->
    (forall i, (i < n)%nat -> lb i <= x i <= ub i) /\
    forall v, sumn n v = 1 -> (forall i, (i < n)%nat -> lb i <= v i <= ub i) ->
      bil n S x x / 2 - lam * sumn n (fun i => x i * mu i) <= bil n S v v / 2 - lam * sumn n (fun i => v i * mu i).
  Proof.
    intros F b lam x g [A [B C]] Hbox Hs Hb. split.
    { intros i Hi. destruct (in_dec Nat.eq_dec i F) as [Hin|Hin]; [apply Hbox, Hin|]. rewrite A by assumption.
      specialize (Hbounds i Hi). destruct (Hb i Hi Hin); lra. }
    intros v Hv Hvb. set (d := fun i => v i - x i).
    assert (E1 : bil n S v v = bil n S x x + 2 * 1 * bil n S x d + 1 * 1 * bil n S d d).
    { rewrite <- (bil_line n S x d 1 Ssym). apply bil_ext; intros i _; unfold d; ring. }
    assert (E2 : bil n S x d = sumn n (fun i => d i * ap x i)) by (rewrite bil_sym by exact Ssym; reflexivity).
    assert (E3 : sumn n (fun i => d i * ap x i) - lam * sumn n (fun i => v i * mu i) + lam * sumn n (fun i => x i * mu i) = sumn n (fun i => d i * nu lam x g i)).
    { unfold nu. rewrite <- !sumn_scal.
      rewrite (sumn_ext n (fun i => d i * (ap x i - lam * mu i - g)) (fun i => (d i * ap x i - lam * (v i * mu i) + lam * (x i * mu i)) - g * d i)) by (intros i _; unfold d; ring).
      assert (Ed : sumn n d = 0) by (unfold d; rewrite sumn_minus, Hv, B; ring).
      rewrite sumn_minus, sumn_plus, sumn_minus, (sumn_scal n g d), Ed. ring. }
    assert (E4 : 0 <= sumn n (fun i => d i * nu lam x g i)).
    { apply sumn_nonneg. intros i Hi. destruct (in_dec Nat.eq_dec i F) as [Hin|Hin].
      - specialize (C i Hin). unfold nu. replace (ap x i - lam * mu i - g) with 0 by lra. lra.
      - specialize (Hvb i Hi). unfold d. rewrite A by assumption. destruct (Hs i Hi Hin) as [[Eb Hnu]|[Eb Hnu]]; rewrite Eb.
        + apply Rmult_le_pos; lra.
        + replace ((v i - ub i) * nu lam x g i) with ((ub i - v i) * - nu lam x g i) by ring. apply Rmult_le_pos; lra. }
    assert (E5 : 0 <= bil n S d d) by (destruct (bil_pos d) as [Hz|Hp]; [rewrite bil_zero by exact Hz; lra|lra]). lra.
  Qed.
End Path.
