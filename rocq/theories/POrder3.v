(** * Assets in another order: hierarchical risk parity gives other weights (C128) *)
From Coq Require Import ZArith List String Bool Reals Lra Lia Arith Permutation.
From Verif Require Import Num Py RBase PyLemmas MBase MFrame MHRP SLin SHRP SHRP2 SHRP3 SBase Sums PFrame PHRP PHRP2 PHRP5 PPerm2 SOrder.
From Verif Require PRisk.
Import ListNotations.
Local Open Scope R_scope.
Notation len := List.length.

(** ** Five assets: C and D behave alike, E follows them, and A and B form a pair of their own *)
Definition hA := LStr "A". Definition hB := LStr "B". Definition hC := LStr "C". Definition hD := LStr "D". Definition hE := LStr "E".
Definition five := [hA; hB; hC; hD; hE].
Definition five' := [hA; hB; hD; hC; hE].
Definition number (t : label) : nat := if label_eqb t hA then 0 else if label_eqb t hB then 1 else if label_eqb t hC then 2 else if label_eqb t hD then 3 else 4.
Definition five_rho : list (list R) :=
  [[1; 2/5; 0; 0; 0]; [2/5; 1; 0; 0; 0]; [0; 0; 1; 4/5; 3/5]; [0; 0; 4/5; 1; 3/5]; [0; 0; 3/5; 3/5; 1]].
Definition five_cov (t u : label) : R := nth (number u) (nth (number t) five_rho []) 0.
Definition five_link : list (nat * nat * nat) := [(2, 3, 2); (4, 5, 3); (0, 1, 2); (6, 7, 5)]%nat.
Definition five_distance (t u : label) : R := correlation_distance (correlation_of five_cov t u).

Ltac names_cases H := cbn [five five' In] in H; repeat destruct H as [H|H]; try contradiction; subst.
Lemma five_nodup : NoDup five. Proof. repeat constructor; cbn; intuition discriminate. Qed.
Lemma five_nodup' : NoDup five'. Proof. repeat constructor; cbn; intuition discriminate. Qed.
Lemma five_perm : Permutation five five'.
Proof. unfold five, five'. do 2 apply perm_skip. apply perm_swap. Qed.
Ltac entry_of := match goal with |- context [five_cov ?t ?u] => first
  [ change (five_cov t u) with 1 | change (five_cov t u) with 0 | change (five_cov t u) with (2/5) | change (five_cov t u) with (4/5) | change (five_cov t u) with (3/5) ] end.
Lemma five_nonneg : forall t u, 0 <= five_cov t u.
Proof.
  intros t u. unfold five_cov. destruct (Nat.lt_ge_cases (number t) 5) as [Ht|Ht].
  2:{ rewrite (nth_overflow five_rho) by exact Ht. destruct (number u); cbn; lra. }
  destruct (Nat.lt_ge_cases (number u) 5) as [Hu|Hu].
  - destruct (number t) as [|[|[|[|[|]]]]]; try lia; destruct (number u) as [|[|[|[|[|]]]]]; try lia; cbn; lra.
  - rewrite nth_overflow; [lra|]. destruct (number t) as [|[|[|[|[|]]]]]; try lia; exact Hu.
Qed.
Lemma five_one : forall t, five_cov t t = 1.
Proof. intros t. unfold five_cov, number. repeat destruct (label_eqb t _); reflexivity. Qed.
Lemma five_risk : forall l, positive_risk five_cov l.
Proof.
  intros l sub x Hne _ _ Hx. unfold variance. destruct sub as [|t sub]; [congruence|]. cbn [map total].
  assert (P : forall a b, In a (t :: sub) -> In b (t :: sub) -> 0 <= x a * five_cov a b * x b).
  { intros a b Ha Hb. apply Hx in Ha. apply Hx in Hb. pose proof (five_nonneg a b). assert (0 <= x a * five_cov a b) by nra. nra. }
  assert (T : forall a m, In a (t :: sub) -> incl m (t :: sub) -> 0 <= total (map (fun u => x a * five_cov a u * x u) m)).
  { intros a m Ha Hm. apply PRisk.total_nonneg. apply Forall_forall. intros v Hv. apply in_map_iff in Hv as (u & <- & Hu). apply P; auto. }
  assert (T0 : 0 < x t * five_cov t t * x t) by (rewrite five_one; specialize (Hx t (or_introl eq_refl)); nra).
  pose proof (T t sub (or_introl eq_refl) (incl_tl _ (incl_refl _))) as T1.
  assert (T2 : 0 <= total (map (fun t0 => x t0 * five_cov t0 t * x t + total (map (fun u => x t0 * five_cov t0 u * x u) sub)) sub)).
  { apply PRisk.total_nonneg. apply Forall_forall. intros v Hv. apply in_map_iff in Hv as (a & <- & Ha). pose proof (P a t (or_intror Ha) (or_introl eq_refl)). pose proof (T a sub (or_intror Ha) (incl_tl _ (incl_refl _))). lra. }
  lra.
Qed.

Lemma rounded_tenths : forall a y, rounded 6 (IZR a / 10) y -> y = IZR a / 10.
Proof.
  intros a y (k & E & H & _). change (10 ^ 6)%Z with 1000000%Z in *. assert (k = (a * 100000)%Z).
  { assert (B : Rabs (IZR (a * 100000) - IZR k) < 1). { replace (IZR a / 10 * 1000000) with (IZR (a * 100000)) in H by (rewrite mult_IZR; lra). lra. }
    rewrite <- minus_IZR, <- abs_IZR in B. apply lt_IZR in B. lia. }
  subst k. rewrite mult_IZR in E. lra.
Qed.
Lemma five_correlation : forall t u, correlation_of five_cov t u = five_cov t u.
Proof. intros t u. unfold correlation_of. rewrite !five_one, sqrt_1. field. Qed.
Lemma five_tenths : forall t u, exists a, five_cov t u = IZR a / 10.
Proof.
  intros t u. unfold five_cov, number. repeat destruct (label_eqb t _); repeat destruct (label_eqb u _); cbn [nth five_rho];
    first [exists 10%Z; lra|exists 4%Z; lra|exists 0%Z; lra|exists 8%Z; lra|exists 6%Z; lra].
Qed.
Lemma five_rounded : forall t u y, rounded 6 (correlation_of five_cov t u) y -> y = correlation_of five_cov t u.
Proof. intros t u y. rewrite five_correlation. destruct (five_tenths t u) as (a & ->). apply rounded_tenths. Qed.
Lemma pair_distances_same : forall g h l, (forall t u, In t l -> In u l -> g t u = h t u) -> pair_distances g l = pair_distances h l.
Proof.
  intros g h. induction l as [|t l IH]; intros E; [reflexivity|]. cbn [pair_distances]. f_equal.
  - apply map_ext_in. intros u Hu. apply E; [left; reflexivity|right; exact Hu].
  - apply IH. intros a b Ha Hb. apply E; right; assumption.
Qed.
(** C and D are alike: the distances between the assets are the same list in both orders *)
Lemma five_same_distances : pair_distances five_distance five' = pair_distances five_distance five.
Proof. unfold five_distance. cbn [pair_distances five five' map app]. rewrite !five_correlation. reflexivity. Qed.

(** ** Its linkage *)
Lemma five_valid : valid_linkage 5 five_link.
Proof.
  split; [lia|]. split; [reflexivity|]. split.
  - exists 1%nat, 1%nat. repeat split. exists 1%nat, 2%nat. repeat split. exists 1%nat, 1%nat. repeat split. exists 3%nat, 2%nat. repeat split.
  - repeat constructor; cbn; intuition discriminate.
Qed.
Definition below (i : nat) : list nat := match i with 5 => [2; 3] | 6 => [4; 2; 3] | 7 => [0; 1] | 8 => [4; 2; 3; 0; 1] | _ => [i] end%nat.
Lemma five_below : forall i l, gathered 5 five_link i l -> l = below i.
Proof.
  intros i l H. induction H as [i Hi|k a b s la lb Hk Ha IHa Hb IHb].
  - destruct i as [|[|[|[|[|]]]]]; try lia; reflexivity.
  - subst la lb. destruct k as [|[|[|[|k]]]]; cbn in Hk; try (injection Hk as <- <- <-; reflexivity). destruct k; discriminate Hk.
Qed.
Lemma below_gathered : forall i, (i < 9)%nat -> gathered 5 five_link i (below i).
Proof.
  assert (G : forall i, (i < 5)%nat -> gathered 5 five_link i (below i)) by (intros i Hi; destruct i as [|[|[|[|[|]]]]]; try lia; apply gathered_one; lia).
  assert (G5 : gathered 5 five_link 5 (below 5)) by (apply (gathered_two 5 five_link 0 2 3 2 [2%nat] [3%nat]); [reflexivity|apply (G 2%nat); lia|apply (G 3%nat); lia]).
  assert (G6 : gathered 5 five_link 6 (below 6)) by (apply (gathered_two 5 five_link 1 4 5 3 [4%nat] [2%nat; 3%nat]); [reflexivity|apply (G 4%nat); lia|exact G5]).
  assert (G7 : gathered 5 five_link 7 (below 7)) by (apply (gathered_two 5 five_link 2 0 1 2 [0%nat] [1%nat]); [reflexivity|apply (G 0%nat); lia|apply (G 1%nat); lia]).
  assert (G8 : gathered 5 five_link 8 (below 8)) by (apply (gathered_two 5 five_link 3 6 7 5 [4; 2; 3]%nat [0; 1]%nat); [reflexivity|exact G6|exact G7]).
  intros i Hi. destruct i as [|[|[|[|[|[|[|[|[|]]]]]]]]]; try lia; try assumption; apply G; lia.
Qed.
Definition distance_at (i j : nat) : R := five_distance (nth i five (LInt 0)) (nth j five (LInt 0)).
Lemma distance_sqrt : forall r, 0 <= r <= 1 -> correlation_distance r = sqrt ((1 - r) / 2).
Proof. intros r H. unfold correlation_distance. rewrite Rmin_right by lra. rewrite Rmax_right by lra. reflexivity. Qed.
Lemma distance_table : forall i j, (i < 5)%nat -> (j < 5)%nat -> distance_at i j = sqrt ((1 - nth j (nth i five_rho []) 0) / 2).
Proof.
  intros i j Hi Hj. unfold distance_at, five_distance. rewrite five_correlation. unfold five_cov.
  assert (N : forall k, (k < 5)%nat -> number (nth k five (LInt 0)) = k) by (intros k Hk; destruct k as [|[|[|[|[|]]]]]; try lia; reflexivity).
  rewrite !N by assumption. apply distance_sqrt.
  destruct i as [|[|[|[|[|]]]]]; try lia; destruct j as [|[|[|[|[|]]]]]; try lia; cbn; lra.
Qed.
Lemma five_single : only_single_linkage 5 distance_at five_link.
Proof.
  assert (S1 : sqrt ((1 - 4/5) / 2) < sqrt ((1 - 3/5) / 2)) by (apply sqrt_lt_1; lra).
  assert (S2 : sqrt ((1 - 3/5) / 2) < sqrt ((1 - 2/5) / 2)) by (apply sqrt_lt_1; lra).
  assert (S3 : sqrt ((1 - 2/5) / 2) < sqrt ((1 - 0) / 2)) by (apply sqrt_lt_1; lra).
  intros k a b s Hk. 
  assert (C : (k = 0 /\ a = 2 /\ b = 3 \/ k = 1 /\ a = 4 /\ b = 5 \/ k = 2 /\ a = 0 /\ b = 1 \/ k = 3 /\ a = 6 /\ b = 7)%nat).
  { destruct k as [|[|[|[|k]]]]; cbn in Hk; try (injection Hk as <- <- <-; tauto). destruct k; discriminate Hk. }
  assert (U : forall k' i, unmerged 5 five_link k' i <-> (i < 5 + k')%nat /\ ((0 < k')%nat -> i <> 2%nat /\ i <> 3%nat) /\ ((1 < k')%nat -> i <> 4%nat /\ i <> 5%nat) /\ ((2 < k')%nat -> i <> 0%nat /\ i <> 1%nat) /\ ((3 < k')%nat -> i <> 6%nat /\ i <> 7%nat)).
  { intros k' i. unfold unmerged. split.
    - intros [L H]. split; [exact L|]. split; [intros Q; exact (H 0%nat _ _ _ Q eq_refl)|]. split; [intros Q; exact (H 1%nat _ _ _ Q eq_refl)|]. split; [intros Q; exact (H 2%nat _ _ _ Q eq_refl)|intros Q; exact (H 3%nat _ _ _ Q eq_refl)].
    - intros (L & H0 & H1 & H2 & H3). split; [exact L|]. intros m a' b' s' Hm E.
      destruct m as [|[|[|[|m]]]]; cbn in E; try (injection E as <- <- <-; auto). destruct m; discriminate E. }
  assert (W : (a < b)%nat /\ unmerged 5 five_link k a /\ unmerged 5 five_link k b /\ (a < 9)%nat /\ (b < 9)%nat).
  { rewrite !U. destruct C as [(-> & -> & ->)|[(-> & -> & ->)|[(-> & -> & ->)|(-> & -> & ->)]]]; lia. }
  destruct W as (W1 & W2 & W3 & W4 & W5). split; [exact W1|]. split; [exact W2|]. split; [exact W3|].
  exists (below a), (below b).
  assert (Q : exists d, nearest distance_at (below a) (below b) d /\ (forall a' b' d', (a' < b')%nat -> unmerged 5 five_link k a' -> unmerged 5 five_link k b' -> (a', b') <> (a, b) ->
      nearest distance_at (below a') (below b') d' -> d < d')).
  2:{ destruct Q as (d & Q1 & Q2). exists d. split; [apply below_gathered; exact W4|]. split; [apply below_gathered; exact W5|]. split; [exact Q1|].
      intros a' b' la' lb' d' L' U1 U2 Ne G1 G2 Nr. apply five_below in G1. apply five_below in G2. subst la' lb'. eapply Q2; eassumption. }
  Ltac table := rewrite !distance_table by lia; cbn [nth five_rho].
  Ltac near := split; [|let x := fresh "x" in let y := fresh "y" in intros x y Hx Hy; cbn [below In] in Hx, Hy; repeat destruct Hx as [Hx|Hx]; try contradiction; subst x; repeat destruct Hy as [Hy|Hy]; try contradiction; subst y; table; lra].
  destruct C as [(-> & -> & ->)|[(-> & -> & ->)|[(-> & -> & ->)|(-> & -> & ->)]]].
  - exists (sqrt ((1 - 4/5) / 2)). split.
    { near. exists 2%nat, 3%nat. cbn [below In]. split; [auto|]. split; [auto|]. table. reflexivity. }
    intros a' b' d' L U1 U2 Ne [(x & y & Hx & Hy & ->) _]. apply U in U1. apply U in U2.
    destruct a' as [|[|[|[|[|]]]]]; try lia; destruct b' as [|[|[|[|[|]]]]]; try lia; try congruence; cbn [below In] in Hx, Hy; destruct Hx as [<-|[]]; destruct Hy as [<-|[]]; table; lra.
  - exists (sqrt ((1 - 3/5) / 2)). split.
    { near. exists 4%nat, 2%nat. cbn [below In]. split; [auto|]. split; [auto|]. table. reflexivity. }
    intros a' b' d' L U1 U2 Ne [(x & y & Hx & Hy & ->) _]. apply U in U1. apply U in U2.
    destruct a' as [|[|[|[|[|[|]]]]]]; try lia; destruct b' as [|[|[|[|[|[|]]]]]]; try lia; try congruence; cbn [below In] in Hx, Hy;
      repeat destruct Hx as [Hx|Hx]; try contradiction; subst x; repeat destruct Hy as [Hy|Hy]; try contradiction; subst y; table; lra.
  - exists (sqrt ((1 - 2/5) / 2)). split.
    { near. exists 0%nat, 1%nat. cbn [below In]. split; [auto|]. split; [auto|]. table. reflexivity. }
    intros a' b' d' L U1 U2 Ne [(x & y & Hx & Hy & ->) _]. apply U in U1. apply U in U2.
    destruct a' as [|[|[|[|[|[|[|]]]]]]]; try lia; destruct b' as [|[|[|[|[|[|[|]]]]]]]; try lia; try congruence; cbn [below In] in Hx, Hy;
      repeat destruct Hx as [Hx|Hx]; try contradiction; subst x; repeat destruct Hy as [Hy|Hy]; try contradiction; subst y; table; lra.
  - exists (sqrt ((1 - 0) / 2)). split.
    { near. exists 4%nat, 0%nat. cbn [below In]. split; [auto|]. split; [auto|]. table. reflexivity. }
    intros a' b' d' L U1 U2 Ne [(x & y & Hx & Hy & ->) _]. apply U in U1. apply U in U2.
    destruct a' as [|[|[|[|[|[|[|[|]]]]]]]]; try lia; destruct b' as [|[|[|[|[|[|[|[|]]]]]]]]; try lia; congruence.
Qed.

(** ** Its weights *)
Ltac cut_list H := let E := fresh "E" in inversion H as [? ? ? E|? ? ? ? ? ? ? ? ? E]; subst.
Lemma cut_two : forall {X} (l1 l2 : list X) a b l, l1 ++ l2 = a :: b :: l -> len l1 = 1%nat -> l1 = [a] /\ l2 = b :: l.
Proof. intros X l1 l2 a b l E L. destruct l1 as [|x [|]]; try discriminate L. cbn [app] in E. injection E as -> ->. auto. Qed.
Lemma bisected_one : forall share acc t d, bisected share acc [t] d -> d = [(t, acc)].
Proof.
  intros share acc t d H. inversion H as [a l Hl|a l1 l2 d1 d2 Hl]; subst; [reflexivity|].
  match goal with E : _ ++ _ = [t] |- _ => rewrite E in Hl end. cbn [List.length] in Hl. lia.
Qed.
Lemma bisected_pair : forall share acc t u d, bisected share acc [t; u] d -> d = [(t, acc * share [t] [u]); (u, acc * (1 - share [t] [u]))].
Proof.
  intros share acc t u d H. inversion H as [a l Hl|a l1 l2 d1 d2 Hl L B1 B2]; subst; [cbn [List.length] in Hl; lia|].
  match goal with E : _ ++ _ = [t; u] |- _ => rewrite E in L; destruct (cut_two _ _ _ _ _ E L) as [-> ->] end.
  apply bisected_one in B1. apply bisected_one in B2. subst. reflexivity.
Qed.
Lemma bisected_five : forall share acc a b c d e w, bisected share acc [a; b; c; d; e] w ->
  w = [(a, acc * share [a; b] [c; d; e] * share [a] [b]); (b, acc * share [a; b] [c; d; e] * (1 - share [a] [b]));
       (c, acc * (1 - share [a; b] [c; d; e]) * share [c] [d; e]);
       (d, acc * (1 - share [a; b] [c; d; e]) * (1 - share [c] [d; e]) * share [d] [e]);
       (e, acc * (1 - share [a; b] [c; d; e]) * (1 - share [c] [d; e]) * (1 - share [d] [e]))].
Proof.
  intros share acc a b c d e w H. inversion H as [a0 l Hl|a0 l1 l2 d1 d2 Hl L B1 B2]; subst; [cbn [List.length] in Hl; lia|].
  match goal with E : _ ++ _ = [a; b; c; d; e] |- _ => rewrite E in L; destruct l1 as [|x1 [|x2 [|]]]; try discriminate L; cbn [app] in E; injection E as -> -> -> end.
  apply bisected_pair in B1. subst d1. inversion B2 as [a0 l Hl'|a0 l1 l2 e1 e2 Hl' L' B3 B4]; subst; [cbn [List.length] in Hl'; lia|].
  match goal with E : _ ++ _ = [c; d; e] |- _ => rewrite E in L'; destruct (cut_two _ _ _ _ _ E L') as [-> ->] end.
  apply bisected_one in B3. apply bisected_pair in B4. subst. reflexivity.
Qed.
Ltac five_eval := unfold first_share, cluster_variance, variance, inverse_variance; cbn [map total];
  repeat match goal with |- context [five_cov ?t ?u] => first
  [ change (five_cov t u) with 1 | change (five_cov t u) with 0 | change (five_cov t u) with (2/5) | change (five_cov t u) with (4/5) | change (five_cov t u) with (3/5) ] end.
Lemma share_first : forall t u, (t = hC /\ u = hD \/ t = hD /\ u = hC) -> first_share five_cov [hE; t] [u; hA; hB] = 19/55.
Proof. intros t u [[-> ->]|[-> ->]]; five_eval; field. Qed.
Lemma share_pair : forall t u, t = hE -> (u = hC \/ u = hD) -> first_share five_cov [t] [u] = 1/2.
Proof. intros t u -> [->| ->]; five_eval; field. Qed.
Lemma share_third : forall u, (u = hC \/ u = hD) -> first_share five_cov [u] [hA; hB] = 7/17.
Proof. intros u [->| ->]; five_eval; field. Qed.

Lemma five_run : forall lk names, names = five \/ names = five' -> linkage_valid lk "single" 5 -> lk "single"%string (pair_distances five_distance five) = five_link ->
  exists h0 h d, hrp_init HRetNone (HCovFrame (labelled names five_cov)) = Ok h0 /\ hrp_optimize lk "single" h0 = (h, Ok d) /\
    dget (nth 2 names (LInt 0)) d = Some (19/110) /\ dget (nth 3 names (LInt 0)) d = Some (252/935).
Proof.
  intros lk names Hn Hlk Hl.
  assert (Nd : NoDup names) by (destruct Hn as [-> | ->]; [exact five_nodup|exact five_nodup']).
  assert (L5 : len names = 5%nat) by (destruct Hn as [-> | ->]; reflexivity).
  destruct (optimize_cov_traced lk "single" names five_cov) as (h0 & h & d & ix & w & r & E0 & E1 & _ & Er & G & B & P); try assumption.
  { cbn; tauto. } { lia. } { apply five_risk. } { rewrite L5. exact Hlk. }
  assert (Ed : pair_distances (fun t u => correlation_distance (r t u)) names = pair_distances five_distance five).
  { transitivity (pair_distances five_distance names).
    - apply pair_distances_same. intros t u Ht Hu. unfold five_distance. f_equal. apply five_rounded, Er; assumption.
    - destruct Hn as [-> | ->]; [reflexivity|apply five_same_distances]. }
  cbv zeta in G. rewrite Ed, Hl, L5 in G. apply five_below in G. subst ix.
  exists h0, h, d. split; [exact E0|]. split; [exact E1|].
  assert (W : w = [(hE, 19/110); (nth 2 names (LInt 0), 19/110); (nth 3 names (LInt 0), 252/935); (hA, 36/55 * (10/17) * first_share five_cov [hA] [hB]); (hB, 36/55 * (10/17) * (1 - first_share five_cov [hA] [hB]))]).
  { destruct Hn as [-> | ->]; cbn [below map nth five five' Nat.mul Nat.add Nat.sub] in B |- *; apply bisected_five in B; rewrite B;
      rewrite share_first by tauto; rewrite share_pair by tauto; rewrite share_third by tauto; repeat apply f_equal2; try reflexivity; try apply f_equal2; try reflexivity; lra. }
  assert (Nw : NoDup (map fst w)) by (subst w; destruct Hn as [-> | ->]; repeat constructor; cbn; intuition discriminate).
  assert (Nd' : NoDup (map fst d)) by (eapply Permutation_NoDup; [apply Permutation_map, Permutation_sym, P|exact Nw]).
  split; (apply In_dget; [exact Nd'|]; apply (Permutation_in _ (Permutation_sym P)); subst w; cbn [In]; tauto).
Qed.
