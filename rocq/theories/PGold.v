(** * The golden section search of CLA.max_sharpe *)
From Coq Require Import List Reals Lra Lia ZArith.
From Verif Require Import Num Py MBase MCLA SLin SCLA SGold RBase PyLemmas PCLA2.
Import ListNotations.
Local Open Scope R_scope.

(** the constant 0.618033989 is not exactly the golden section, so a kept point drifts away from its ideal place *)
Definition gs_d : R := gs_r * gs_r + gs_r - 1.
Lemma gs_d_small : 0 < gs_d <= 6 / 10000000000.
Proof. unfold gs_d, gs_r. lra. Qed.

(** relative places of the inner points: one is exact, the other off by at most [E] *)
Definition placed (E W : R) (s : gs) : Prop :=
  exists w p q, 0 < w /\ w <= W /\ gs_b s = gs_a s + w /\ gs_x1 s = gs_a s + p * w /\ gs_x2 s = gs_a s + q * w /\
    ((q = gs_r /\ Rabs (p - gs_c) <= E) \/ (p = gs_c /\ Rabs (q - gs_r) <= E)).

Lemma placed_order : forall E W s, placed E W s -> E <= 1 / 5 -> gs_a s < gs_x1 s /\ gs_x1 s < gs_x2 s /\ gs_x2 s < gs_b s.
Proof.
  intros E W s [w [p [q [Hw [HW [Hb [H1 [H2 H]]]]]]]] HE. rewrite Hb, H1, H2. unfold gs_c, gs_r in H.
  assert (0 < p /\ p < q /\ q < 1) as [Hp [Hq Hr]].
  { destruct H as [[-> H]|[-> H]]; apply Rabs_le_inv in H || (unfold Rabs in H; destruct (Rcase_abs _) in H); lra. }
  split; [nra|split; nra].
Qed.
Lemma quot_le : forall x y z, 0 < y -> x <= z * y -> x / y <= z.
Proof. intros x y z Hy H. apply Rmult_le_reg_r with y; [exact Hy|]. unfold Rdiv. rewrite Rmult_assoc, Rinv_l by lra. lra. Qed.
Lemma quot_ge : forall x y z, 0 < y -> z * y <= x -> z <= x / y.
Proof. intros x y z Hy H. apply Rmult_le_reg_r with y; [exact Hy|]. unfold Rdiv. rewrite Rmult_assoc, Rinv_l by lra. lra. Qed.
Lemma Rabs_between : forall x e, - e <= x -> x <= e -> Rabs x <= e.
Proof. intros. apply Rabs_le. lra. Qed.
Lemma Rabs_unpack : forall x e, Rabs x <= e -> - e <= x <= e.
Proof. intros x e H. pose proof (Rle_abs x). pose proof (Rle_abs (- x)). rewrite Rabs_Ropp in *. lra. Qed.

(** the error after one more step *)
Definition next_err (E : R) : R := (E + gs_d) / gs_r.

Lemma step_right : forall E W a b x1 x2 w p q, 0 <= E -> E <= 1 / 5 -> 0 < w -> w <= W -> b = a + w -> x1 = a + p * w -> x2 = a + q * w ->
  ((q = gs_r /\ Rabs (p - gs_c) <= E) \/ (p = gs_c /\ Rabs (q - gs_r) <= E)) ->
  exists w' p' q', 0 < w' /\ w' <= (gs_r + E) * W /\ b = x1 + w' /\ x2 = x1 + p' * w' /\ gs_c * x1 + gs_r * b = x1 + q' * w' /\
    q' = gs_r /\ Rabs (p' - gs_c) <= next_err E.
Proof.
  intros E W a b x1 x2 w p q HE0 HE Hw HW -> -> -> H.
  assert (P : Rabs (p - gs_c) <= E).
  { destruct H as [[_ H]|[-> _]]; [exact H|]. replace (gs_c - gs_c) with 0 by ring. rewrite Rabs_R0. exact HE0. }
  apply Rabs_unpack in P. pose proof gs_d_small as Hd.
  exists ((1 - p) * w), ((q - p) / (1 - p)), gs_r.
  assert (Hp : 0 < 1 - p) by (unfold gs_c, gs_r in P; lra).
  repeat match goal with |- _ /\ _ => split end.
  - apply Rmult_lt_0_compat; assumption.
  - apply Rmult_le_compat; unfold gs_c in P; lra.
  - ring.
  - field. lra.
  - unfold gs_c. ring.
  - reflexivity.
  - unfold next_err. destruct H as [[-> _]|[-> H]].
    + set (e := p - gs_c) in *. assert (Ep : p = gs_c + e) by (unfold e; ring). clearbody e. subst p.
      replace ((gs_r - (gs_c + e)) / (1 - (gs_c + e)) - gs_c) with ((gs_d - e * gs_r) / (gs_r - e))
        by (unfold gs_d, gs_c; field; unfold gs_c in Hp; lra).
      assert (He : 0 < gs_r - e) by (unfold gs_c in Hp; lra).
      assert (B : (E + gs_d) * (gs_r - E) >= gs_r * (gs_d + gs_r * E)).
      { replace ((E + gs_d) * (gs_r - E)) with (gs_r * (gs_d + gs_r * E) + E * (gs_r - gs_r * gs_r - gs_d - E)) by ring.
        assert (0 <= gs_r - gs_r * gs_r - gs_d - E) by (unfold gs_d, gs_r; lra). nra. }
      pose proof gs_r_range as Hr.
      assert (B2 : (E + gs_d) / gs_r * (gs_r - E) >= gs_d + gs_r * E).
      { apply Rle_ge. replace ((E + gs_d) / gs_r * (gs_r - E)) with (((E + gs_d) * (gs_r - E)) / gs_r) by (field; lra). apply quot_ge; lra. }
      assert (K : 0 <= (E + gs_d) / gs_r) by (apply quot_ge; lra).
      apply Rabs_between.
      * apply quot_ge; [exact He|]. nra.
      * apply quot_le; [exact He|]. nra.
    + apply Rabs_unpack in H. set (e := q - gs_r) in *. assert (Ep : q = gs_r + e) by (unfold e; ring). clearbody e. subst q.
      pose proof gs_r_range as Hr.
      replace ((gs_r + e - gs_c) / (1 - gs_c) - gs_c) with ((gs_d + e) / gs_r) by (unfold gs_d, gs_c; field; lra).
      assert (K : 0 <= (E + gs_d) / gs_r) by (apply quot_ge; lra).
      apply Rabs_between.
      * apply quot_ge; [lra|]. unfold Rdiv. rewrite <- Ropp_mult_distr_l, Rmult_assoc, Rinv_l by lra. lra.
      * apply quot_le; [lra|]. unfold Rdiv. rewrite Rmult_assoc, Rinv_l by lra. lra.
Qed.
Lemma step_left : forall E W a b x1 x2 w p q, 0 <= E -> E <= 1 / 5 -> 0 < w -> w <= W -> b = a + w -> x1 = a + p * w -> x2 = a + q * w ->
  ((q = gs_r /\ Rabs (p - gs_c) <= E) \/ (p = gs_c /\ Rabs (q - gs_r) <= E)) ->
  exists w' p' q', 0 < w' /\ w' <= (gs_r + E) * W /\ x2 = a + w' /\ gs_r * a + gs_c * x2 = a + p' * w' /\ x1 = a + q' * w' /\
    p' = gs_c /\ Rabs (q' - gs_r) <= next_err E.
Proof.
  intros E W a b x1 x2 w p q HE0 HE Hw HW Hb H1 H2 H.
  (* the mirror image of the other step *)
  destruct (step_right E W (- b) (- a) (- x2) (- x1) w (1 - q) (1 - p) HE0 HE Hw HW) as [w' [p' [q' [A1 [A2 [A3 [A4 [A5 [A6 A7]]]]]]]]].
  - lra.
  - subst. ring.
  - subst. ring.
  - destruct H as [[-> H]|[-> H]]; [right|left]; split; try (unfold gs_c; ring).
    + replace (1 - p - gs_r) with (- (p - gs_c)) by (unfold gs_c; ring). rewrite Rabs_Ropp. exact H.
    + replace (1 - q - gs_c) with (- (q - gs_r)) by (unfold gs_c; ring). rewrite Rabs_Ropp. exact H.
  - exists w', gs_c, (1 - p'). subst q'. repeat match goal with |- _ /\ _ => split end; try assumption; try reflexivity; try lra.
    + unfold gs_c in *. lra.
    + replace (1 - p' - gs_r) with (- (p' - gs_c)) by (unfold gs_c; ring). rewrite Rabs_Ropp. exact A7.
Qed.

Section Search.
  Context (obj : R -> res R) (h : R -> R).
  Hypothesis Hobj : forall x, 0 <= x <= 1 -> obj x = Ok (h x).
  Hypothesis Hh : peaked 0 1 h.

  (** nothing outside the bracket is better than the better of the inner points *)
  Definition covers (s : gs) : Prop := forall y, 0 <= y <= 1 -> y < gs_a s \/ gs_b s < y -> h y <= Rmax (h (gs_x1 s)) (h (gs_x2 s)).
  Definition state (E W : R) (s : gs) : Prop :=
    placed E W s /\ 0 <= gs_a s /\ gs_b s <= 1 /\ gs_f1 s = -1 * h (gs_x1 s) /\ gs_f2 s = -1 * h (gs_x2 s) /\ covers s.

  Lemma state_step : forall E W s s', 0 <= E -> E <= 1 / 5 -> state E W s -> gs_step obj s = Ok s' ->
    state (next_err E) ((gs_r + E) * W) s' /\ gs_a s <= gs_a s' /\ gs_b s' <= gs_b s /\
      Rmax (h (gs_x1 s)) (h (gs_x2 s)) <= Rmax (h (gs_x1 s')) (h (gs_x2 s')).
  Proof.
    intros E W s s' HE0 HE [HP [Ha [Hb [F1 [F2 HC]]]]] E1. destruct (placed_order E W s HP HE) as [O1 [O2 O3]].
    destruct HP as [w [p [q [Hw [HW [Hbw [H1 [H2 H]]]]]]]]. unfold gs_step in E1. rewrite F1, F2 in E1.
    destruct (Rltb (-1 * h (gs_x2 s)) (-1 * h (gs_x1 s))) eqn:EL; rprop.
    - assert (L : h (gs_x1 s) < h (gs_x2 s)) by lra. clear EL.
      destruct (step_right E W (gs_a s) (gs_b s) (gs_x1 s) (gs_x2 s) w p q HE0 HE Hw HW Hbw H1 H2 H) as [w' [p' [q' [A1 [A2 [A3 [A4 [A5 [A6 A7]]]]]]]]].
      assert (Hr := gs_r_range).
      assert (X : 0 <= gs_c * gs_x1 s + gs_r * gs_b s <= 1) by (unfold gs_c; split; nra).
      rewrite (Hobj _ X) in E1. cbn [rbind] in E1. injection E1 as <-. unfold state, placed, covers. cbn [gs_a gs_b gs_x1 gs_x2 gs_f1 gs_f2].
      repeat match goal with |- _ /\ _ => split end; try lra.
      + exists w', p', q'. repeat match goal with |- _ /\ _ => split end; try assumption. left. split; assumption.
      + intros y Hy Hout. apply Rle_trans with (h (gs_x2 s)); [|apply Rmax_l].
        destruct Hout as [Hout|Hout].
        * destruct (Rle_dec (h y) (h (gs_x1 s))) as [|N]; [lra|].
          destruct (Hh y (gs_x1 s) (gs_x2 s)) as [Q _]; [lra|lra|lra|lra|].
          unfold Rmin in Q. destruct (Rle_dec (h y) (h (gs_x2 s))); lra.
        * apply Rle_trans with (Rmax (h (gs_x1 s)) (h (gs_x2 s))); [apply HC; auto|]. apply Rmax_lub; lra.
      + apply Rle_trans with (h (gs_x2 s)); [apply Rmax_lub; lra|apply Rmax_l].
    - assert (L : h (gs_x2 s) <= h (gs_x1 s)) by lra. clear EL.
      destruct (step_left E W (gs_a s) (gs_b s) (gs_x1 s) (gs_x2 s) w p q HE0 HE Hw HW Hbw H1 H2 H) as [w' [p' [q' [A1 [A2 [A3 [A4 [A5 [A6 A7]]]]]]]]].
      assert (Hr := gs_r_range).
      assert (X : 0 <= gs_r * gs_a s + gs_c * gs_x2 s <= 1) by (unfold gs_c; split; nra).
      rewrite (Hobj _ X) in E1. cbn [rbind] in E1. injection E1 as <-. unfold state, placed, covers. cbn [gs_a gs_b gs_x1 gs_x2 gs_f1 gs_f2].
      repeat match goal with |- _ /\ _ => split end; try lra.
      + exists w', p', q'. repeat match goal with |- _ /\ _ => split end; try assumption. right. split; assumption.
      + intros y Hy Hout. apply Rle_trans with (h (gs_x1 s)); [|apply Rmax_r].
        destruct Hout as [Hout|Hout].
        * apply Rle_trans with (Rmax (h (gs_x1 s)) (h (gs_x2 s))); [apply HC; auto|]. apply Rmax_lub; lra.
        * destruct (Rle_dec (h y) (h (gs_x1 s))) as [|N]; [lra|].
          destruct (Hh (gs_x1 s) (gs_x2 s) y) as [_ Q]; [lra|lra|lra|lra|].
          specialize (Q ltac:(lra)). unfold Rmin in Q. destruct (Rle_dec (h (gs_x1 s)) (h y)); lra.
      + apply Rle_trans with (h (gs_x1 s)); [apply Rmax_lub; lra|apply Rmax_r].
  Qed.

  (** bounds on the error and on the width, in units of 10^-16 and 10^-18, rounded up *)
  Definition next_bound (b : Z * Z) : Z * Z :=
    ((((fst b + 6000000) * 1000000000) / 618033989 + 1)%Z, ((6180339890000000 + fst b) * snd b / 10000000000000000 + 1)%Z).
  Definition bounds_at (k : nat) : Z * Z := Nat.iter k next_bound (0%Z, 1000000000000000000%Z).
  Definition err_of (b : Z * Z) : R := IZR (fst b) / IZR 10000000000000000.
  Definition width_of (b : Z * Z) : R := IZR (snd b) / IZR 1000000000000000000.
  Lemma div_up : forall x y, (0 < y)%Z -> IZR x / IZR y <= IZR (x / y + 1).
  Proof.
    intros x y Hy. assert (Hy' : 0 < IZR y) by (apply IZR_lt; exact Hy). apply quot_le; [exact Hy'|]. rewrite <- mult_IZR. apply IZR_le.
    pose proof (Z.div_mod x y ltac:(lia)). pose proof (Z.mod_pos_bound x y Hy). nia.
  Qed.
  Lemma next_err_bound : forall b, next_err (err_of b) <= err_of (next_bound b).
  Proof.
    intros [e w]. unfold next_err, err_of, next_bound. cbn [fst snd].
    pose proof (div_up ((e + 6000000) * 1000000000) 618033989 ltac:(lia)) as D. rewrite mult_IZR, plus_IZR in D.
    pose proof gs_d_small as Hd. apply quot_le; [unfold gs_r; lra|]. unfold gs_r.
    set (z := IZR ((e + 6000000) * 1000000000 / 618033989 + 1)) in *. clearbody z. lra.
  Qed.
  Lemma next_width_bound : forall b, 0 <= width_of b -> (gs_r + err_of b) * width_of b <= width_of (next_bound b).
  Proof.
    intros [e w] _. unfold width_of, err_of, next_bound. cbn [fst snd].
    pose proof (div_up ((6180339890000000 + e) * w) 10000000000000000 ltac:(lia)) as D. rewrite mult_IZR, plus_IZR in D.
    set (z := IZR ((6180339890000000 + e) * w / 10000000000000000 + 1)) in *. clearbody z.
    unfold gs_r. apply Rmult_le_reg_r with (IZR 1000000000000000000); [lra|]. unfold Rdiv. rewrite (Rmult_assoc z), Rinv_l by lra.
    lra.
  Qed.
  Lemma placed_weaken : forall E E' W W' s, E <= E' -> W <= W' -> placed E W s -> placed E' W' s.
  Proof.
    intros E E' W W' s HE HW [w [p [q [Hw [Hww [Hb [H1 [H2 H]]]]]]]]. exists w, p, q. repeat match goal with |- _ /\ _ => split end; auto; [lra|].
    destruct H as [[H H']|[H H']]; [left|right]; split; auto; lra.
  Qed.
  Definition small (k : nat) : bool := (fst (bounds_at k) <=? 2000000000000000)%Z.
  Lemma bounds_nonneg : forall k, (0 <= fst (bounds_at k) /\ 0 <= snd (bounds_at k))%Z.
  Proof.
    induction k as [|k [I1 I2]]; [cbn; lia|]. change (bounds_at (S k)) with (next_bound (bounds_at k)). destruct (bounds_at k) as [e w].
    unfold next_bound. cbn [fst snd] in *. split.
    - pose proof (Z.div_pos ((e + 6000000) * 1000000000) 618033989 ltac:(lia) ltac:(lia)). lia.
    - pose proof (Z.div_pos ((6180339890000000 + e) * w) 10000000000000000 ltac:(nia) ltac:(lia)). lia.
  Qed.
  Lemma err_nonneg : forall k, 0 <= err_of (bounds_at k).
  Proof. intros k. unfold err_of. apply quot_ge; [lra|]. rewrite Rmult_0_l. apply IZR_le. apply bounds_nonneg. Qed.
  Lemma width_nonneg : forall k, 0 <= width_of (bounds_at k).
  Proof. intros k. unfold width_of. apply quot_ge; [lra|]. rewrite Rmult_0_l. apply IZR_le. apply bounds_nonneg. Qed.
  Definition at_step (k : nat) (s : gs) : Prop := state (err_of (bounds_at k)) (width_of (bounds_at k)) s.
  Lemma at_next : forall k s s', small k = true -> at_step k s -> gs_step obj s = Ok s' ->
    at_step (S k) s' /\ gs_a s <= gs_a s' /\ gs_b s' <= gs_b s /\ Rmax (h (gs_x1 s)) (h (gs_x2 s)) <= Rmax (h (gs_x1 s')) (h (gs_x2 s')).
  Proof.
    intros k s s' Hk H E.
    assert (HE : err_of (bounds_at k) <= 1 / 5).
    { unfold small in Hk. apply Z.leb_le, IZR_le in Hk. unfold err_of. apply quot_le; [lra|]. lra. }
    destruct (state_step _ _ s s' (err_nonneg k) HE H E) as [[P S'] R']. split; [|exact R'].
    split; [|exact S']. eapply placed_weaken; [| |exact P].
    - apply (next_err_bound (bounds_at k)).
    - apply (next_width_bound (bounds_at k)). apply width_nonneg.
  Qed.
  Lemma loop_step : forall j k s s', (forall i, (k <= i < k + j)%nat -> small i = true) -> at_step k s -> gs_loop obj j s = Ok s' -> at_step (k + j) s'.
  Proof.
    induction j as [|j IH]; intros k s s' Hk H E; cbn [gs_loop] in E.
    - injection E as <-. rewrite Nat.add_0_r. exact H.
    - destruct (gs_step obj s) as [s1|e] eqn:E1; [|discriminate]. cbn [rbind] in E.
      destruct (at_next k s s1 (Hk k ltac:(lia)) H E1) as [H' _]. replace (k + S j)%nat with (S k + j)%nat by lia.
      apply (IH (S k) s1); auto. intros i Hi. apply Hk. lia.
  Qed.
  Lemma loop_split : forall i j s s', gs_loop obj (i + j) s = Ok s' -> exists s1, gs_loop obj i s = Ok s1 /\ gs_loop obj j s1 = Ok s'.
  Proof.
    induction i as [|i IH]; intros j s s' E; cbn [Nat.add gs_loop] in *.
    - exists s. auto.
    - destruct (gs_step obj s) as [s1|e]; [|discriminate]. cbn [rbind] in *. apply IH. exact E.
  Qed.
  (** whatever the places of the points are, the better one is kept *)
  Lemma best_kept : forall k a b s s', 0 <= a -> b <= 1 -> gs_inv obj a b s -> gs_loop obj k s = Ok s' ->
    Rmax (h (gs_x1 s)) (h (gs_x2 s)) <= Rmax (h (gs_x1 s')) (h (gs_x2 s')).
  Proof.
    induction k as [|k IH]; intros a b s s' Ha Hb Hi E; cbn [gs_loop] in E.
    - injection E as <-. lra.
    - destruct (gs_step obj s) as [s1|e] eqn:E1; [|discriminate]. cbn [rbind] in E.
      pose proof (gs_step_inv obj a b s s1 Hi E1) as Hi1. eapply Rle_trans; [|apply (IH a b s1 s' Ha Hb Hi1 E)].
      destruct Hi as [_ [_ [J1 [J2 [G1 G2]]]]]. rewrite Hobj in G1, G2 by lra. injection G1 as G1. injection G2 as G2.
      unfold gs_step in E1. destruct (Rltb (gs_f2 s) (gs_f1 s)) eqn:EL; rprop.
      + destruct (obj (gs_c * gs_x1 s + gs_r * gs_b s)); [|discriminate]. cbn [rbind] in E1. injection E1 as <-. cbn [gs_x1 gs_x2].
        apply Rle_trans with (h (gs_x2 s)); [apply Rmax_lub; lra|apply Rmax_l].
      + destruct (obj (gs_r * gs_a s + gs_c * gs_x2 s)); [|discriminate]. cbn [rbind] in E1. injection E1 as <-. cbn [gs_x1 gs_x2].
        apply Rle_trans with (h (gs_x1 s)); [apply Rmax_lub; lra|apply Rmax_r].
  Qed.
End Search.

Lemma exp_nat : forall k, exp (INR k) = exp 1 ^ k.
Proof.
  induction k as [|k IH]; [simpl; apply exp_0|]. rewrite S_INR, exp_plus, IH. simpl. ring.
Qed.
Lemma ln_billion : 18 <= ln 1000000000.
Proof.
  rewrite <- (ln_exp 18). left. apply ln_increasing; [apply exp_pos|]. replace 18 with (INR 18) by (simpl; lra). rewrite exp_nat.
  apply Rle_lt_trans with (3 ^ 18); [|lra]. apply pow_incr. split; [left; apply exp_pos|apply exp_le_3].
Qed.
Lemma iterations : (38 <= num_iter 0 1)%nat.
Proof.
  unfold num_iter, ceil_nat. replace (Rabs (1 - 0)) with 1 by (rewrite Rabs_right; lra).
  replace (ln (1 / 1000000000 / 1)) with (- ln 1000000000).
  2:{ rewrite <- ln_Rinv by lra. f_equal. field. }
  pose proof ln_billion as L. set (x := - (2078087 / 1000000) * - ln 1000000000).
  assert (Hx : 37 < x) by (unfold x; lra). clearbody x.
  pose proof (base_Int_part (- x)) as [B _].
  assert (H : (Int_part (- x) <= -38)%Z).
  { assert (IZR (Int_part (- x)) < IZR (-37)) by lra. apply lt_IZR in H. lia. }
  lia.
Qed.

Theorem golden_best : forall obj h x v, (forall t, 0 <= t <= 1 -> obj t = Ok (h t)) -> peaked 0 1 h ->
  golden_section obj 0 1 = Ok (x, v) -> v = h x /\ best_within acc8 0 1 h x.
Proof.
  intros obj h x v Hobj Hh E. destruct (golden_section_in obj 0 1 x v ltac:(lra) E) as [Hx Hv].
  rewrite Hobj in Hv by exact Hx. injection Hv as Hv. split; [congruence|].
  unfold golden_section in E. pose proof gs_r_range as Hr.
  rewrite Hobj in E by (unfold gs_c; lra). cbn [rbind] in E. rewrite Hobj in E by (unfold gs_c; lra). cbn [rbind] in E.
  set (s0 := mkGS 0 1 _ _ _ _) in E.
  assert (S0 : at_step h 0 s0).
  { unfold at_step, state, placed, covers, s0. cbn [gs_a gs_b gs_x1 gs_x2 gs_f1 gs_f2]. repeat match goal with |- _ /\ _ => split end; try lra.
    2:{ intros y Hy [Hout|Hout]; lra. }
    exists 1, gs_c, gs_r. repeat match goal with |- _ /\ _ => split end; try lra.
    - unfold width_of, bounds_at. cbn [Nat.iter nat_rect snd]. lra.
    - left. split; [reflexivity|]. replace (gs_c - gs_c) with 0 by ring. rewrite Rabs_R0. apply err_nonneg. }
  replace (num_iter 0 1) with (38 + (num_iter 0 1 - 38))%nat in E by (pose proof iterations; lia).
  set (rest := (num_iter 0 1 - 38)%nat) in E. clearbody rest. clearbody s0.
  destruct (gs_loop obj (38 + rest) s0) as [s|e] eqn:EL; [|discriminate]. cbn [rbind] in E.
  destruct (loop_split obj 38 rest s0 s EL) as [s1 [L1 L2]].
  assert (S1 : at_step h (0 + 38) s1).
  { apply (loop_step obj h Hobj Hh 38 0 s0 s1); auto. intros i Hi.
    assert (K : forallb small (seq 0 38) = true) by (vm_compute; reflexivity). rewrite forallb_forall in K. apply K. apply in_seq. lia. }
  destruct S1 as [P [Ha [Hb [F1 [F2 HC]]]]].
  assert (HE : err_of (bounds_at (0 + 38)) <= 1 / 5).
  { unfold err_of. apply quot_le; [lra|]. replace (fst (bounds_at (0 + 38))) with (fst (bounds_at 38)) by reflexivity.
    assert (K : (fst (bounds_at 38) <=? 2000000000000000)%Z = true) by (vm_compute; reflexivity). apply Z.leb_le, IZR_le in K. lra. }
  destruct (placed_order _ _ s1 P HE) as [O1 [O2 O3]].
  assert (HI : gs_inv obj (gs_a s1) (gs_b s1) s1).
  { unfold gs_inv. rewrite !Hobj by lra. rewrite F1, F2. repeat match goal with |- _ /\ _ => split end; try lra; f_equal; lra. }
  pose proof (best_kept obj h Hobj rest (gs_a s1) (gs_b s1) s1 s Ha Hb HI L2) as BK.
  pose proof (gs_loop_inv obj _ _ rest s1 s HI L2) as [_ [_ [I1 [I2 [G1 G2]]]]].
  rewrite Hobj in G1, G2 by lra. injection G1 as G1. injection G2 as G2.
  assert (X : gs_a s1 <= x <= gs_b s1 /\ h x = Rmax (h (gs_x1 s)) (h (gs_x2 s))).
  { destruct (Rltb (gs_f1 s) (gs_f2 s)) eqn:EF; rprop; injection E as <- _.
    - split; [lra|]. symmetry. apply Rmax_left. lra.
    - split; [lra|]. symmetry. apply Rmax_right. lra. }
  destruct X as [X1 X2]. exists (gs_a s1), (gs_b s1). repeat match goal with |- _ /\ _ => split end; try lra.
  - destruct P as [w [p [q [Hw [HW [Hbw _]]]]]]. replace (gs_b s1 - gs_a s1) with w by lra. eapply Rle_trans; [exact HW|].
    unfold width_of, acc8. replace (snd (bounds_at (0 + 38))) with (snd (bounds_at 38)) by reflexivity.
    assert (K : (snd (bounds_at 38) <=? 20000000000)%Z = true) by (vm_compute; reflexivity). apply Z.leb_le, IZR_le in K.
    apply quot_le; lra.
  - intros y Hy Hout. rewrite X2. eapply Rle_trans; [apply HC; auto|]. exact BK.
Qed.
