(** * The Sharpe ratio along a segment *)
From Coq Require Import List Reals Lra Lia ZArith.
From Verif Require Import Num Py SBL MBase MCLA SLin SCLA SGold RBase PyLemmas Sums Mat PBase PCLA2 PCLA4 PCLA9 PGold.
Import ListNotations.
Local Open Scope R_scope.

Section Scalar.
  (** returns [r0], [r1] and second moments [A], [B], [C] of the ends of the segment *)
  Context (r0 r1 A B C : R).
  Let ret (a : R) : R := a * r0 + (1 - a) * r1.
  Let var (a : R) : R := a * a * A + 2 * (a * (1 - a)) * B + (1 - a) * (1 - a) * C.
  Let h (a : R) : R := ret a / sqrt (var a).
  Hypothesis HC : B * B <= A * C.
  Hypothesis HV : forall a, 0 <= a <= 1 -> 0 < var a.

  Lemma vol_pos : forall a, 0 <= a <= 1 -> 0 < sqrt (var a).
  Proof. intros a Ha. apply sqrt_lt_R0, HV, Ha. Qed.
  Lemma ret_is : forall a, 0 <= a <= 1 -> ret a = h a * sqrt (var a).
  Proof. intros a Ha. unfold h. pose proof (vol_pos a Ha). field. lra. Qed.
  Lemma vol_convex : forall x y s, 0 <= x <= 1 -> 0 <= y <= 1 -> 0 <= s <= 1 ->
    sqrt (var ((1 - s) * x + s * y)) <= (1 - s) * sqrt (var x) + s * sqrt (var y).
  Proof.
    intros x y s Hx Hy Hs. pose proof (vol_pos x Hx) as Fx. pose proof (vol_pos y Hy) as Fy.
    set (be := x * y * A + (x * (1 - y) + y * (1 - x)) * B + (1 - x) * (1 - y) * C).
    assert (E : var ((1 - s) * x + s * y) = (1 - s) * (1 - s) * var x + 2 * (s * (1 - s)) * be + s * s * var y) by (unfold var, be; ring).
    assert (Hbe : be * be <= var x * var y).
    { assert (D : var x * var y - be * be = (A * C - B * B) * ((x - y) * (x - y))) by (unfold var, be; ring).
      assert (0 <= (A * C - B * B) * ((x - y) * (x - y))) by (apply Rmult_le_pos; [lra|apply Rle_0_sqr]). lra. }
    assert (Hb : be <= sqrt (var x) * sqrt (var y)).
    { rewrite <- sqrt_mult by (left; apply HV; assumption). apply Rle_trans with (Rabs be); [apply Rle_abs|].
      rewrite <- sqrt_Rsqr_abs. apply sqrt_le_1_alt. exact Hbe. }
    rewrite <- (sqrt_Rsqr ((1 - s) * sqrt (var x) + s * sqrt (var y))) by nra. apply sqrt_le_1_alt. rewrite E. unfold Rsqr.
    replace (((1 - s) * sqrt (var x) + s * sqrt (var y)) * ((1 - s) * sqrt (var x) + s * sqrt (var y)))
      with ((1 - s) * (1 - s) * (sqrt (var x) * sqrt (var x)) + 2 * (s * (1 - s)) * (sqrt (var x) * sqrt (var y)) + s * s * (sqrt (var y) * sqrt (var y))) by ring.
    rewrite !sqrt_sqrt by (left; apply HV; assumption).
    assert (0 <= s * (1 - s)) by nra. nra.
  Qed.
  Lemma between_share : forall x z y, x < z -> z < y -> exists s, 0 < s < 1 /\ z = (1 - s) * x + s * y.
  Proof.
    intros x z y H1 H2. exists ((z - x) / (y - x)). split; [|field; lra]. split.
    - apply Rmult_lt_0_compat; [lra|apply Rinv_0_lt_compat; lra].
    - apply Rmult_lt_reg_r with (y - x); [lra|]. unfold Rdiv. rewrite Rmult_assoc, Rinv_l by lra. lra.
  Qed.
  Lemma peak_nonneg : forall x z y, 0 <= x -> x < z -> z < y -> y <= 1 -> 0 <= ret x -> 0 <= ret y ->
    Rmin (h x) (h y) <= h z /\ (h x <> h y -> Rmin (h x) (h y) < h z).
  Proof.
    intros x z y H1 H2 H3 H4 Rx Ry. destruct (between_share x z y H2 H3) as [s [Hs Ez]].
    assert (Ix : 0 <= x <= 1) by lra. assert (Iy : 0 <= y <= 1) by lra. assert (Iz : 0 <= z <= 1) by lra.
    pose proof (vol_convex x y s Ix Iy ltac:(lra)) as V. rewrite <- Ez in V.
    pose proof (vol_pos x Ix) as Fx. pose proof (vol_pos y Iy) as Fy. pose proof (vol_pos z Iz) as Fz.
    assert (E : h z * sqrt (var z) = (1 - s) * (h x * sqrt (var x)) + s * (h y * sqrt (var y))).
    { rewrite <- !ret_is by assumption. rewrite Ez. unfold ret. ring. }
    set (m := Rmin (h x) (h y)).
    assert (Mx : m <= h x) by apply Rmin_l. assert (My : m <= h y) by apply Rmin_r.
    assert (M0 : 0 <= m).
    { apply Rmin_glb; unfold h; apply quot_ge; lra. }
    assert (K : m * sqrt (var z) <= m * ((1 - s) * sqrt (var x) + s * sqrt (var y))) by (apply Rmult_le_compat_l; assumption).
    assert (Px : 0 < (1 - s) * sqrt (var x)) by (apply Rmult_lt_0_compat; lra). assert (Py : 0 < s * sqrt (var y)) by (apply Rmult_lt_0_compat; lra).
    set (fx := (1 - s) * sqrt (var x)) in *. set (fy := s * sqrt (var y)) in *.
    replace ((1 - s) * (h x * sqrt (var x)) + s * (h y * sqrt (var y))) with (h x * fx + h y * fy) in E by (unfold fx, fy; ring).
    split.
    - apply Rmult_le_reg_r with (sqrt (var z)); [exact Fz|]. rewrite E. eapply Rle_trans; [exact K|]. nra.
    - intros N. apply Rmult_lt_reg_r with (sqrt (var z)); [exact Fz|]. rewrite E. eapply Rle_lt_trans; [exact K|].
      assert (m < h x \/ m < h y) as [L|L] by (unfold m, Rmin; destruct (Rle_dec (h x) (h y)); lra); nra.
  Qed.
  Theorem peaked_nonneg : 0 <= r0 -> 0 <= r1 -> peaked 0 1 h.
  Proof. intros H0 H1 x z y Hx Hxz Hzy Hy. apply peak_nonneg; auto; unfold ret; nra. Qed.

  (** the variance does not fall on the way from the end with the smaller return to the other end *)
  Theorem peaked_rising : r1 <= r0 -> C <= B -> peaked 0 1 h.
  Proof.
    intros Hr HB x z y Hx Hxz Hzy Hy. destruct (Rle_lt_dec 0 (ret x)) as [Rx|Rx].
    { apply peak_nonneg; auto. unfold ret in *. nra. }
    assert (Ix : 0 <= x <= 1) by lra. assert (Iy : 0 <= y <= 1) by lra. assert (Iz : 0 <= z <= 1) by lra.
    pose proof (vol_pos x Ix) as Fx. pose proof (vol_pos y Iy) as Fy. pose proof (vol_pos z Iz) as Fz.
    assert (Hc : 0 <= A - 2 * B + C).
    { assert (C0 : 0 < C) by (pose proof (HV 0 ltac:(lra)) as V0; unfold var in V0; lra). nra. }
    assert (Ev : forall a, var a = C + 2 * (B - C) * a + (A - 2 * B + C) * (a * a)) by (intros; unfold var; ring).
    assert (Mono : forall a b, 0 <= a -> a < b -> var a <= var b).
    { intros a b Ha Hb. rewrite !Ev. assert (0 <= (B - C) * (b - a)) by nra. assert (0 <= (A - 2 * B + C) * ((b - a) * (b + a))) by (apply Rmult_le_pos; nra). nra. }
    assert (Vz : sqrt (var x) <= sqrt (var z)) by (apply sqrt_le_1_alt, Mono; lra).
    assert (hx : h x < 0) by (unfold h; apply Rmult_lt_reg_r with (sqrt (var x)); [exact Fx|]; unfold Rdiv; rewrite Rmult_assoc, Rinv_l by lra; lra).
    pose proof (ret_is x Ix) as Qx. pose proof (ret_is z Iz) as Qz.
    assert (Rz : ret x <= ret z) by (unfold ret; nra).
    split.
    - apply Rle_trans with (h x); [apply Rmin_l|]. apply Rmult_le_reg_r with (sqrt (var z)); [exact Fz|]. rewrite <- Qz. nra.
    - intros N.
      assert (L : h x < h z); [|apply Rle_lt_trans with (h x); [apply Rmin_l|exact L]].
      apply Rmult_lt_reg_r with (sqrt (var z)); [exact Fz|]. rewrite <- Qz.
      destruct (Req_dec r0 r1) as [Er|Er].
      + assert (Er2 : forall a, ret a = r1) by (intros; unfold ret; rewrite Er; ring).
        assert (Vxz : sqrt (var x) < sqrt (var z)); [|rewrite Er2 in *; nra].
        apply sqrt_lt_1_alt. split; [left; apply HV; assumption|].
        assert (D : 0 < B - C \/ 0 < A - 2 * B + C).
        { destruct (Req_dec (B - C) 0) as [E1|]; [|lra]. destruct (Req_dec (A - 2 * B + C) 0) as [E2|]; [|lra].
          exfalso. apply N. unfold h. rewrite !Er2, !Ev, E1, E2. do 2 f_equal. ring. }
        rewrite !Ev. assert (0 <= (B - C) * (z - x)) by nra. assert (0 <= (A - 2 * B + C) * ((z - x) * (z + x))) by (apply Rmult_le_pos; nra).
        destruct D as [D|D].
        * assert (0 < (B - C) * (z - x)) by (apply Rmult_lt_0_compat; lra). nra.
        * assert (0 < (A - 2 * B + C) * ((z - x) * (z + x))) by (apply Rmult_lt_0_compat; [lra|nra]). nra.
      + assert (ret x < ret z) by (unfold ret; assert (0 < (z - x) * (r0 - r1)) by (apply Rmult_lt_0_compat; lra); nra). nra.
  Qed.
End Scalar.
