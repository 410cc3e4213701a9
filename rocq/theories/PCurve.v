(** * Trade-off between return and risk, in general *)
From Coq Require Import ZArith List String Bool Reals Lra Lia.
From Verif Require Import Num Py RBase PyLemmas MBase MConvex MEF MDown SLin SBase SHRP SObj SConvex SDown SCurve Sums PBase PObj PRisk PEF PDown2 PDown4 PDown5 PPerm2.
Import ListNotations.
Local Open Scope R_scope.

Section Trade.
  Context {E : Type} (A : E -> Prop) (ret risk : E -> R).
  Definition best_ret (t : R) (x : E) : Prop := A x /\ risk x <= t /\ forall y, A y -> risk y <= t -> ret y <= ret x.
  Definition best_risk (r : R) (x : E) : Prop := A x /\ r <= ret x /\ forall y, A y -> r <= ret y -> risk x <= risk y.
  Lemma more_risk_trade : forall t t' x x', t <= t' -> best_ret t x -> best_ret t' x' -> ret x <= ret x'.
  Proof. intros t t' x x' H [A1 [R1 _]] [_ [_ M]]. apply M; [exact A1|lra]. Qed.
  Lemma more_return_trade : forall r r' x x', r <= r' -> best_risk r x -> best_risk r' x' -> risk x <= risk x'.
  Proof. intros r r' x x' H [_ [_ M]] [A1 [R1 _]]. apply M; [exact A1|lra]. Qed.
  Lemma risk_then_return_trade : forall t x y, best_ret t x -> best_risk (ret x) y -> ret y = ret x /\ risk y <= risk x.
  Proof.
    intros t x y [A1 [R1 M1]] [A2 [R2 M2]]. assert (risk y <= risk x) by (apply M2; [exact A1|lra]). split; [|assumption].
    assert (ret y <= ret x) by (apply M1; [exact A2|lra]). lra.
  Qed.
  Lemma return_then_risk_trade : forall r x y, best_risk r x -> best_ret (risk x) y -> risk y = risk x /\ ret x <= ret y.
  Proof.
    intros r x y [A1 [R1 M1]] [A2 [R2 M2]]. assert (ret x <= ret y) by (apply M2; [exact A1|lra]). split; [|assumption].
    assert (risk x <= risk y) by (apply M1; [exact A2|lra]). lra.
  Qed.
  (** with mixtures *)
  Context (mx : R -> E -> E -> E).
  Lemma concave_trade : forall k t t' x x' z, 0 <= k <= 1 ->
    A (mx k x x') -> ret (mx k x x') = (1 - k) * ret x + k * ret x' -> risk (mx k x x') <= (1 - k) * risk x + k * risk x' ->
    best_ret t x -> best_ret t' x' -> best_ret ((1 - k) * t + k * t') z -> (1 - k) * ret x + k * ret x' <= ret z.
  Proof.
    intros k t t' x x' z Hk HA Hr Hs [A1 [R1 _]] [A2 [R2 _]] [_ [_ M]]. rewrite <- Hr. apply M; [exact HA|]. nra.
  Qed.
  Lemma convex_trade : forall k r r' x x' z, 0 <= k <= 1 ->
    A (mx k x x') -> ret (mx k x x') = (1 - k) * ret x + k * ret x' -> risk (mx k x x') <= (1 - k) * risk x + k * risk x' ->
    best_risk r x -> best_risk r' x' -> best_risk ((1 - k) * r + k * r') z -> risk z <= (1 - k) * risk x + k * risk x'.
  Proof.
    intros k r r' x x' z Hk HA Hr Hs [A1 [R1 _]] [A2 [R2 _]] [_ [_ M]]. eapply Rle_trans; [apply M; [exact HA|]|exact Hs]. rewrite Hr. nra.
  Qed.
End Trade.

(** ** Convexity of the volatility *)
Lemma norm_convex : forall qx qy qd t, 0 <= qx -> 0 <= qy -> 0 <= qd -> (forall s, 0 <= (1 - s) * qx + s * qy - s * (1 - s) * qd) -> 0 <= t <= 1 ->
  sqrt ((1 - t) * qx + t * qy - t * (1 - t) * qd) <= (1 - t) * sqrt qx + t * sqrt qy.
Proof.
  intros qx qy qd t Hx Hy Hd H Ht. set (a := sqrt qx). set (b := sqrt qy).
  assert (Ea : a * a = qx) by (apply sqrt_sqrt; exact Hx). assert (Eb : b * b = qy) by (apply sqrt_sqrt; exact Hy).
  assert (Pa : 0 <= a) by apply sqrt_pos. assert (Pb : 0 <= b) by apply sqrt_pos.
  set (B := qy - qx - qd). assert (D : B * B <= 4 * qd * qx).
  { destruct (Req_dec qd 0) as [Z|Z].
    - assert (HB : B = 0).
      { destruct (Req_dec B 0) as [->|N]; [reflexivity|]. specialize (H (- (qx + 1) / B)). exfalso.
        replace ((1 - - (qx + 1) / B) * qx + - (qx + 1) / B * qy - - (qx + 1) / B * (1 - - (qx + 1) / B) * qd) with (-1) in H; [lra|].
        rewrite Z. replace qy with (B + qx) by (unfold B; lra). field. exact N. }
      rewrite HB. nra.
    - specialize (H (- B / (2 * qd))).
      replace ((1 - - B / (2 * qd)) * qx + - B / (2 * qd) * qy - - B / (2 * qd) * (1 - - B / (2 * qd)) * qd) with ((4 * qd * qx - B * B) * / (4 * qd)) in H.
      + assert (P : 0 < / (4 * qd)) by (apply Rinv_0_lt_compat; lra). destruct (Rle_dec (B * B) (4 * qd * qx)); [assumption|]. nra.
      + replace qy with (B + qx + qd) by (unfold B; lra). field. exact Z. }
  assert (C : (b - a) * (b - a) <= qd).
  { set (d := sqrt qd). assert (Ed : d * d = qd) by (apply sqrt_sqrt; exact Hd). assert (Pd : 0 <= d) by apply sqrt_pos.
    assert (D' : B <= 2 * (a * d) /\ - (2 * (a * d)) <= B).
    { assert (0 <= a * d) by nra. assert (Q : B * B <= (2 * (a * d)) * (2 * (a * d))) by (replace ((2 * (a * d)) * (2 * (a * d))) with (4 * (d * d) * (a * a)) by ring; rewrite Ed, Ea; exact D). split; nra. }
    unfold B in D'. rewrite <- Ea, <- Eb, <- Ed in D'. destruct D' as [D1 D2].
    assert (b <= a + d) by nra. assert (a - d <= b) by nra. rewrite <- Ed. destruct (Rle_dec a b); nra. }
  rewrite <- (sqrt_square ((1 - t) * a + t * b)) by nra. apply sqrt_le_1_alt. rewrite <- Ea, <- Eb.
  assert (0 <= t * (1 - t)) by nra. nra.
Qed.

Lemma blend_Forall2 : forall {X} (t : R) (P : X -> R -> Prop) x y (l : list X), (forall a b c, P c a -> P c b -> P c ((1 - t) * a + t * b)) ->
  Forall2 P l x -> Forall2 P l y -> Forall2 P l (blend t x y).
Proof.
  intros X t P x y l H Hx. revert y. induction Hx as [|c a l x Hca Hx IH]; intros y Hy; inversion Hy; subst; cbn [blend]; constructor; auto.
Qed.
Lemma within_blend : forall lb ub x y t, 0 <= t <= 1 -> within lb ub x -> within lb ub y -> within lb ub (blend t x y).
Proof.
  intros lb ub x y t Ht [A B] [C D]. split; eapply blend_Forall2; try eassumption; intros a b [c|]; cbn [above below]; intros; auto; nra.
Qed.

Section Measures.
  Variables (n : nat).
  Lemma volatility_convex : forall M, psd n M -> convex_on n (fun x => sqrt (qform M x)).
  Proof.
    intros M [HM Hp] x y t Hx Hy Ht. rewrite (qform_blend n) by assumption. apply norm_convex; auto.
    - apply Hp. rewrite differences_length; congruence.
    - intros s. rewrite <- (qform_blend n) by assumption. apply Hp. rewrite blend_length; congruence.
  Qed.
  Lemma worst_blend : forall beta t L L' Lz, 0 <= beta < 1 -> 0 <= t <= 1 -> List.length L = List.length L' -> (0 < List.length L)%nat ->
    Forall2 Rle Lz (blend t L L') -> worst_mean beta Lz <= (1 - t) * worst_mean beta L + t * worst_mean beta L'.
  Proof.
    intros beta t L L' Lz Hb Ht E HL H. assert (HL' : (0 < List.length L')%nat) by lia.
    assert (Ez : List.length Lz = List.length L) by (rewrite (Forall2_length _ _ _ H), blend_length; auto).
    destruct (tail_reached beta L Hb HL) as [a [P1 [P2 P3]]]. destruct (tail_reached beta L' Hb HL') as [a' [Q1 [Q2 Q3]]]. cbv zeta in *.
    rewrite <- P3, <- Q3. set (us := map _ L) in *. set (us' := map _ L') in *.
    assert (Lu : List.length us = List.length us') by (unfold us, us'; rewrite !map_length; exact E).
    eapply Rle_trans; [apply (tail_sound beta Lz ((1 - t) * a + t * a') (blend t us us')); auto; try lia|].
    - clearbody us us'. clear - P1 Q1 Ht Lu. revert us' Q1 Lu. induction P1 as [|b us Hb P1 IH]; intros [|b' us'] Q1 Lu; cbn [blend]; try constructor; try discriminate.
      + inversion Q1; subst. nra.
      + inversion Q1; subst. apply IH; [assumption|cbn in Lu; lia].
    - clearbody us us'. clear - P2 Q2 H Ht. revert L' us' Q2 Lz H. induction P2 as [|b v L us Hb P2 IH]; intros L' us' Q2 Lz H.
      + cbn [blend] in H. inversion H. constructor.
      + inversion Q2; subst; cbn [blend] in H; inversion H; subst; cbn [blend]; constructor; [nra|]. eapply IH; eassumption.
    - rewrite total_blend by exact Lu. rewrite Ez, E. right. ring.
  Qed.
  Lemma cvar_convex : forall beta rets, 0 <= beta < 1 -> (0 < List.length rets)%nat -> convex_on n (cvar beta rets).
  Proof.
    intros beta rets Hb HT x y t Hx Hy Ht. unfold cvar. apply worst_blend; auto; rewrite ?map_length, ?period_returns_length; auto.
    unfold period_returns. rewrite mat_blend by congruence. generalize (map (fun row => inner row x) rets) at 1 2.
    intros l. assert (E : forall l1 l2, Forall2 Rle (map Ropp (blend t l1 l2)) (blend t (map Ropp l1) (map Ropp l2))).
    { induction l1 as [|a l1 IH]; intros [|b l2]; cbn [blend map]; constructor; auto. lra. }
    apply E.
  Qed.
  Lemma dd_blend : forall t rs rs' u u' uz, 0 <= t <= 1 -> List.length rs = List.length rs' -> uz <= (1 - t) * u + t * u' ->
    Forall2 Rle (dd uz (blend t rs rs')) (blend t (dd u rs) (dd u' rs')).
  Proof.
    intros t rs. induction rs as [|r rs IH]; intros [|r' rs'] u u' uz Ht E Hu; cbn [blend dd]; try discriminate; constructor.
    - pose proof (Rmax_l (u - r) 0). pose proof (Rmax_r (u - r) 0). pose proof (Rmax_l (u' - r') 0). pose proof (Rmax_r (u' - r') 0). apply Rmax_lub; nra.
    - apply IH; [exact Ht|cbn in E; lia|].
      pose proof (Rmax_l (u - r) 0). pose proof (Rmax_r (u - r) 0). pose proof (Rmax_l (u' - r') 0). pose proof (Rmax_r (u' - r') 0). apply Rmax_lub; nra.
  Qed.
  Lemma cdar_convex : forall beta rets, 0 <= beta < 1 -> (0 < List.length rets)%nat -> convex_on n (cdar beta rets).
  Proof.
    intros beta rets Hb HT x y t Hx Hy Ht. unfold cdar. rewrite !dd_from. apply worst_blend; auto; rewrite ?dd_length, ?period_returns_length; auto.
    unfold period_returns. rewrite mat_blend by congruence. apply dd_blend; [exact Ht|rewrite !map_length; reflexivity|lra].
  Qed.
  Lemma semideviation_convex : forall rets b freq, 0 <= freq -> convex_on n (fun x => sqrt (freq * semivariance rets b x)).
  Proof.
    intros rets b freq Hf x y t Hx Hy Ht. set (T := INR (List.length rets)).
    assert (EA : forall v, semivariance rets b v = inner (map (shortfall b) (period_returns rets v)) (map (shortfall b) (period_returns rets v)) / T).
    { intros v. unfold semivariance. f_equal. induction (period_returns rets v) as [|c l IH]; cbn [map total inner]; [reflexivity|]. rewrite IH. reflexivity. }
    rewrite !EA. set (A := map (shortfall b) (period_returns rets x)). set (B := map (shortfall b) (period_returns rets y)). set (Z := map (shortfall b) (period_returns rets (blend t x y))).
    assert (LAB : List.length A = List.length B) by (unfold A, B, period_returns; rewrite !map_length; reflexivity).
    assert (HZ : Forall (fun c => 0 <= c) Z) by (apply Forall_map, Forall_forall; intros c _; rewrite shortfall_max; apply Rmax_r).
    assert (HZB : Forall2 Rle Z (blend t A B)).
    { unfold Z, A, B, period_returns. rewrite mat_blend by congruence. generalize (map (fun row => inner row x) rets), (map (fun row => inner row y) rets).
      induction l as [|c l IH]; intros [|c' l']; cbn [blend map]; constructor; auto. rewrite !shortfall_max.
      pose proof (Rmax_l (b - c) 0). pose proof (Rmax_r (b - c) 0). pose proof (Rmax_l (b - c') 0). pose proof (Rmax_r (b - c') 0). apply Rmax_lub; nra. }
    assert (M : inner Z Z <= inner (blend t A B) (blend t A B)).
    { clear - HZ HZB. revert HZ. induction HZB as [|c e Z W Hce H IH]; intros HZ; cbn [inner]; [lra|]. inversion HZ; subst. specialize (IH ltac:(assumption)). nra. }
    assert (Q : forall s, inner (blend s A B) (blend s A B) = (1 - s) * inner A A + s * inner B B - s * (1 - s) * inner (differences A B) (differences A B)).
    { intros s. clear - LAB. clearbody A B. revert B LAB. induction A as [|a A IH]; intros [|c B] E; cbn [blend inner differences]; try discriminate; [ring|]. rewrite IH by (cbn in E; lia). ring. }
    assert (HT : 0 <= / T \/ T = 0).
    { destruct (Req_dec T 0); [right; assumption|left]. left. apply Rinv_0_lt_compat. pose proof (pos_INR (List.length rets)). unfold T in *. lra. }
    assert (HT' : 0 <= / T) by (destruct HT as [H|H]; [exact H|rewrite H, Rinv_0; lra]).
    set (k := freq * / T). assert (Hk : 0 <= k) by (apply Rmult_le_pos; assumption).
    replace (freq * (inner Z Z / T)) with (k * inner Z Z) by (unfold k, Rdiv; ring). replace (freq * (inner A A / T)) with (k * inner A A) by (unfold k, Rdiv; ring). replace (freq * (inner B B / T)) with (k * inner B B) by (unfold k, Rdiv; ring).
    eapply Rle_trans; [apply sqrt_le_1_alt, (Rmult_le_compat_l k), M; exact Hk|]. rewrite Q.
    replace (k * ((1 - t) * inner A A + t * inner B B - t * (1 - t) * inner (differences A B) (differences A B))) with ((1 - t) * (k * inner A A) + t * (k * inner B B) - t * (1 - t) * (k * inner (differences A B) (differences A B))) by ring.
    apply norm_convex; try (apply Rmult_le_pos; [exact Hk|apply inner_self_nonneg]); [|exact Ht].
    intros s. pose proof (inner_self_nonneg (blend s A B)) as N. rewrite Q in N. nra.
  Qed.
End Measures.
