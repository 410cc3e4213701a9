(** * CLA and EfficientFrontier on the same problem (C117) *)
From Coq Require Import ZArith List String Bool Reals Lra Lia.
From Verif Require Import Num Py RBase PyLemmas SLin SBL MBase MConvex MEF MCLA SBase SHRP SObj SCLA SGold SConvex SCurve SWays Sums Mat PBase PObj PRisk PEF PEF2 PEF3 PEF4 PPerm2 PPerm4 PExist4 PCurve PCurve2 PCurve3 PBL2 PWays2 PGold PGold3 PGold4 PCLA4 PCLA9 PGold5.
Import ListNotations.
Local Open Scope R_scope.

Lemma within_feasible : forall lb ub x, within (map Some lb) (map Some ub) x /\ total x = 1 <-> feasible lb ub x.
Proof.
  intros lb ub x. assert (A : forall l y, Forall2 above (map Some l) y <-> Forall2 Rle l y).
  { induction l as [|a l IH]; intros [|c y]; cbn [map]; split; intros H; inversion H; subst; constructor; auto; apply IH; assumption. }
  assert (B : forall l y, Forall2 below (map Some l) y <-> Forall2 Rle y l).
  { induction l as [|a l IH]; intros [|c y]; cbn [map]; split; intros H; inversion H; subst; constructor; auto; apply IH; assumption. }
  unfold within, feasible. rewrite A, B. tauto.
Qed.
Lemma feasible_half : forall lb ub x y, feasible lb ub x -> feasible lb ub y -> feasible lb ub (SObj.blend (1/2) x y).
Proof.
  intros lb ub x y Hx Hy. apply within_feasible in Hx, Hy. apply within_feasible. split; [apply within_blend; [lra|apply Hx|apply Hy]|].
  rewrite total_blend; [lra|]. destruct Hx as [[Hx _] _], Hy as [[Hy _] _]. apply Forall2_length in Hx, Hy. congruence.
Qed.
Lemma least_unique : forall n M lb ub x y, pos_def n M -> List.length x = n -> List.length y = n -> feasible lb ub x -> feasible lb ub y ->
  qform M y <= qform M x -> (forall v, feasible lb ub v -> qform M x <= qform M v) -> y = x.
Proof.
  intros n M lb ub x y Hp Lx Ly Fx Fy H Hm. pose proof (Hm _ (feasible_half _ _ _ _ Fx Fy)) as Hb. rewrite (qform_blend n) in Hb by (auto; apply Hp).
  assert (Q : qform M (differences x y) <= 0) by (pose proof (Hm y Fy); lra).
  assert (Ld : List.length (differences x y) = n) by (rewrite differences_length; congruence).
  rewrite (qform_bil n) in Q by (auto; apply Hp). pose proof (pd_zero n M _ Hp Q) as Z. apply (vec_eq n); auto. intros i Hi.
  specialize (Z i Hi). unfold vec in *. rewrite differences_nth in Z by congruence. lra.
Qed.

Lemma ratio_unique : forall n m M lb ub x y, pos_def n M -> symmetric n M -> List.length x = n -> List.length y = n -> feasible lb ub x -> feasible lb ub y ->
  0 < inner x m -> ratio m M x <= ratio m M y -> (forall v, feasible lb ub v -> ratio m M v <= ratio m M x) -> y = x.
Proof.
  intros n m M lb ub x y Hp Hs Lx Ly Fx Fy Px H Hm. assert (E : ratio m M y = ratio m M x) by (apply Rle_antisym; [apply Hm; exact Fy|exact H]).
  pose proof (feasible_half _ _ _ _ Fx Fy) as Fz. set (z := SObj.blend (1/2) x y) in *.
  assert (Lz : List.length z = n) by (unfold z; rewrite PObj.blend_length; congruence).
  pose proof (weights_nonzero n M x Hp Lx (proj1 Fx)) as Qx. pose proof (weights_nonzero n M y Hp Ly (proj1 Fy)) as Qy. pose proof (weights_nonzero n M z Hp Lz (proj1 Fz)) as Qz.
  pose proof (Hm z Fz) as Hz. unfold ratio in *.
  assert (Iz : inner z m = (inner x m + inner y m) / 2) by (rewrite (inner_comm z), (inner_comm x), (inner_comm y); unfold z; rewrite PObj.inner_blend by congruence; lra).
  assert (Ez : qform M z = (qform M x + qform M y) / 2 - qform M (differences x y) / 4) by (unfold z; rewrite (PObj.qform_blend n) by (auto; apply Hp); lra).
  assert (Ed : qform M (differences x y) = qform M x + qform M y - 2 * bil n (entry M) (vec y) (vec x)).
  { assert (Ld : List.length (differences x y) = n) by (rewrite differences_length; congruence). rewrite !(qform_bil n) by (auto; apply Hp).
    rewrite (bil_ext n _ _ _ (fun i => vec x i + -1 * vec y i) (fun i => vec x i + -1 * vec y i)) by (intros i Hi; unfold vec; rewrite differences_nth by congruence; ring).
    rewrite bil_line by exact Hs. rewrite (bil_sym n (entry M) (vec x) (vec y)) by exact Hs. ring. }
  apply (cauchy_equal n M y x Hp Hs Ly Lx (proj1 Fy) (proj1 Fx)).
  set (vx := sqrt (qform M x)) in *. set (vy := sqrt (qform M y)) in *. set (vz := sqrt (qform M z)) in *.
  assert (Pvx : 0 < vx) by (apply sqrt_lt_R0; exact Qx). assert (Pvy : 0 < vy) by (apply sqrt_lt_R0; exact Qy). assert (Pvz : 0 < vz) by (apply sqrt_lt_R0; exact Qz).
  assert (Ex2 : vx * vx = qform M x) by (apply sqrt_sqrt; lra). assert (Ey2 : vy * vy = qform M y) by (apply sqrt_sqrt; lra). assert (Ez2 : vz * vz = qform M z) by (apply sqrt_sqrt; lra).
  set (rho := inner x m / vx) in *. assert (Pr : 0 < rho) by (apply Rdiv_lt_0_compat; assumption).
  assert (Ix : inner x m = rho * vx) by (unfold rho; field; lra). assert (Iy : inner y m = rho * vy) by (rewrite <- E; field; lra).
  rewrite Iz, Ix, Iy in Hz. assert (B : (vx + vy) / 2 <= vz).
  { apply (Rmult_le_reg_l rho); [exact Pr|]. replace (rho * ((vx + vy) / 2)) with ((rho * vx + rho * vy) / 2 / vz * vz) by (field; lra). apply Rmult_le_compat_r; lra. }
  assert (B2 : (vx + vy) / 2 * ((vx + vy) / 2) <= vz * vz) by (apply Rmult_le_compat; lra). rewrite Ez2, Ez, Ed, <- Ex2, <- Ey2 in B2. lra.
Qed.

Lemma bare_feasible : forall w e o, open_ef w e [] -> same_problem o e ->
  (forall s, admissible w e [] (e_lb e) (e_ub e) 1 s -> feasible (c_lb o) (c_ub o) (s (e_w e)) /\ List.length (s (e_w e)) = c_n o) /\
  (forall x, feasible (c_lb o) (c_ub o) x -> List.length x = c_n o -> exists s, admissible w e [] (e_lb e) (e_ub e) 1 s /\ s (e_w e) = x).
Proof.
  intros w e o Ho (_ & _ & El & Eu & En). split.
  - intros s Ad. destruct (new_fits w e Ho _ _ _ _ Ad) as (L & W & T). rewrite El, Eu in W. split; [apply within_feasible; auto|congruence].
  - intros x F L. apply (fits_new w e Ho). split; [congruence|]. rewrite El, Eu. apply within_feasible. exact F.
Qed.
Theorem cla_ef_min : forall fuel inv ord (o : cla R), sound_inverse inv -> complete_inverse inv -> set_order ord -> well_posed o -> well_labelled o ->
  general_position o -> (3 ^ c_n o <= fuel)%nat ->
  forall sv w e, exact_solver sv -> open_ef w e [] -> e_add e = [] -> same_problem o e -> succeeds (min_volatility sv w e) ->
  exists o' d x, cla_min_volatility fuel inv ord o = (o', Ok d) /\ reports (min_volatility sv w e) x /\
    qform (c_cov o) (dvalues d) <= qform (c_cov o) x /\ (feasible (c_lb o) (c_ub o) (dvalues d) -> dvalues d = x).
Proof.
  intros fuel inv ord o Si Ci So Wp Wl Gp Hf sv w e Es Ho Ha Sp S. destruct (min_vol_total fuel inv ord o Si Ci So Wp Wl Gp Hf) as (o' & d & R & _ & Hmin).
  unfold succeeds, reports in *. destruct (min_volatility sv w e) as [[w' e'] [d'|x]] eqn:RE; [|contradiction].
  pose proof (min_volatility_best sv w e [] w' e' d' Es Ho RE) as B. destruct (best_is w e [] _ _ _ Ha _ _ _ _ B) as [x [r [Er [F [[s [Ad Ex]] [_ M]]]]]].
  destruct (bare_feasible w e o Ho Sp) as [B1 B2]. destruct (B1 s Ad) as [Fx Lx]. rewrite Ex in Fx, Lx. pose proof Sp as (_ & Ec & _).
  exists o', d, x. split; [exact R|]. split; [exists r; auto|]. split; [apply Hmin; exact Fx|]. intros Fd.
  assert (Hp : pos_def (c_n o) (c_cov o)) by apply Wp.
  assert (LF : forall v, feasible (c_lb o) (c_ub o) v -> List.length v = c_n o).
  { intros v (_ & Fv & _). apply Forall2_length in Fv. destruct Wp as (_ & _ & (Hl & _) & _). congruence. }
  apply (least_unique (c_n o) (c_cov o) (c_lb o) (c_ub o) x (dvalues d) Hp Lx (LF _ Fd) Fx Fd (Hmin _ Fx)).
  intros v Fv. rewrite <- Ec. apply M; [|exact Logic.I]. destruct (B2 v Fv (LF _ Fv)) as [s' [A' E']]. exists s'. auto.
Qed.
Theorem cla_ef_sharpe : forall fuel inv ord (o o' : cla R) d, sound_inverse inv -> set_order ord -> well_posed o -> well_labelled o ->
  untied (c_mean o) (c_cov o) (c_lb o) (c_ub o) -> untied_end (c_mean o) (c_cov o) (c_lb o) (c_ub o) ->
  cla_max_sharpe fuel inv ord o = (o', Ok d) -> Forall (fun p => total (t_w p) = 1) (c_tp o') ->
  forall sv w e, exact_solver sv -> open_ef w e [] -> e_add e = [] -> same_problem o e -> succeeds (max_sharpe sv (NFloat 0) w e) ->
  exists x, reports (max_sharpe sv (NFloat 0) w e) x /\ ratio (c_mean o) (c_cov o) (dvalues d) <= ratio (c_mean o) (c_cov o) x /\
    (unbroken (c_tp o') -> exists x', nearly_same (c_lb o) (c_ub o) x x' /\ ratio (c_mean o) (c_cov o) x' <= ratio (c_mean o) (c_cov o) (dvalues d)).
Proof.
  intros fuel inv ord o o' d Si So Wp Wl U1 U2 R Ht sv w e Es Ho Ha Sp S.
  destruct (max_sharpe_segments fuel inv ord o o' d Si So Wp Wl U1 R Ht) as [Fd _].
  unfold succeeds, reports in *. destruct (max_sharpe sv (NFloat 0) w e) as [[w' e'] [d'|x]] eqn:RE; [|contradiction].
  pose proof Sp as (Em & Ec & _ & _ & En). assert (Hp : pos_def (c_n o) (c_cov o)) by apply Wp. assert (Hs : symmetric (c_n o) (c_cov o)) by apply Wp.
  assert (Hpsd : psd (e_n e) (e_cov e)) by (rewrite Ec, En; apply pos_def_psd; exact Hp).
  destruct (PEF4.max_sharpe_best sv w e [] (NFloat 0) w' e' d' Es Ho Ha Hpsd (Forall_nil _) (Forall_nil _) RE) as (m & r & Em' & Er & s & rr & Ew & F & _ & Ad & Pos & M).
  rewrite Em in Em'. injection Em' as <-. cbn [target_of] in Er. injection Er as <-.
  destruct (bare_feasible w e o Ho Sp) as [B1 B2]. destruct (B1 s Ad) as [Fx Lx]. set (x := s (e_w e)) in *.
  assert (LF : forall v, feasible (c_lb o) (c_ub o) v -> List.length v = c_n o).
  { intros v (_ & Fv & _). apply Forall2_length in Fv. destruct Wp as (_ & _ & (Hl & _) & _). congruence. }
  assert (Best : forall v, feasible (c_lb o) (c_ub o) v -> ratio (c_mean o) (c_cov o) v <= ratio (c_mean o) (c_cov o) x).
  { intros v Fv. destruct (B2 v Fv (LF _ Fv)) as [s' [A' E']]. specialize (M s' A'). rewrite E' in M. unfold excess in M. rewrite Ec in M. unfold ratio.
    rewrite (inner_comm v), (inner_comm x). rewrite !Rminus_0_r in M.
    pose proof (sqrt_lt_R0 _ (weights_nonzero _ _ v Hp (LF _ Fv) (proj1 Fv))). pose proof (sqrt_lt_R0 _ (weights_nonzero _ _ x Hp Lx (proj1 Fx))).
    apply (Rmult_le_reg_r (sqrt (qform (c_cov o) v) * sqrt (qform (c_cov o) x))); [nra|].
    replace (inner (c_mean o) v / sqrt (qform (c_cov o) v) * (sqrt (qform (c_cov o) v) * sqrt (qform (c_cov o) x))) with (inner (c_mean o) v * sqrt (qform (c_cov o) x)) by (field; lra).
    replace (inner (c_mean o) x / sqrt (qform (c_cov o) x) * (sqrt (qform (c_cov o) v) * sqrt (qform (c_cov o) x))) with (inner (c_mean o) x * sqrt (qform (c_cov o) v)) by (field; lra). exact M. }
  exists x. split; [exists rr; auto|]. split; [apply Best; exact Fd|]. intros Hu.
  assert (Px : 0 < inner x (c_mean o)) by (unfold excess in Pos; rewrite inner_comm; lra).
  destruct (max_sharpe_all fuel inv ord o o' d Si So Wp Wl U1 U2 R Ht Hu) as [_ A]; [exists x; split; [exact Fx|lra]|].
  destruct (A x Fx) as (u & u' & Fu & Fu' & H1 & Nr & H2). exists u'. split; [|exact H2].
  rewrite <- (ratio_unique (c_n o) (c_mean o) (c_cov o) (c_lb o) (c_ub o) x u Hp Hs Lx (LF _ Fu) Fx Fu Px H1 Best). exact Nr.
Qed.
