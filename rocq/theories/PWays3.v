(** * Reverse optimisation with a new optimizer (C116): the market portfolio and bl_weights *)
From Coq Require Import ZArith List String Bool Reals Lra Lia.
From Verif Require Import Num Py RBase PyLemmas SLin SBL MBase MConvex MEF MDown MBL SBase SHRP SObj SConvex SPrep SExist SCurve Sums Mat PBase PObj PRisk PEF PEF2 PEF3 PEF4 PDown5 PPerm2 PPerm4 PExist3 PExist4 PExist5 PCurve PCurve2 PCurve3 PBL1 PBL2 PBL9 PBL10 PBL11 PArray PFrame PDown6 PConvex PWays2.
Import ListNotations.
Local Open Scope R_scope.

Theorem new_recovers : forall mi c b w0 w1 o k g x0, ef_init (MIn mi) (CIn c) b w0 = (w1, Ok o) ->
  List.length (cov_values c) = e_n o -> pos_def (e_n o) (cov_values c) -> symmetric (e_n o) (cov_values c) -> bounded (e_lb o) -> bounded (e_ub o) ->
  0 < g -> mu_values mi = Some (map (fun v => g * v + k) (mat_vec (cov_values c) x0)) ->
  List.length x0 = e_n o -> within (e_lb o) (e_ub o) x0 -> total x0 = 1 ->
  forall sv, exact_solver sv -> complete_solver sv ->
  (Forall (fun q => p_name q <> "risk_aversion"%string) (w_params w0) -> reports (max_quadratic_utility sv g false w1 o) x0) /\
  (forall rf, target_of rf = Some k -> Exists (fun a => k < a) (map (fun v => g * v + k) (mat_vec (cov_values c) x0)) -> reports (max_sharpe sv rf w1 o) x0).
Proof.
  intros mi c b w0 w1 o k g x0 Hi Hlen Hp Hs Hlb Hub Hg Hmu L0 W0 T0 sv He Hc. assert (Hsq : square (List.length (cov_values c)) (cov_values c)) by (rewrite Hlen; apply Hp).
  destruct (new_facts mi c b w0 w1 o _ Hi Hsq Hlen Hmu) as (Ho & Ha & Hm & Ec & _ & _ & Fa & Ew).
  assert (Pv : par_values w1 = par_values w0) by (unfold par_values; rewrite Ew; reflexivity).
  destruct (fits_new w1 o Ho (e_lb o) (e_ub o) 1 x0 (conj L0 (conj W0 T0))) as [s [Ad Es]].
  assert (Hb : bounds_in_force false o (e_lb o) (e_ub o)) by (right; split; [left; reflexivity|split; reflexivity]).
  split.
  - intros Nm. apply (utility_recovers w1 o [] false g k x0 Ho Ha Hg); try (rewrite Ec; assumption); try assumption.
    + exists (e_lb o), (e_ub o), s. auto.
    + destruct (proj2 (exist_utility _ _ _ _ _ _ [] w1 o Hi Hsq Hlen (Forall_nil _) eq_refl Hlb Hub (Forall_nil _) sv _ g false _ _ He Hc Hmu Nm Hg Hb)) as (w3 & o3 & d & E).
      * exists s. destruct Ad as (A1 & A2 & A3 & _). repeat split; auto; apply A2.
      * unfold succeeds. rewrite E. exact Logic.I.
  - intros rf Hr Hex. apply (sharpe_recovers w1 o [] rf g k x0 Ho Ha Hg); try (rewrite Ec; assumption); try assumption; try constructor.
    + exists s. auto.
    + assert (NZ : forall y, fits (e_n o) (e_lb o) (e_ub o) 1 y -> 0 < qform (cov_values c) y).
      { intros y (Ly & _ & Ty). apply Hp; [exact Ly|]. intros E. rewrite E in Ty. clear - Ty. induction (e_n o) as [|j IH]; cbn in Ty; [lra|apply IH; lra]. }
      destruct (proj2 (exist_sharpe _ _ _ _ _ _ _ Hi Hsq Hlen Hlb Hub Hmu (pos_def_psd _ _ Hp) sv rf k He Hc Hr NZ)) as (w3 & o3 & d & E).
      * split; [exact Hex|]. exists x0. split; [split; auto|]. unfold excess. rewrite (implied_inner (e_n o)) by (assumption || exact Hp). rewrite T0.
        rewrite <- (qform_bil (e_n o)) by (auto; apply Hp). pose proof (NZ x0 (conj L0 (conj W0 T0))). nra.
      * unfold succeeds. rewrite E. exact Logic.I.
Qed.
(** a positive combination with nonnegative coefficients has a positive term *)
Lemma some_positive : forall x y, 0 < inner x y -> Forall (fun v => 0 <= v) x -> Exists (fun v => 0 < v) y.
Proof.
  induction x as [|a x IH]; intros [|b y] H F; cbn in H; try lra. inversion F; subst. destruct (Rlt_dec 0 b) as [P|N]; [left; exact P|right; apply IH; [nra|assumption]].
Qed.
Lemma some_above : forall g k x y, 0 < g -> 0 < inner x y -> Forall (fun v => 0 <= v) x -> Exists (fun a => k < a) (map (fun v => g * v + k) y).
Proof.
  intros g k x y Hg H F. apply Exists_exists. destruct (proj1 (Exists_exists _ _) (some_positive x y H F)) as [v [Hin Hv]].
  exists (g * v + k). split; [apply (in_map (fun v => g * v + k)); exact Hin|nra].
Qed.
(** the number of assets of an optimizer given returns and covariances of [cols] *)
Lemma init_size : forall mi c cols mu M b w0 w1 o, ef_init (MIn mi) (CIn c) b w0 = (w1, Ok o) ->
  mi = MuArray mu \/ mi = MuSeries (combine cols mu) -> c = CovArray M \/ c = CovFrame cols M -> List.length cols = List.length mu -> List.length M = List.length mu ->
  cov_values c = M /\ List.length M = e_n o /\ mu_values mi = Some mu.
Proof.
  intros mi c cols mu M b w0 w1 o Hi Hmi Hc HL HM. destruct (ef_init_inv _ _ _ _ _ _ Hi) as (m' & lb & ub & Em & Hs & Hr & Hw & Ho). injection Em as <-.
  assert (En : e_n o = List.length (init_tickers mi c)) by (rewrite Ho; reflexivity).
  assert (Mv : mu_values mi = Some mu) by (destruct Hmi as [->| ->]; [reflexivity|cbn [mu_values]; rewrite combine_snd' by exact HL; reflexivity]).
  split; [destruct Hc as [->| ->]; reflexivity|]. split; [|exact Mv]. rewrite En.
  destruct Hmi as [->| ->], Hc as [->| ->]; unfold init_tickers; cbn [mu_values]; rewrite ?map_length, ?combine_length; try lia.
  all: unfold range_labels; rewrite ?map_length, ?seq_length; lia.
Qed.
(** market capitalisations -> implied returns -> the market portfolio *)
Theorem market_recovers : forall caps g cols M rf pi, market_implied_prior_returns caps g (CovFrame cols M) rf = Ok pi ->
  List.length cols = List.length M -> NoDup cols -> NoDup (map fst caps) -> pos_def (List.length M) M -> symmetric (List.length M) M -> 0 < g ->
  forall mi c b w0 w1 o, mi = MuArray pi \/ mi = MuSeries (combine cols pi) -> c = CovArray M \/ c = CovFrame cols M ->
  ef_init (MIn mi) (CIn c) b w0 = (w1, Ok o) -> bounded (e_lb o) -> bounded (e_ub o) ->
  let market := map (cap_weight caps) cols in within (e_lb o) (e_ub o) market ->
  forall sv, exact_solver sv -> complete_solver sv ->
  (Forall (fun q => p_name q <> "risk_aversion"%string) (w_params w0) -> reports (max_quadratic_utility sv g false w1 o) market) /\
  (forall r, target_of r = Some rf -> Forall (fun kv => 0 <= snd kv) caps -> reports (max_sharpe sv r w1 o) market).
Proof.
  intros caps g cols M rf pi H HL N1 N2 Hp Hs Hg mi c b w0 w1 o Hmi Hc Hi Hlb Hub market W sv He Hcp. destruct (prior_frame _ _ _ _ _ _ H) as (K & TZ & Epi).
  assert (Lpi : List.length pi = List.length M) by (rewrite Epi; unfold mat_vec; rewrite !map_length; reflexivity).
  destruct (init_size mi c cols pi M b w0 w1 o Hi Hmi Hc ltac:(congruence) ltac:(congruence)) as (Ec & En & Mv).
  assert (T : total market = 1) by (apply cap_weight_total; assumption). assert (Lm : List.length market = e_n o) by (unfold market; rewrite map_length; congruence).
  rewrite En in Hp, Hs. rewrite Epi in Mv. fold market in Mv.
  destruct (new_recovers mi c b w0 w1 o rf g market Hi) with (sv := sv) as [R1 R2]; try (rewrite Ec; assumption); try assumption.
  split; [exact R1|]. intros r Hr Hcaps. apply R2; [exact Hr|]. apply (some_above g rf market); [exact Hg| |].
  - rewrite Ec. change (0 < qform M market). apply Hp; [exact Lm|]. intros E. rewrite E in T. clear - T. induction (e_n o) as [|j IH]; cbn in T; [lra|apply IH; lra].
  - unfold market. apply Forall_map. apply Forall_forall. intros l _. unfold cap_weight. destruct (dget l caps) as [x|] eqn:E; [|lra].
    assert (P : forall l : list (label * R), Forall (fun kv => 0 <= snd kv) l -> 0 <= total (map snd l)) by (induction 1; cbn; lra).
    pose proof (P _ Hcaps). assert (0 <= x) by (apply dget_In in E; rewrite Forall_forall in Hcaps; exact (Hcaps _ E)).
    apply Rmult_le_pos; [assumption|]. left. apply Rinv_0_lt_compat. lra.
Qed.
(** BlackLittermanModel.bl_weights and EfficientFrontier.max_sharpe on the same estimates *)
Theorem bl_recovers : forall la ob ra d, exact_linalg la -> reachable la ob -> pos_def (bl_n ob) (bl_sigma ob) -> symmetric (bl_n ob) (bl_sigma ob) ->
  match ra with Some r => r <> 0 | None => True end -> snd (bl_weights la ob ra) = Ok d -> List.length (b_tickers (bl_base ob)) = bl_n ob ->
  let post := snd (bl_returns la ob) in
  forall mi c b w0 w1 o, mi = MuArray post \/ mi = MuSeries (combine (b_tickers (bl_base ob)) post) ->
  c = CovArray (bl_sigma ob) \/ c = CovFrame (b_tickers (bl_base ob)) (bl_sigma ob) ->
  ef_init (MIn mi) (CIn c) b w0 = (w1, Ok o) -> bounded (e_lb o) -> bounded (e_ub o) -> Exists (fun a => 0 < a) post ->
  exists wts, b_weights (bl_base (fst (bl_weights la ob ra))) = Some wts /\
  (0 < inner wts post -> within (e_lb o) (e_ub o) wts ->
   forall sv, exact_solver sv -> complete_solver sv -> reports (max_sharpe sv (NFloat 0) w1 o) wts).
Proof.
  intros la ob ra d Hla Hr Hp Hs Hra Hd HT post mi c b w0 w1 o Hmi Hc Hi Hlb Hub Hex.
  assert (Hinv : invertible (bl_n ob) (bl_sigma ob)) by (apply posdef_invertible; [apply Hp|exact Hs|apply pos_def_posdef; exact Hp]).
  destruct (use_equation la ob ra d Hla Hr Hinv Hra Hd) as (wts & g & Ew & Hg & E). fold post in E.
  destruct (use_weights_sum la ob ra d Hla Hr Hd) as (wts' & Ew' & Lw & T & _). rewrite Ew in Ew'. injection Ew' as <-.
  exists wts. split; [exact Ew|]. intros Pos W sv He Hcp.
  assert (Lp : List.length post = List.length (bl_sigma ob)) by (rewrite <- E; unfold mat_vec, scale_matrix; rewrite !map_length; reflexivity).
  assert (Ls : List.length (bl_sigma ob) = bl_n ob) by apply Hp.
  destruct (init_size mi c _ post (bl_sigma ob) b w0 w1 o Hi Hmi Hc ltac:(congruence) ltac:(congruence)) as (Ec & En & Mv). rewrite <- Ls, En in Hp, Hs, Lw.
  assert (Em : post = map (fun v => g * v + 0) (mat_vec (bl_sigma ob) wts)).
  { rewrite <- E. unfold mat_vec, scale_matrix. rewrite !map_map. apply map_ext. intros row. rewrite Rplus_0_r.
    assert (G : forall r z : list R, inner (map (Rmult g) r) z = g * inner r z) by (induction r as [|a r IH]; intros [|y z]; cbn; try ring; rewrite IH; ring). apply G. }
  assert (Hg' : 0 < g).
  { assert (Q : 0 < qform (bl_sigma ob) wts) by (apply Hp; [exact Lw|]; intros Z; rewrite Z in T; clear - T; induction (e_n o) as [|j IH]; cbn in T; [lra|apply IH; lra]).
    assert (G : forall x y, inner x (map (fun v => g * v + 0) y) = g * inner x y) by (induction x as [|a x IH]; intros [|y z]; cbn; try ring; rewrite IH; ring).
    rewrite Em, G in Pos. change (inner wts (mat_vec (bl_sigma ob) wts)) with (qform (bl_sigma ob) wts) in Pos. nra. }
  rewrite Em in Mv, Hex. rewrite <- Ec in Mv, Hex.
  destruct (new_recovers mi c b w0 w1 o 0 g wts Hi) with (sv := sv) as [_ R2]; try (rewrite Ec; assumption); try assumption.
  apply R2; [reflexivity|exact Hex].
Qed.
