(** * Semivariance: the statements of C34 *)
From Coq Require Import ZArith List String Bool Reals Lra Lia.
From Verif Require Import Num Py RBase PyLemmas MBase MConvex MEF MDown SLin SBase SConvex SDown Sums PBase PConvex PEF PEF2 PEF4 PRisk PDown PDown2 PDown4 PDown5.
Import ListNotations.
Local Open Scope R_scope.

Lemma min_semi_long : forall sv w o u d w' o' dd, open_ef w o u -> semi_ready w o u d -> exact_solver sv ->
  min_semivariance sv d false w o = (w', o', Ok dd) ->
  best_portfolio w o u (e_lb o) (e_ub o) 1 (fun _ => True) (semivariance (sd_returns d) (sd_bench d)) (e_weights o') dd /\ e_mu o' = e_mu o.
Proof.
  intros sv w o u d w' o' dd Hop Hr Hsv H.
  destruct (min_semivariance_best w o u d Hop Hr sv false Hsv w' o' dd H) as [lb [ub [Hb Hx]]]. rewrite Rmult_1_r in Hx.
  destruct Hb as [[E _]|[_ [-> ->]]]; [discriminate E|exact Hx].
Qed.
Lemma min_semi_neutral : forall sv w o u d w' o' dd, open_ef w o u -> semi_ready w o u d -> exact_solver sv ->
  min_semivariance sv d true w o = (w', o', Ok dd) ->
  exists lb ub, bounds_in_force true o lb ub /\
    best_portfolio w o u lb ub 0 (fun _ => True) (semivariance (sd_returns d) 0) (e_weights o') dd /\ e_mu o' = e_mu o.
Proof.
  intros sv w o u d w' o' dd Hop Hr Hsv H.
  destruct (min_semivariance_best w o u d Hop Hr sv true Hsv w' o' dd H) as [lb [ub [Hb Hx]]]. rewrite Rmult_0_r in Hx. exists lb, ub. auto.
Qed.
Lemma semi_risk_neutral : forall sv w o u d t m w' o' dd, open_ef w o u -> semi_ready w o u d -> exact_solver sv ->
  e_mu o = Some m -> fresh_name w o "target_semivariance" -> 0 <= sd_freq d ->
  semi_efficient_risk sv d t true w o = (w', o', Ok dd) ->
  exists lb ub, bounds_in_force true o lb ub /\
    best_portfolio w o u lb ub 0 (fun x => sd_freq d * semivariance (sd_returns d) 0 x <= t * t) (fun x => - inner m x) (e_weights o') dd.
Proof.
  intros sv w o u d t m w' o' dd Hop Hr Hsv Em Hf Hfr H.
  destruct (semi_risk_best w o u d Hop Hr sv true Hsv t m w' o' dd Em Hf Hfr H) as [lb [ub [Hb [Hx _]]]]. rewrite Rmult_0_r in Hx. exists lb, ub. auto.
Qed.
Lemma semi_return_long : forall sv w o u d t m w' o' dd, open_ef w o u -> semi_ready w o u d -> exact_solver sv ->
  e_mu o = Some m -> fresh_name w o "target_return" ->
  semi_efficient_return sv d (NFloat t) false w o = (w', o', Ok dd) ->
  best_portfolio w o u (e_lb o) (e_ub o) 1 (fun x => t <= inner m x) (semivariance (sd_returns d) (sd_bench d)) (e_weights o') dd.
Proof.
  intros sv w o u d t m w' o' dd Hop Hr Hsv Em Hf H.
  destruct (semi_return_best w o u d Hop Hr sv false Hsv t m w' o' dd Em Hf H) as [_ [lb [ub [Hb [Hx _]]]]]. rewrite Rmult_1_r in Hx.
  destruct Hb as [[E _]|[_ [-> ->]]]; [discriminate E|exact Hx].
Qed.
Lemma semi_utility_long : forall sv w o u d k m w' o' dd, open_ef w o u -> semi_ready w o u d -> exact_solver sv ->
  e_mu o = Some m -> fresh_name w o "risk_aversion" ->
  semi_max_quadratic_utility sv d k false w o = (w', o', Ok dd) ->
  best_portfolio w o u (e_lb o) (e_ub o) 1 (fun _ => True)
    (fun x => - inner m x / sd_freq d + 1 / 2 * k * semivariance (sd_returns d) (sd_bench d) x) (e_weights o') dd.
Proof.
  intros sv w o u d k m w' o' dd Hop Hr Hsv Em Hf H.
  destruct (semi_utility_best w o u d Hop Hr sv false Hsv k m w' o' dd Em Hf H) as [_ [lb [ub [Hb [Hx _]]]]]. rewrite Rmult_1_r in Hx.
  destruct Hb as [[E _]|[_ [-> ->]]]; [discriminate E|exact Hx].
Qed.
Lemma semi_risk_long : forall sv w o u d t m w' o' dd, open_ef w o u -> semi_ready w o u d -> exact_solver sv ->
  e_mu o = Some m -> fresh_name w o "target_semivariance" -> 0 <= sd_freq d ->
  semi_efficient_risk sv d t false w o = (w', o', Ok dd) ->
  best_portfolio w o u (e_lb o) (e_ub o) 1 (fun x => sqrt (sd_freq d * semivariance (sd_returns d) (sd_bench d) x) <= Rabs t)
    (fun x => - inner m x) (e_weights o') dd /\
  forall rf M, Forall (fun row => total (map Rabs row) <= M) (sd_returns d) ->
    exists ret dev sortino, semi_performance d o' rf = Ok (ret, dev, sortino) /\ dev <= Rabs t + sqrt (sd_freq d) * (M * half_unit 16).
Proof.
  intros sv w o u d t m w' o' dd Hop Hr Hsv Em Hf Hfr H.
  destruct (semi_risk_best w o u d Hop Hr sv false Hsv t m w' o' dd Em Hf Hfr H) as [lb [ub [Hb [Hx Hmu]]]]. rewrite Rmult_1_r in Hx.
  destruct Hb as [[E _]|[_ [-> ->]]]; [discriminate E|].
  assert (Hiff : forall x, sd_freq d * semivariance (sd_returns d) (sd_bench d) x <= t * t <->
     sqrt (sd_freq d * semivariance (sd_returns d) (sd_bench d) x) <= Rabs t).
  { intros x. assert (Hn : 0 <= sd_freq d * semivariance (sd_returns d) (sd_bench d) x).
    { apply Rmult_le_pos; [exact Hfr|]. unfold semivariance. apply Rmult_le_pos.
      - apply total_nonneg, Forall_map, Forall_forall. intros; nra.
      - destruct Hr as [[HT _] _]. left. apply Rinv_0_lt_compat, lt_0_INR. exact HT. }
    rewrite <- (sqrt_Rsqr_abs t). unfold Rsqr. split; intros Hq; [apply sqrt_le_1_alt; exact Hq|].
    apply sqrt_le_0; [exact Hn|nra|exact Hq]. }
  destruct Hx as [s [r [Er [Hround [Hdd [Hadm [Hok Hmin]]]]]]]. split.
  - exists s, r. split; [exact Er|]. split; [exact Hround|]. split; [exact Hdd|]. split; [exact Hadm|]. split; [apply Hiff; exact Hok|].
    intros s' Ha Hk. apply Hmin; [exact Ha|]. apply Hiff. exact Hk.
  - intros rf M HM. eexists _, _, _. split; [rewrite Em in Hmu; apply (semi_perf_run d o' m r rf Er Hmu)|].
    pose proof Hr as [[HT Hrows] _]. eapply Rle_trans; [apply (semidev_round _ _ (s (e_w o)) r M); try assumption|].
    + rewrite (w_length w o u Hop s (proj1 Hadm)). exact Hrows.
    + apply Hiff in Hok. lra.
Qed.
