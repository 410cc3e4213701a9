(** * Comparative statics (C114): the risk-free rate, the level of a tail measure, the benchmark *)
From Coq Require Import ZArith List String Bool Reals Lra Lia.
From Verif Require Import Num Py RBase PyLemmas MBase MConvex MEF MDown SLin SBase SHRP SObj SConvex SDown SPrep SExist SCurve SStatics Sums PBase PObj PRisk PEF PEF2 PEF3 PEF4 PDown PDown2 PDown3 PDown4 PDown5 PDown6 PPrep PPerm2 PPerm4 PExist4 PCurve PCurve2.
Import ListNotations.
Local Open Scope R_scope.

(** ** the rate *)
Theorem more_rate : forall w o u m, open_ef w o u -> e_add o = [] -> e_mu o = Some m -> psd (e_n o) (e_cov o) ->
  Forall (fun ic => constant_on_one_side (e_w o) (snd ic)) u -> Forall (fun ic => known_vars (List.length (w_sizes w)) (snd ic)) u ->
  forall sv sv' rf rf', exact_solver sv -> exact_solver sv' -> rf < rf' ->
  succeeds (max_sharpe sv (NFloat rf) w o) -> succeeds (max_sharpe sv' (NFloat rf') w o) ->
  let vol x := sqrt (qform (e_cov o) x) in
  exists x x', reports (max_sharpe sv (NFloat rf) w o) x /\ reports (max_sharpe sv' (NFloat rf') w o) x' /\
    vol x <= vol x' /\
    (0 < vol x -> inner m x <= inner m x' /\ (inner m x' - rf') / vol x' < (inner m x - rf) / vol x).
Proof.
  intros w o u m Ho Ha Hm Hp C1 C2 sv sv' rf rf' E E' Hr S S' vol. unfold succeeds, reports in *.
  destruct (max_sharpe sv (NFloat rf) w o) as [[w1 o1] [d|e]] eqn:R; [|contradiction]. destruct (max_sharpe sv' (NFloat rf') w o) as [[w2 o2] [d'|e]] eqn:R'; [|contradiction].
  destruct (max_sharpe_best sv w o u _ _ _ _ E Ho Ha Hp C1 C2 R) as (m1 & r1 & Em1 & Er1 & s & rr & Er & F & _ & Ad & Pos & M).
  destruct (max_sharpe_best sv' w o u _ _ _ _ E' Ho Ha Hp C1 C2 R') as (m2 & r2 & Em2 & Er2 & s' & rr' & Er' & F' & _ & Ad' & Pos' & M').
  rewrite Hm in Em1, Em2. injection Em1 as <-. injection Em2 as <-. injection Er1 as <-. injection Er2 as <-.
  specialize (M s' Ad'). specialize (M' s Ad). unfold excess in *. set (x := s (e_w o)) in *. set (x' := s' (e_w o)) in *.
  exists x, x'. split; [exists rr; auto|]. split; [exists rr'; auto|]. change (sqrt (qform (e_cov o) x)) with (vol x) in *. change (sqrt (qform (e_cov o) x')) with (vol x') in *.
  assert (V : 0 <= vol x) by apply sqrt_pos. assert (V' : 0 <= vol x') by apply sqrt_pos. assert (H : vol x <= vol x').
  { apply (Rmult_le_reg_l (rf' - rf)); [lra|]. lra. }
  split; [exact H|]. intros P. assert (P' : 0 < vol x') by lra.
  assert (Q : (inner m x' - rf) / vol x' <= (inner m x - rf) / vol x).
  { apply (Rmult_le_reg_r (vol x * vol x')); [nra|]. replace ((inner m x' - rf) / vol x' * (vol x * vol x')) with ((inner m x' - rf) * vol x) by (field; lra).
    replace ((inner m x - rf) / vol x * (vol x * vol x')) with ((inner m x - rf) * vol x') by (field; lra). exact M. }
  split.
  - apply Rnot_lt_le. intros L. assert ((inner m x' - rf') * vol x' < (inner m x - rf') * vol x').
    { apply Rmult_lt_compat_r; [exact P'|lra]. }
    assert ((inner m x' - rf') * vol x <= (inner m x' - rf') * vol x') by (apply Rmult_le_compat_l; lra). lra.
  - eapply Rlt_le_trans; [|exact Q]. unfold Rdiv. apply Rmult_lt_compat_r; [apply Rinv_0_lt_compat; exact P'|lra].
Qed.

(** ** the level *)
Lemma worst_mean_level : forall beta beta' L, 0 <= beta <= beta' -> beta' < 1 -> (0 < List.length L)%nat -> worst_mean beta L <= worst_mean beta' L.
Proof.
  intros beta beta' L Hb H1 HL. destruct (tail_reached beta' L ltac:(lra) HL) as [a (H2 & H3 & H4)]. rewrite <- H4.
  eapply Rle_trans; [exact (tail_sound beta L a _ ltac:(lra) HL H2 H3)|]. apply Rplus_le_compat_l, Rmult_le_compat_r.
  - apply total_nonneg. exact H2.
  - assert (0 < INR (List.length L)) by (apply lt_0_INR; exact HL). unfold Rdiv. rewrite !Rmult_1_l. apply Rinv_le_contravar; nra.
Qed.
Lemma drawdowns_len : forall rs p l, List.length (drawdowns_from p l rs) = List.length rs.
Proof. induction rs as [|r rs IH]; intros p l; [reflexivity|]. cbn. f_equal. apply IH. Qed.
Theorem cvar_level : forall mi n rows beta beta' b w0 w1 o d w1' o' d', good_rows n rows ->
  cvar_init mi (RTable n rows) beta b w0 = (w1, Ok (o, d)) -> cvar_init mi (RTable n rows) beta' b w0 = (w1', Ok (o', d')) -> beta <= beta' ->
  forall sv sv' mn, exact_solver sv -> exact_solver sv' -> succeeds (min_cvar sv d mn w1 o) -> succeeds (min_cvar sv' d' mn w1' o') ->
  exists x x', reports (min_cvar sv d mn w1 o) x /\ reports (min_cvar sv' d' mn w1' o') x' /\ cvar beta (dropna rows) x <= cvar beta' (dropna rows) x'.
Proof.
  intros mi n rows beta beta' b w0 w1 o d w1' o' d' Hg I I' Hb sv sv' mn E E' S S'.
  destruct (cvar_init_ready _ _ _ _ _ _ _ _ _ Hg I) as (Ho & Hr & Dr & Db). destruct (cvar_init_ready _ _ _ _ _ _ _ _ _ Hg I') as (Ho' & Hr' & Dr' & Db').
  assert (same : w1 = w1' /\ o = o').
  { unfold cvar_init in I, I'. destruct (ef_init mi _ b w0) as [w [q|]]; [|discriminate]. destruct (validate_returns _ _); [|discriminate].
    destruct (validate_beta beta); [|discriminate]. destruct (validate_beta beta'); [|discriminate]. cbv zeta in I, I'. injection I as <- <- _. injection I' as <- <- _. auto. }
  destruct same as [-> ->]. destruct (cvar_new _ _ _ _ _ _ _ _ _ I) as [Ha _]. unfold succeeds, reports in *.
  destruct (min_cvar sv d mn w1' o') as [[w2 o2] [dd|]] eqn:R; [|contradiction]. destruct (min_cvar sv' d' mn w1' o') as [[w3 o3] [dd'|]] eqn:R'; [|contradiction].
  destruct (min_cvar_best w1' o' [] d Ho Hr sv mn _ _ _ E R) as [lb [ub [s [Hf [B _]]]]]. destruct (min_cvar_best w1' o' [] d' Ho' Hr' sv' mn _ _ _ E' R') as [lb' [ub' [s' [Hf' [B' _]]]]].
  destruct (in_force_unique _ _ _ _ _ _ Hf Hf') as [<- <-].
  destruct (best_is _ _ _ _ _ _ Ha _ _ _ _ (ex_intro _ s B)) as (x & r & Er & F & Px & _ & M). destruct (best_is _ _ _ _ _ _ Ha _ _ _ _ (ex_intro _ s' B')) as (x' & r' & Er' & F' & Px' & _ & M').
  exists x, x'. split; [exists r; auto|]. split; [exists r'; auto|]. rewrite Dr, Db in M. eapply Rle_trans; [exact (M x' Px' Logic.I)|].
  destruct Hr as ((T & _) & Hbeta & _). destruct Hr' as (_ & Hbeta' & _). rewrite Db in Hbeta. rewrite Db' in Hbeta'. rewrite Dr in T.
  apply worst_mean_level; [lra|lra|]. unfold period_returns. rewrite !map_length. exact T.
Qed.
Theorem cdar_level : forall mi n rows beta beta' b w0 w1 o d w1' o' d', good_rows n rows ->
  cdar_init mi (RTable n rows) beta b w0 = (w1, Ok (o, d)) -> cdar_init mi (RTable n rows) beta' b w0 = (w1', Ok (o', d')) -> beta <= beta' ->
  forall sv sv' mn, exact_solver sv -> exact_solver sv' -> succeeds (min_cdar sv d mn w1 o) -> succeeds (min_cdar sv' d' mn w1' o') ->
  exists x x', reports (min_cdar sv d mn w1 o) x /\ reports (min_cdar sv' d' mn w1' o') x' /\ cdar beta (dropna rows) x <= cdar beta' (dropna rows) x'.
Proof.
  intros mi n rows beta beta' b w0 w1 o d w1' o' d' Hg I I' Hb sv sv' mn E E' S S'.
  destruct (cdar_init_ready _ _ _ _ _ _ _ _ _ Hg I) as (Ho & Hr & Dr & Db). destruct (cdar_init_ready _ _ _ _ _ _ _ _ _ Hg I') as (Ho' & Hr' & Dr' & Db').
  assert (same : w1 = w1' /\ o = o').
  { unfold cdar_init in I, I'. destruct mi as [m0|]; [|discriminate]. destruct (mu_values m0) as [l|]; [|discriminate]. destruct (ef_init _ _ b w0) as [w [q|]]; [|discriminate]. destruct (validate_returns _ _); [|discriminate].
    destruct (validate_beta beta); [|discriminate]. destruct (validate_beta beta'); [|discriminate]. cbv zeta in I, I'. injection I as <- <- _. injection I' as <- <- _. auto. }
  destruct same as [-> ->]. destruct (cdar_new _ _ _ _ _ _ _ _ _ I) as [Ha _]. unfold succeeds, reports in *.
  destruct (min_cdar sv d mn w1' o') as [[w2 o2] [dd|]] eqn:R; [|contradiction]. destruct (min_cdar sv' d' mn w1' o') as [[w3 o3] [dd'|]] eqn:R'; [|contradiction].
  destruct (min_cdar_best w1' o' [] d Ho Hr sv mn _ _ _ E R) as [lb [ub [s [Hf [B _]]]]]. destruct (min_cdar_best w1' o' [] d' Ho' Hr' sv' mn _ _ _ E' R') as [lb' [ub' [s' [Hf' [B' _]]]]].
  destruct (in_force_unique _ _ _ _ _ _ Hf Hf') as [<- <-].
  destruct (best_is _ _ _ _ _ _ Ha _ _ _ _ (ex_intro _ s B)) as (x & r & Er & F & Px & _ & M). destruct (best_is _ _ _ _ _ _ Ha _ _ _ _ (ex_intro _ s' B')) as (x' & r' & Er' & F' & Px' & _ & M').
  exists x, x'. split; [exists r; auto|]. split; [exists r'; auto|]. rewrite Dr, Db in M. eapply Rle_trans; [exact (M x' Px' Logic.I)|].
  destruct Hr as ((T & _) & Hbeta & _). destruct Hr' as (_ & Hbeta' & _). rewrite Db in Hbeta. rewrite Db' in Hbeta'. rewrite Dr in T.
  apply worst_mean_level; [lra|lra|]. rewrite drawdowns_len. unfold period_returns. rewrite !map_length. exact T.
Qed.

(** ** the benchmark *)
Lemma semivariance_bench : forall rets b b' x, b <= b' -> semivariance rets b x <= semivariance rets b' x.
Proof.
  intros rets b b' x Hb. unfold semivariance, Rdiv. apply Rmult_le_compat_r.
  { destruct (List.length rets) as [|k]; [cbn [INR]; rewrite Rinv_0; lra|]. left. apply Rinv_0_lt_compat, lt_0_INR. lia. }
  induction (period_returns rets x) as [|y l IH]; cbn [map total]; [lra|]. apply Rplus_le_compat; [|exact IH]. unfold shortfall. destruct (Rlt_dec y b); destruct (Rlt_dec y b'); nra.
Qed.
Theorem semi_benchmark : forall mi n rows freq bench bench' b w0 w1 o d w1' o' d', good_rows n rows ->
  semi_init mi (RTable n rows) freq bench b w0 = (w1, Ok (o, d)) -> semi_init mi (RTable n rows) freq bench' b w0 = (w1', Ok (o', d')) -> bench <= bench' ->
  forall sv sv', exact_solver sv -> exact_solver sv' -> succeeds (min_semivariance sv d false w1 o) -> succeeds (min_semivariance sv' d' false w1' o') ->
  exists x x', reports (min_semivariance sv d false w1 o) x /\ reports (min_semivariance sv' d' false w1' o') x' /\ semivariance (dropna rows) bench x <= semivariance (dropna rows) bench' x'.
Proof.
  intros mi n rows freq beta beta' b w0 w1 o d w1' o' d' Hg I I' Hb sv sv' E E' S S'.
  destruct (semi_init_ready _ _ _ _ _ _ _ _ _ _ Hg I) as (Ho & Hr & Dr). destruct (semi_init_ready _ _ _ _ _ _ _ _ _ _ Hg I') as (Ho' & Hr' & Dr').
  assert (same : w1 = w1' /\ o = o').
  { unfold semi_init in I, I'. destruct (ef_init mi _ b w0) as [w [q|]]; [|discriminate]. destruct (validate_returns _ _); [|discriminate].
    injection I as <- <- _. injection I' as <- <- _. auto. }
  destruct same as [-> ->]. destruct (semi_new _ _ _ _ _ _ _ _ _ _ I) as [Ha _]. unfold succeeds, reports in *.
  destruct (min_semivariance sv d false w1' o') as [[w2 o2] [dd|]] eqn:R; [|contradiction]. destruct (min_semivariance sv' d' false w1' o') as [[w3 o3] [dd'|]] eqn:R'; [|contradiction].
  destruct (min_semi_long sv w1' o' [] d _ _ _ Ho Hr E R) as [B _]. destruct (min_semi_long sv' w1' o' [] d' _ _ _ Ho' Hr' E' R') as [B' _].
  destruct (best_is _ _ _ _ _ _ Ha _ _ _ _ B) as (x & r & Er & F & Px & _ & M). destruct (best_is _ _ _ _ _ _ Ha _ _ _ _ B') as (x' & r' & Er' & F' & Px' & _ & M').
  exists x, x'. split; [exists r; auto|]. split; [exists r'; auto|]. rewrite Dr in M. cbn [sd_returns sd_bench] in M. eapply Rle_trans; [exact (M x' Px' Logic.I)|]. apply semivariance_bench. exact Hb.
Qed.
