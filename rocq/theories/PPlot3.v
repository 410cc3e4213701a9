(** * Properties of plot_efficient_frontier *)
From Coq Require Import ZArith List String Bool Reals Lra Lia.
From Verif Require Import Num Py RBase PyLemmas MBase MCLA MConvex MEF MDown MCalls MPlot MPlot2 MPlot3 SLin SConvex SPlot SPlot2 SPlot3 PBase PConvex PEF PEF2 PDown5 PPlot PPlot2.
Import ListNotations.
Local Open Scope R_scope.

(** ** the problem stays *)
Definition same_problem (o o' : ef) : Prop := e_mu o' = e_mu o /\ e_cov o' = e_cov o /\ b_tickers (e_base o') = b_tickers (e_base o).
Lemma sp_refl : forall o, same_problem o o. Proof. intros o; repeat split. Qed.
Lemma sp_trans : forall a b c, same_problem a b -> same_problem b c -> same_problem a c.
Proof. intros a b c [? [? ?]] [? [? ?]]. repeat split; congruence. Qed.
Ltac sp_mod := apply pres_modify; intros ?; repeat split.
Lemma sp_solve : forall sv, pres same_problem (solve_opt sv).
Proof. intros sv. pres_go sp_refl sp_trans sp_mod. Qed.
Lemma sp_methods : forall sv pinv name m v, ef_methods sv pinv name = Some m -> pres same_problem (m v).
Proof.
  intros sv pinv name m v H. unfold ef_methods in H.
  destruct (String.eqb name "utility"); [injection H as <-|destruct (String.eqb name "risk"); [injection H as <-|destruct (String.eqb name "return"); [injection H as <-|discriminate]]].
  all: pres_go sp_refl sp_trans ltac:(first [apply sp_solve | sp_mod]).
Qed.
Lemma sp_g_methods : forall sv k name m v, g_methods sv k name = Some m -> pres same_problem (m v).
Proof.
  intros sv k name m v H. unfold g_methods in H.
  destruct (String.eqb name "utility"); [injection H as <-|destruct (String.eqb name "risk"); [injection H as <-|destruct (String.eqb name "return"); [injection H as <-|discriminate]]].
  all: pres_go sp_refl sp_trans ltac:(first [apply sp_solve | sp_mod]).
Qed.
Lemma sp_attempt : forall methods name v, (forall m, methods name = Some m -> pres same_problem (m v)) -> pres same_problem (attempt methods name v).
Proof. intros methods name v H. unfold attempt. destruct (methods name); [auto|]. apply pres_raise. exact sp_refl. Qed.
Lemma sp_loop : forall methods perf name vs, (forall v m, methods name = Some m -> pres same_problem (m v)) ->
  pres same_problem (plot_loop methods perf name vs).
Proof.
  intros methods perf name vs Hm. induction vs as [|v vs IH]; intros w o w' o' r H; cbn [plot_loop] in H; [inversion H; subst; apply sp_refl|].
  destruct (attempt methods name v w o) as [[w1 o1] a] eqn:E. pose proof (sp_attempt methods name v (Hm v) _ _ _ _ _ E) as S1.
  assert (K : forall r', match perf o1 with Err e => (w1, o1, Err e) | Ok p => match plot_loop methods perf name vs w1 o1 with (w2, s2, Ok ps) => (w2, s2, Ok (p :: ps)) | (w2, s2, Err e) => (w2, s2, Err e) end end = (w', o', r') -> same_problem o o').
  { intros r' K. destruct (perf o1) as [p|e]; [|inversion K; subst; exact S1].
    destruct (plot_loop methods perf name vs w1 o1) as [[w2 o2] [ps|e]] eqn:L; inversion K; subst; (eapply sp_trans; [exact S1|]); eapply IH; exact L. }
  destruct a as [[]|e]; [eapply K; exact H|].
  destruct e; try (inversion H; subst; exact S1); [eapply K; exact H|]. eapply sp_trans; [exact S1|]. eapply IH; exact H.
Qed.
Lemma sp_frontier : forall sv pinv name range points, pres same_problem (plot_frontier sv pinv name range points).
Proof.
  intros. unfold plot_frontier. apply (pres_bind _ sp_trans).
  - destruct range; [apply pres_ret; exact sp_refl|]. pres_go sp_refl sp_trans sp_mod.
  - intros vs. apply sp_loop. intros v m. apply sp_methods.
Qed.
Lemma sp_downside : forall sv k name range, pres same_problem (plot_downside sv k name range).
Proof.
  intros. unfold plot_downside. apply (pres_bind _ sp_trans).
  - destruct range; [apply pres_ret; exact sp_refl|]. apply pres_raise. exact sp_refl.
  - intros vs. apply sp_loop. intros v m. apply sp_g_methods.
Qed.

Lemma nth_error_ext_len : forall {X} (a b : list X), List.length a = List.length b -> (forall j, (j < List.length a)%nat -> nth_error a j = nth_error b j) -> a = b.
Proof.
  induction a as [|x a IH]; intros [|y b] Hl H; try discriminate Hl; [reflexivity|]. pose proof (H O ltac:(cbn; lia)) as H0. cbn in H0. injection H0 as ->.
  f_equal. apply IH; [cbn in Hl; lia|]. intros j Hj. apply (H (S j)). cbn. lia.
Qed.

(** ** the matrix of the downside classes *)
Lemma init_cov : forall mi n b w0 w1 o, ef_init mi (CIn (CovArray (zeros n))) b w0 = (w1, Ok o) ->
  e_cov o = zeros n /\ forall mu, e_mu o = Some mu -> List.length mu = n.
Proof.
  intros mi n b w0 w1 o E. destruct (ef_init_inv _ _ _ _ _ _ E) as [m [lb [ub [-> [Hs [Hb [-> ->]]]]]]]. split; [reflexivity|].
  intros mu Hm. cbn [init_ef e_mu] in Hm. unfold init_shape_ok in Hs. rewrite Hm in Hs. destruct Hs as [Hs _]. cbn [cov_values] in Hs. unfold zeros in Hs. rewrite repeat_length in Hs. auto.
Qed.
Lemma constructed_zero : forall k o, constructed k o -> exists n, e_cov o = zeros n /\ forall mu, e_mu o = Some mu -> List.length mu = n.
Proof.
  intros k o0 [o mu r w0 w1 fr bm b d H|o mu r w0 w1 beta b d H|o mu r w0 w1 beta b d H].
  - unfold semi_init in H. destruct r as [n rows|]; [|discriminate H]. destruct (ef_init _ _ _ _) as [w2 [o2|e]] eqn:E; [|discriminate H].
    destruct (validate_returns _ _); [|discriminate H]. injection H as <- <- _. exists n. exact (init_cov _ _ _ _ _ _ E).
  - unfold cvar_init in H. destruct r as [n rows|]; [|discriminate H]. destruct (ef_init _ _ _ _) as [w2 [o2|e]] eqn:E; [|discriminate H].
    destruct (validate_returns _ _); [|discriminate H]. destruct (validate_beta _); [|discriminate H]. injection H as <- <- _. exists n. exact (init_cov _ _ _ _ _ _ E).
  - unfold cdar_init in H. destruct mu as [m0|]; [|discriminate H]. destruct (mu_values m0) as [l|]; [|discriminate H].
    destruct (ef_init _ _ _ _) as [w2 [o2|e]] eqn:E; [|discriminate H].
    destruct (validate_returns _ _); [|discriminate H]. destruct (validate_beta _); [|discriminate H]. injection H as <- <- _. exists (List.length l). exact (init_cov _ _ _ _ _ _ E).
Qed.

(** ** the two engines *)
Lemma markers_static : forall sa st tk l m, asset_markers sa st false tk l = Ok m -> asset_markers sa st true tk l = Ok (fst m, []).
Proof.
  intros sa st tk l m H. unfold asset_markers in *. destruct sa; [|injection H as <-; reflexivity]. rewrite andb_true_r in H. rewrite andb_false_r. cbn [negb rbind].
  destruct st; [destruct (annotate tk l); [|discriminate H]|]; cbn [rbind] in H; injection H as <-; reflexivity.
Qed.
Lemma draw_ef_engine : forall sa st io io' o ps d, draw_ef sa st false io o ps = Ok d ->
  exists d', draw_ef sa st true io' o ps = Ok d' /\ same_picture d d' /\ d_names d' = [] /\ d_calls d' = [].
Proof.
  intros sa st io io' o ps d H. unfold draw_ef in *. destruct (if sa then ef_assets o else Ok []) as [l|e]; [|discriminate H]. cbn [rbind] in *.
  destruct (asset_markers sa st false _ l) as [m|e] eqn:E; [|discriminate H]. rewrite (markers_static _ _ _ _ _ E). cbn [rbind fst snd] in *.
  injection H as <-. eexists. split; [reflexivity|]. repeat split.
Qed.
Lemma draw_cla_engine : forall sa st io io' p d, draw_cla sa st false io p = Ok d ->
  exists d', draw_cla sa st true io' p = Ok d' /\ same_picture d d' /\ d_names d' = [] /\ d_calls d' = [].
Proof.
  intros sa st io io' p d H. unfold draw_cla in *. 
  destruct (asset_markers sa st false _ _) as [m|e] eqn:E; [|discriminate H]. rewrite (markers_static _ _ _ _ _ E). cbn [rbind fst snd] in *.
  injection H as <-. eexists. split; [reflexivity|]. repeat split.
Qed.
Lemma draw_ef_back : forall sa io io' o ps, draw_ef sa false true io o ps =
  match draw_ef sa false false io' o ps with Ok d => Ok (mkDraw (d_curve d) (d_marker d) (d_assets d) (d_names d) []) | Err e => Err e end.
Proof.
  intros. unfold draw_ef. destruct (if sa then ef_assets o else Ok []) as [l|e]; [|reflexivity]. cbn [rbind].
  destruct sa; reflexivity.
Qed.
Lemma draw_cla_back : forall sa io io' p, draw_cla sa false true io p =
  match draw_cla sa false false io' p with Ok d => Ok (mkDraw (d_curve d) (d_marker d) (d_assets d) (d_names d) []) | Err e => Err e end.
Proof. intros. unfold draw_cla. destruct sa; reflexivity. Qed.

Section Plot.
  Context (fuel : nat) (inv : list (list R) -> res (list (list R))) (ord : list nat -> list nat)
          (sv : solver_t) (pinv : list (list R) -> list (list R)).
  Let P := plot_efficient_frontier fuel inv ord sv pinv.

  Theorem plot_other : forall name range points sa st i io w, P OptOther name range points sa st i io w = (w, OptOther, Err NotImplementedError).
  Proof. reflexivity. Qed.
  Theorem plot_engine : forall opt name range points sa st io io' w w' opt' d,
    P opt name range points sa st false io w = (w', opt', Ok d) ->
    exists d', P opt name range points sa st true io' w = (w', opt', Ok d') /\ same_picture d d' /\ d_names d' = [] /\ d_calls d' = [].
  Proof.
    intros opt name range points sa st io io' w w' opt' d H. unfold P, plot_efficient_frontier in *. destruct opt as [o|o|k o|].
    - destruct (plot_cla fuel inv ord points o) as [o1 [p|e]]; [|discriminate H].
      destruct (draw_cla sa st false io p) as [x|] eqn:E; [|discriminate H]. injection H as <- <- <-.
      destruct (draw_cla_engine _ _ _ io' _ _ E) as [d' [-> Hd]]. exists d'. split; [reflexivity|exact Hd].
    - destruct (plot_frontier sv pinv name range points w o) as [[w1 o1] [p|e]]; [|discriminate H].
      destruct (draw_ef sa st false io o1 p) as [x|] eqn:E; [|discriminate H]. injection H as <- <- <-.
      destruct (draw_ef_engine _ _ _ io' _ _ _ E) as [d' [-> Hd]]. exists d'. split; [reflexivity|exact Hd].
    - destruct (plot_downside sv k name range w o) as [[w1 o1] [p|e]]; [|discriminate H].
      destruct (draw_ef sa st false io o1 p) as [x|] eqn:E; [|discriminate H]. injection H as <- <- <-.
      destruct (draw_ef_engine _ _ _ io' _ _ _ E) as [d' [-> Hd]]. exists d'. split; [reflexivity|exact Hd].
    - discriminate H.
  Qed.
  Theorem plot_engine_back : forall opt name range points sa io io' w w' opt' d,
    P opt name range points sa false true io w = (w', opt', Ok d) ->
    exists d', P opt name range points sa false false io' w = (w', opt', Ok d') /\ same_picture d d'.
  Proof.
    intros opt name range points sa io io' w w' opt' d H. unfold P, plot_efficient_frontier in *. destruct opt as [o|o|k o|].
    - destruct (plot_cla fuel inv ord points o) as [o1 [p|e]]; [|discriminate H]. rewrite (draw_cla_back sa io io') in H.
      destruct (draw_cla sa false false io' p) as [x|]; [|discriminate H]. injection H as <- <- <-. eexists. split; [reflexivity|]. repeat split.
    - destruct (plot_frontier sv pinv name range points w o) as [[w1 o1] [p|e]]; [|discriminate H]. rewrite (draw_ef_back sa io io') in H.
      destruct (draw_ef sa false false io' o1 p) as [x|]; [|discriminate H]. injection H as <- <- <-. eexists. split; [reflexivity|]. repeat split.
    - destruct (plot_downside sv k name range w o) as [[w1 o1] [p|e]]; [|discriminate H]. rewrite (draw_ef_back sa io io') in H.
      destruct (draw_ef sa false false io' o1 p) as [x|]; [|discriminate H]. injection H as <- <- <-. eexists. split; [reflexivity|]. repeat split.
    - discriminate H.
  Qed.

  (** ** files *)
  Lemma plot_calls : forall opt name range points sa st i io w w' opt' d,
    P opt name range points sa st i io w = (w', opt', Ok d) -> d_calls d = finish i io.
  Proof.
    intros opt name range points sa st i io w w' opt' d H. unfold P, plot_efficient_frontier in *. destruct opt as [o|o|k o|].
    - destruct (plot_cla fuel inv ord points o) as [o1 [p|e]]; [|discriminate H]. unfold draw_cla in H.
      destruct (asset_markers _ _ _ _ _) as [x|]; [|discriminate H]. injection H as <- <- <-. reflexivity.
    - destruct (plot_frontier sv pinv name range points w o) as [[w1 o1] [p|e]]; [|discriminate H]. unfold draw_ef in H.
      destruct (if sa then _ else _) as [l|]; [|discriminate H]. cbn [rbind] in H.
      destruct (asset_markers _ _ _ _ _) as [x|]; [|discriminate H]. injection H as <- <- <-. reflexivity.
    - destruct (plot_downside sv k name range w o) as [[w1 o1] [p|e]]; [|discriminate H]. unfold draw_ef in H.
      destruct (if sa then _ else _) as [l|]; [|discriminate H]. cbn [rbind] in H.
      destruct (asset_markers _ _ _ _ _) as [x|]; [|discriminate H]. injection H as <- <- <-. reflexivity.
    - discriminate H.
  Qed.
  Theorem plot_saves : forall opt name range points sa st io w w' opt' d,
    P opt name range points sa st false io w = (w', opt', Ok d) ->
    (forall f, io_filename io = Some f -> f <> ""%string -> files (d_calls d) = [(f, io_dpi io)]) /\
    (io_filename io = None \/ io_filename io = Some ""%string -> files (d_calls d) = []) /\
    (In ShowFig (d_calls d) <-> io_showfig io = true).
  Proof.
    intros opt name range points sa st io w w' opt' d H. rewrite (plot_calls _ _ _ _ _ _ _ _ _ _ _ _ H). destruct io as [fn sh dpi]. cbn [finish plot_io io_filename io_showfig io_dpi].
    split; [|split].
    - intros f -> Hf. apply String.eqb_neq in Hf. unfold plot_io. cbn [io_filename io_showfig io_dpi]. rewrite Hf. destruct sh; reflexivity.
    - intros [-> | ->]; destruct sh; reflexivity.
    - unfold plot_io. cbn [io_filename io_showfig io_dpi]. destruct sh; split; try reflexivity; try discriminate.
      + intros _. apply in_or_app. right. apply in_or_app. right. left. reflexivity.
      + intros K. apply in_app_or in K. destruct K as [[K|[]]|K]; [discriminate K|]. apply in_app_or in K. destruct K as [K|[]].
        destruct fn as [f|]; [|destruct K]. destruct (String.eqb f ""); [destruct K|]. destruct K as [K|[]]; discriminate K.
  Qed.
  Theorem plot_interactive_unsaved : forall opt name range points sa st io w w' opt' d,
    P opt name range points sa st true io w = (w', opt', Ok d) -> d_calls d = [].
  Proof. intros opt name range points sa st io w w' opt' d H. exact (plot_calls _ _ _ _ _ _ _ _ _ _ _ _ H). Qed.

  (** ** labels *)
  Lemma markers_named : forall tk l m, asset_markers true true false tk l = Ok m -> fst m = l /\ snd m = combine tk l /\ (List.length tk <= List.length l)%nat.
  Proof.
    intros tk l m H. unfold asset_markers, annotate in H. cbn [andb negb] in H.
    destruct (List.length tk <=? List.length l)%nat eqn:E; [|discriminate H]. cbn [rbind] in H. injection H as <-. apply Nat.leb_le in E. auto.
  Qed.
  Theorem plot_names : forall opt name range points io w w' opt' d,
    P opt name range points true true false io w = (w', opt', Ok d) ->
    List.length (d_names d) = List.length (labels_of opt) /\
    forall i t, nth_error (labels_of opt) i = Some t -> exists p, nth_error (d_assets d) i = Some p /\ nth_error (d_names d) i = Some (t, p).
  Proof.
    intros opt name range points io w w' opt' d H.
    assert (G : d_names d = combine (labels_of opt) (d_assets d) /\ (List.length (labels_of opt) <= List.length (d_assets d))%nat).
    { unfold P, plot_efficient_frontier in *. destruct opt as [o|o|k o|].
      - destruct (plot_cla fuel inv ord points o) as [o1 [p|e]] eqn:E; [|discriminate H]. unfold draw_cla in H.
        destruct (asset_markers _ _ _ _ _) as [x|] eqn:A; [|discriminate H]. injection H as <- <- <-. destruct (markers_named _ _ _ A) as [A1 [A2 A3]].
        cbn [d_names d_assets labels_of]. rewrite A1, A2.
        assert (Hn : p_names p = b_tickers (c_base o)).
        { unfold plot_cla in E. destruct (marker_weights fuel inv ord o) as [o2 [[]|e]] eqn:M; [|discriminate E]. destruct (cla_performance 0 o2) as [[[mu sg] sh]|e]; [|discriminate E].
          destruct (curve_values fuel inv ord points o2) as [o3 [[[mus sgs] ws]|e]] eqn:C; [|discriminate E].
          destruct (asset_deviations (c_cov o3)); [|discriminate E]. cbn [rbind] in E. injection E as <- <-. cbn [p_names].
          destruct (marker_keeps _ _ _ _ _ _ M) as [[_ [_ [_ [_ K1]]]] _]. destruct (curve_keeps _ _ _ _ _ _ _ C) as [[_ [_ [_ [_ K2]]]] _]. congruence. }
        rewrite <- Hn. auto.
      - destruct (plot_frontier sv pinv name range points w o) as [[w1 o1] [p|e]] eqn:E; [|discriminate H]. unfold draw_ef in H.
        destruct (ef_assets o1) as [l|]; [|discriminate H]. cbn [rbind] in H.
        destruct (asset_markers _ _ _ _ _) as [x|] eqn:A; [|discriminate H]. injection H as <- <- <-. destruct (markers_named _ _ _ A) as [A1 [A2 A3]].
        cbn [d_names d_assets labels_of]. rewrite A1, A2. destruct (sp_frontier _ _ _ _ _ _ _ _ _ _ E) as [_ [_ K]]. rewrite K in *. auto.
      - destruct (plot_downside sv k name range w o) as [[w1 o1] [p|e]] eqn:E; [|discriminate H]. unfold draw_ef in H.
        destruct (ef_assets o1) as [l|]; [|discriminate H]. cbn [rbind] in H.
        destruct (asset_markers _ _ _ _ _) as [x|] eqn:A; [|discriminate H]. injection H as <- <- <-. destruct (markers_named _ _ _ A) as [A1 [A2 A3]].
        cbn [d_names d_assets labels_of]. rewrite A1, A2. destruct (sp_downside _ _ _ _ _ _ _ _ _ E) as [_ [_ K]]. rewrite K in *. auto.
      - discriminate H. }
    destruct G as [G1 G2]. rewrite G1. split; [rewrite combine_length; lia|]. clear -G2. generalize dependent (d_assets d). generalize (labels_of opt).
    induction l as [|x l IH]; intros a Ha [|i] t Ht; try discriminate Ht; destruct a as [|q a]; cbn in Ha; try lia.
    - cbn in Ht. injection Ht as <-. exists q. auto.
    - cbn in Ht. apply (IH a); [lia|exact Ht].
  Qed.
  Theorem plot_hidden : forall opt name range points st i io w w' opt' d,
    P opt name range points false st i io w = (w', opt', Ok d) -> d_assets d = [] /\ d_names d = [].
  Proof.
    intros opt name range points st i io w w' opt' d H. unfold P, plot_efficient_frontier in *. destruct opt as [o|o|k o|].
    - destruct (plot_cla fuel inv ord points o) as [o1 [p|e]]; [|discriminate H]. injection H as <- <- <-. auto.
    - destruct (plot_frontier sv pinv name range points w o) as [[w1 o1] [p|e]]; [|discriminate H]. injection H as <- <- <-. auto.
    - destruct (plot_downside sv k name range w o) as [[w1 o1] [p|e]]; [|discriminate H]. injection H as <- <- <-. auto.
    - discriminate H.
  Qed.

  (** ** asset markers of the object that was passed in *)
  Lemma markers_shown : forall st i tk l m, asset_markers true st i tk l = Ok m -> fst m = l.
  Proof. intros st i tk l m H. unfold asset_markers in H. destruct (if st && negb i then _ else _); [|discriminate H]. cbn [rbind] in H. injection H as <-. reflexivity. Qed.
  Theorem plot_frontier_assets : forall o mu name range points st i io w w' opt' d,
    P (OptEF o) name range points true st i io w = (w', opt', Ok d) -> e_mu o = Some mu -> List.length mu = List.length (e_cov o) ->
    asset_at mu (e_cov o) (d_assets d).
  Proof.
    intros o mu name range points st i io w w' opt' d H Hm Hl. unfold P, plot_efficient_frontier in H.
    destruct (plot_frontier sv pinv name range points w o) as [[w1 o1] [p|e]] eqn:E; [|discriminate H]. unfold draw_ef in H.
    destruct (ef_assets o1) as [l|] eqn:L; [|discriminate H]. cbn [rbind] in H.
    destruct (asset_markers _ _ _ _ _) as [x|] eqn:A; [|discriminate H]. injection H as <- <- <-. cbn [d_assets]. rewrite (markers_shown _ _ _ _ _ A).
    destruct (sp_frontier _ _ _ _ _ _ _ _ _ _ E) as [K1 [K2 _]]. rewrite <- K2. apply (ef_plot_assets o1); [exact L|congruence|congruence].
  Qed.
  Theorem plot_cla_assets : forall o name range points st i io w w' opt' d,
    P (OptCLA o) name range points true st i io w = (w', opt', Ok d) -> List.length (c_mean o) = List.length (c_cov o) ->
    asset_at (c_mean o) (c_cov o) (d_assets d).
  Proof.
    intros o name range points st i io w w' opt' d H Hl. unfold P, plot_efficient_frontier in H.
    destruct (plot_cla fuel inv ord points o) as [o1 [p|e]] eqn:E; [|discriminate H]. unfold draw_cla in H.
    destruct (asset_markers _ _ _ _ _) as [x|] eqn:A; [|discriminate H]. injection H as <- <- <-. cbn [d_assets]. rewrite (markers_shown _ _ _ _ _ A).
    destruct (plot_assets _ _ _ _ _ _ _ E Hl) as [_ B]. exact B.
  Qed.
  (** the downside classes have an all-zero covariance matrix *)
  Theorem plot_downside_assets : forall k o n mu name range points st i io w w' opt' d,
    P (OptDown k o) name range points true st i io w = (w', opt', Ok d) -> e_cov o = zeros n -> e_mu o = Some mu -> List.length mu = n ->
    d_assets d = map (fun m => (0, m)) mu.
  Proof.
    intros k o n mu name range points st i io w w' opt' d H Hc Hm Hl. unfold P, plot_efficient_frontier in H.
    destruct (plot_downside sv k name range w o) as [[w1 o1] [p|e]] eqn:E; [|discriminate H]. unfold draw_ef in H.
    destruct (ef_assets o1) as [l|] eqn:L; [|discriminate H]. cbn [rbind] in H.
    destruct (asset_markers _ _ _ _ _) as [x|] eqn:A; [|discriminate H]. injection H as <- <- <-. cbn [d_assets]. rewrite (markers_shown _ _ _ _ _ A).
    destruct (sp_downside _ _ _ _ _ _ _ _ _ E) as [K1 [K2 _]].
    assert (Z1 : List.length (e_cov o1) = n) by (rewrite K2, Hc; apply repeat_length).
    destruct (ef_plot_assets o1 mu l L ltac:(congruence) ltac:(congruence)) as [B1 B2].
    apply nth_error_ext_len; [rewrite map_length; exact B1|]. intros j Hj. rewrite B1 in Hj. destruct (B2 j Hj) as [s [S1 [S2 S3]]]. rewrite S1.
    rewrite nth_error_map, (nth_error_nth' mu 0 Hj). cbn [option_map]. do 2 f_equal.
    rewrite K2, Hc in S3. unfold zeros in S3.
    assert (Q : nth j (nth j (repeat (repeat 0 n) n) []) 0 = 0).
    { assert (Hn : (j < n)%nat) by lia. rewrite (nth_indep _ [] (repeat 0 n)) by (rewrite repeat_length; exact Hn). rewrite nth_repeat. apply nth_repeat. }
    rewrite Q in S3. nra.
  Qed.

  Theorem plot_constructed_assets : forall k o mu name range points st i io w w' opt' d, constructed k o -> e_mu o = Some mu ->
    P (OptDown k o) name range points true st i io w = (w', opt', Ok d) -> d_assets d = map (fun m => (0, m)) mu.
  Proof.
    intros k o mu name range points st i io w w' opt' d Hc Hm H. destruct (constructed_zero k o Hc) as [n [H1 H2]].
    exact (plot_downside_assets k o n mu name range points st i io w w' opt' d H H1 Hm (H2 mu Hm)).
  Qed.

  (** ** the downside classes *)
  Theorem plot_downside_default : forall k o name points sa st i io w,
    P (OptDown k o) name None points sa st i io w = (w, OptDown k o, Err NotImplementedError).
  Proof. reflexivity. Qed.
  Lemma tail_loop_empty : forall k name vs w o w' o' ps, (forall d, k <> DSemi d) ->
    plot_loop (g_methods sv k) (g_point k) name vs w o = (w', o', Ok ps) -> ps = [].
  Proof.
    intros k name vs. induction vs as [|v vs IH]; intros w o w' o' ps Hk H; cbn [plot_loop] in H; [inversion H; reflexivity|].
    assert (G : forall o1, g_point k o1 = Err ValueError) by (intros o1; destruct k as [d| |]; [exfalso; exact (Hk d eq_refl)|reflexivity|reflexivity]).
    destruct (attempt _ name v w o) as [[w1 o1] [[]|e]]; [rewrite G in H; discriminate H|].
    destruct e; try discriminate H; [rewrite G in H; discriminate H|]. eapply IH; [exact Hk|exact H].
  Qed.
  Theorem plot_tail_empty : forall k o name range points sa st i io w w' opt' d, (forall s, k <> DSemi s) ->
    P (OptDown k o) name range points sa st i io w = (w', opt', Ok d) -> d_curve d = [].
  Proof.
    intros k o name range points sa st i io w w' opt' d Hk H. unfold P, plot_efficient_frontier in H.
    destruct (plot_downside sv k name range w o) as [[w1 o1] [p|e]] eqn:E; [|discriminate H]. unfold draw_ef in H.
    destruct (if sa then _ else _) as [l|]; [|discriminate H]. cbn [rbind] in H.
    destruct (asset_markers _ _ _ _ _) as [x|]; [|discriminate H]. injection H as <- <- <-. cbn [d_curve].
    unfold plot_downside, bind in E. destruct range as [vs|]; [|discriminate E]. unfold ret in E. rewrite (tail_loop_empty _ _ _ _ _ _ _ _ Hk E). reflexivity.
  Qed.
  (** one parameter that can be solved is enough to end the plot *)
  Theorem plot_tail_fails : forall k o name v vs points sa st i io w w1 o1, (forall s, k <> DSemi s) ->
    attempt (g_methods sv k) name v w o = (w1, o1, Ok tt) ->
    P (OptDown k o) name (Some (v :: vs)) points sa st i io w = (w1, OptDown k o1, Err ValueError).
  Proof.
    intros k o name v vs points sa st i io w w1 o1 Hk H. unfold P, plot_efficient_frontier, plot_downside, bind, ret. cbn [plot_loop]. rewrite H.
    destruct k as [d| |]; [exfalso; exact (Hk d eq_refl)|reflexivity|reflexivity].
  Qed.

  (** ** the curve *)
  Theorem plot_curve_frontier : forall o name vs points sa st i io w w' opt' d,
    P (OptEF o) name (Some vs) points sa st i io w = (w', opt', Ok d) ->
    let h := history (try_once (ef_methods sv pinv) name) vs (w, o) in
    Forall (fun x => skipped x \/ kept x) h /\
    Forall2 (fun x p => exists r, ef_performance (2 / 100) (snd (v_after x)) = Ok (snd p, fst p, r)) (shown h) (d_curve d).
  Proof.
    intros o name vs points sa st i io w w' opt' d H h. unfold P, plot_efficient_frontier in H.
    destruct (plot_frontier sv pinv name (Some vs) points w o) as [[w1 o1] [ps|e]] eqn:E; [|discriminate H]. unfold draw_ef in H.
    destruct (if sa then _ else _) as [l|]; [|discriminate H]. cbn [rbind] in H.
    destruct (asset_markers _ _ _ _ _) as [x|]; [|discriminate H]. injection H as <- <- <-. cbn [d_curve].
    unfold plot_frontier, bind, ret in E. destruct (loop_complete _ _ _ _ _ _ _ _ _ E) as [A B]. split; [exact A|].
    clear -B. unfold h. induction B as [|x p l l' H B IH]; constructor; [|exact IH]. unfold ef_point in H.
    destruct (ef_performance (2 / 100) (snd (v_after x))) as [[[a b] c]|]; [|discriminate H]. cbn [rbind fst snd] in H. injection H as <-. exists c. reflexivity.
  Qed.
  Theorem plot_curve_semi : forall k o name vs points sa st i io w w' opt' d,
    P (OptDown (DSemi k) o) name (Some vs) points sa st i io w = (w', opt', Ok d) ->
    let h := history (try_once (g_methods sv (DSemi k)) name) vs (w, o) in
    Forall (fun x => skipped x \/ kept x) h /\
    Forall2 (fun x p => exists m r, snd p = Some m /\ semi_performance k (snd (v_after x)) (2 / 100) = Ok (m, fst p, r)) (shown h) (d_curve d).
  Proof.
    intros k o name vs points sa st i io w w' opt' d H h. unfold P, plot_efficient_frontier in H.
    destruct (plot_downside sv (DSemi k) name (Some vs) w o) as [[w1 o1] [ps|e]] eqn:E; [|discriminate H]. unfold draw_ef in H.
    destruct (if sa then _ else _) as [l|]; [|discriminate H]. cbn [rbind] in H.
    destruct (asset_markers _ _ _ _ _) as [x|]; [|discriminate H]. injection H as <- <- <-. cbn [d_curve].
    unfold plot_downside, bind, ret in E. destruct (loop_complete _ _ _ _ _ _ _ _ _ E) as [A B]. split; [exact A|].
    clear -B. unfold h. induction B as [|x p l l' H B IH]; constructor; [|exact IH]. unfold g_point in H.
    destruct (semi_performance k (snd (v_after x)) (2 / 100)) as [[[a b] c]|]; [|discriminate H]. cbn [rbind fst snd] in H. injection H as <-. exists a, c. split; reflexivity.
  Qed.

  (** ** the default range does not depend on the parameter's name *)
  Lemma default_range_same : forall points w o w' o' r, default_range sv points w o = (w', o', r) -> o' = o.
  Proof.
    intros points. change (pres (fun a b : ef => b = a) (default_range sv points)). unfold default_range.
    assert (Er : forall o : ef, o = o) by reflexivity. assert (Et : forall a b c : ef, b = a -> c = b -> c = a) by congruence.
    apply (pres_bind (fun a b : ef => b = a) Et); [apply (pres_on_copy (fun a b : ef => b = a) Er)|]. intros lo. apply (pres_bind (fun a b : ef => b = a) Et); [apply (pres_on_copy (fun a b : ef => b = a) Er)|]. intros hi.
    destruct lo; [apply (pres_ret (fun a b : ef => b = a) Er)|apply (pres_raise (fun a b : ef => b = a) Er)].
  Qed.
  Theorem plot_default_range : forall o points w, (0 < points)%nat ->
    (exists w1 vs lo hi sg sr wm om d wx ox, min_volatility sv w o = (wm, om, Ok d) /\ ef_performance (2 / 100) om = Ok (Some lo, sg, sr) /\
       max_return sv wm o = (wx, ox, Ok hi) /\ List.length vs = points /\ evenly_spaced lo (hi - 1 / 10000) vs /\
       forall name sa st i io, P (OptEF o) name None points sa st i io w = P (OptEF o) name (Some vs) points sa st i io w1) \/
    (exists w1 e, forall name sa st i io, P (OptEF o) name None points sa st i io w = (w1, OptEF o, Err e)).
  Proof.
    intros o points w Hp. destruct (default_range sv points w o) as [[w1 o1] [vs|e]] eqn:E.
    - left. destruct (default_range_spec _ _ _ _ _ _ _ E Hp) as [-> [Hl (wm & om & d & lo & sg & sr & wx & ox & hi & A & B & C & D)]].
      exists w1, vs, lo, hi, sg, sr, wm, om, d, wx, ox. repeat split; try assumption; try apply D.
      intros. unfold P, plot_efficient_frontier, plot_frontier, bind. rewrite E. reflexivity.
    - right. assert (o1 = o).
      { revert E. apply (default_range_same points). }
      subst o1. exists w1, e. intros. unfold P, plot_efficient_frontier, plot_frontier, bind. rewrite E. reflexivity.
  Qed.
  Theorem plot_cla_ignores : forall o name name' range range' points sa st i io w,
    P (OptCLA o) name range points sa st i io w = P (OptCLA o) name' range' points sa st i io w.
  Proof. reflexivity. Qed.
End Plot.
