(** * Wider bounds: EfficientFrontier (C143) *)
From Coq Require Import ZArith String List Bool Reals Lra Lia.
From Verif Require Import Num Py RBase PyLemmas SBL MBase MConvex MEF MDown SLin SBase SConvex SPerm SDown SExist SGrow SWide Sums Mat PBase PConvex PEF PEF2 PEF3 PEF4 PDown PDown2 PDown5 PObj SObj SHRP PPerm PPerm2 PEF5 PEF6 PPerm3 PPerm4 PUnits PUnits2 PExist PExist2 PExist3 PExist4 PExist5 PClone PGrow.
Import ListNotations.
Local Open Scope R_scope.

Lemma looser_within : forall lb ub lb' ub' x, looser lb ub lb' ub' -> within lb ub x -> within lb' ub' x.
Proof.
  intros lb ub lb' ub' x [L U] [A B]. split.
  - clear U B. revert x A. induction L as [|a b lb lb' H _ IH]; intros x A; inversion A; subst; constructor; [|apply IH; assumption]. destruct b as [m|]; [|exact I]. destruct a as [l|]; [|contradiction H]. cbn in *. lra.
  - clear L A. revert x B. induction U as [|a b ub ub' H _ IH]; intros x B; inversion B; subst; constructor; [|apply IH; assumption]. destruct b as [m|]; [|exact I]. destruct a as [l|]; [|contradiction H]. cbn in *. lra.
Qed.
Lemma looser_refl_some : forall n l u, looser (repeat (Some l) n) (repeat (Some u) n) (repeat (Some l) n) (repeat (Some u) n).
Proof. intros n l u. split; induction n; cbn; constructor; try assumption; cbn; lra. Qed.
Lemma looser_shorts : forall lb ub lb' ub', looser lb ub lb' ub' -> no_short_allowed lb' -> no_short_allowed lb.
Proof.
  intros lb ub lb' ub' [L _] H. unfold no_short_allowed in *. induction L as [|a b lb lb' D _ IH]; [constructor|]. inversion H as [|? ? Hb Ht]; subst. constructor; [|apply IH; exact Ht].
  destruct b as [m|]; [|contradiction Hb]. destruct a as [l|]; [|contradiction D]. cbn in D. lra.
Qed.
Lemma wide_force : forall mn o1 o2 lb ub lb' ub', e_n o1 = e_n o2 -> looser (e_lb o1) (e_ub o1) (e_lb o2) (e_ub o2) -> same_kind mn o1 o2 ->
  bounds_in_force mn o1 lb ub -> bounds_in_force mn o2 lb' ub' -> looser lb ub lb' ub'.
Proof.
  intros mn o1 o2 lb ub lb' ub' N H S [(E & A & -> & ->)|(E & -> & ->)] [(E' & A' & -> & ->)|(E' & -> & ->)].
  - rewrite N. apply looser_refl_some.
  - exfalso. destruct E' as [E'|E']; [congruence|]. apply E', (S E A).
  - exfalso. destruct E as [E|E]; [congruence|]. apply E, (looser_shorts _ _ _ _ H A').
  - exact H.
Qed.
Lemma force_some : forall mn o, exists lb ub, bounds_in_force mn o lb ub.
Proof.
  intros mn o. destruct mn; [|exists (e_lb o), (e_ub o); right; auto]. destruct (Forall_dec (fun b => match b with Some l => 0 <= l | None => False end) (fun b => match b with Some l => Rle_dec 0 l | None => right (fun x => x) end) (e_lb o)) as [F|F].
  - eexists _, _. left. split; [reflexivity|]. split; [exact F|]. split; reflexivity.
  - exists (e_lb o), (e_ub o). right. auto.
Qed.

Section Better.
  Variables (n : nat) (lb ub lb' ub' : list (option R)) (sum : R) (ok : list R -> Prop) (cost : list R -> R).
  Hypothesis W : looser lb ub lb' ub'.
  Lemma wide_loosened : forall ts d d', length ts = n -> answers ts lb ub sum ok cost d -> answers ts lb' ub' sum ok cost d' -> loosened ts lb ub lb' ub' sum ok cost d d'.
  Proof.
    intros ts d d' L (x & r & A & F & D) (x' & r' & A' & F' & D'). exists x, x'. split; [exact A|]. split; [exists r; auto|]. split; [exact A'|]. split; [exists r'; auto|].
    destruct A as (L1 & W1 & T1 & O1 & _). destruct A' as (L2 & W2 & T2 & O2 & M2). split; [apply M2; try assumption; exact (looser_within _ _ _ _ _ W W1)|].
    intros W3. split; [exact L2|]. split; [exact W3|]. split; [exact T2|]. split; [exact O2|]. intros y Ly Wy Ty Oy. apply M2; try assumption. exact (looser_within _ _ _ _ _ W Wy).
  Qed.
  Lemma wide_fits : forall x, chosen n lb ub sum ok cost x -> exists x', fits n lb' ub' sum x' /\ ok x'.
  Proof. intros x (L & Wx & T & Ox & _). exists x. split; [split; [exact L|]; split; [exact (looser_within _ _ _ _ _ W Wx)|exact T]|exact Ox]. Qed.
End Better.

Lemma bound_facts : forall s cols rows b v w o, square (length s) rows -> ef_init (MIn (MuSeries s)) (CIn (CovFrame cols rows)) b v = (w, Ok o) ->
  open_ef w o [] /\ e_n o = length s /\ e_add o = [] /\ b_tickers (e_base o) = map fst s /\ e_mu o = Some (map snd s) /\ e_cov o = rows /\
  e_maxret o = None /\ (forall name, fresh_name w o name).
Proof.
  intros s cols rows b v w o HM E1.
  destruct (ef_init_inv _ _ _ _ _ _ E1) as [m1 [lb [ub [Em [Hs [Hr [Ew Eo]]]]]]]. inversion Em; subst m1.
  assert (N1 : length (init_tickers (MuSeries s) (CovFrame cols rows)) = length s) by (cbn [init_tickers]; apply map_length).
  pose proof (PEF2.init_open _ _ b v lb ub Hs) as O1. rewrite N1 in *. specialize (O1 HM Hr). rewrite <- Ew, <- Eo in O1.
  split; [exact O1|]. rewrite Eo. unfold e_n. cbn [init_ef e_base b_tickers e_add e_mu e_cov e_lb e_ub e_maxret mu_values cov_values]. rewrite N1. cbn [init_tickers].
  do 6 (split; [reflexivity|]). intros name q Hq; cbn in Hq; contradiction.
Qed.

Section Wider.
  Variables (s : list (label * R)) (cols : list label) (rows : list (list R)) (b1 b2 : bounds_arg) (v1 v2 w1 w2 : world) (o1 o2 : ef).
  Hypothesis T : ef_wider s cols rows b1 b2 v1 v2 w1 w2 o1 o2.
  Let n := length s.
  Let m := map snd s.
  Ltac facts := pose proof T as (HM & I1 & I2 & Lo);
    destruct (bound_facts _ _ _ _ _ _ _ HM I1) as (O1 & N1 & A1 & T1 & M1 & C1 & R1 & F1);
    destruct (bound_facts _ _ _ _ _ _ _ HM I2) as (O2 & N2 & A2 & T2 & M2 & C2 & R2 & F2);
    fold n in HM, N1, N2; fold m in M1, M2;
    assert (N12 : e_n o1 = e_n o2) by congruence;
    assert (Lt : length (map fst s) = n) by (apply map_length).
  Section Answers.
    Variables (sv1 sv2 : solver_t) (x1 x2 : world) (y1 y2 : ef) (d1 d2 : dict R).
    Hypothesis (Hnd : NoDup (map fst s)) (X1 : exact_solver sv1) (X2 : exact_solver sv2).
    Theorem wide_min_volatility : min_volatility sv1 w1 o1 = (x1, y1, Ok d1) -> min_volatility sv2 w2 o2 = (x2, y2, Ok d2) ->
      loosened (map fst s) (e_lb o1) (e_ub o1) (e_lb o2) (e_ub o2) 1 (fun _ => True) (qform rows) d1 d2.
    Proof.
      intros E1 E2. facts. apply (min_volatility_best _ _ _ _ _ _ _ X1 O1) in E1. apply (min_volatility_best _ _ _ _ _ _ _ X2 O2) in E2.
      rewrite C1 in E1. rewrite C2 in E2. apply c_answers_from' with (ts := map fst s) in E1; try assumption. apply c_answers_from' with (ts := map fst s) in E2; try assumption.
      exact (wide_loosened n _ _ _ _ _ _ _ Lo _ _ _ Lt E1 E2).
    Qed.
    Theorem wide_utility : forall ra mn, same_kind mn o1 o2 -> max_quadratic_utility sv1 ra mn w1 o1 = (x1, y1, Ok d1) -> max_quadratic_utility sv2 ra mn w2 o2 = (x2, y2, Ok d2) ->
      exists lb ub lb' ub', bounds_in_force mn o1 lb ub /\ bounds_in_force mn o2 lb' ub' /\
      loosened (map fst s) lb ub lb' ub' (if mn then 0 else 1) (fun _ => True) (fun x => - (inner m x - ra / 2 * qform rows x)) d1 d2.
    Proof.
      intros ra mn Sk E1 E2. facts. apply (utility_best _ _ _ _ _ _ _ _ _ _ X1 O1 M1 (F1 _)) in E1. apply (utility_best _ _ _ _ _ _ _ _ _ _ X2 O2 M2 (F2 _)) in E2.
      destruct E1 as [_ [lb [ub [B1 E1]]]]. destruct E2 as [_ [lb' [ub' [B2 E2]]]]. rewrite C1 in E1. rewrite C2 in E2. apply c_answers_from' with (ts := map fst s) in E1; try assumption. apply c_answers_from' with (ts := map fst s) in E2; try assumption.
      exists lb, ub, lb', ub'. split; [exact B1|]. split; [exact B2|]. exact (wide_loosened n _ _ _ _ _ _ _ (wide_force _ _ _ _ _ _ _ N12 Lo Sk B1 B2) _ _ _ Lt E1 E2).
    Qed.
    Theorem wide_return : forall tg mn, same_kind mn o1 o2 -> efficient_return sv1 (NFloat tg) mn w1 o1 = (x1, y1, Ok d1) -> efficient_return sv2 (NFloat tg) mn w2 o2 = (x2, y2, Ok d2) ->
      exists lb ub lb' ub', bounds_in_force mn o1 lb ub /\ bounds_in_force mn o2 lb' ub' /\
      loosened (map fst s) lb ub lb' ub' (if mn then 0 else 1) (fun x => tg <= inner m x) (qform rows) d1 d2.
    Proof.
      intros tg mn Sk E1 E2. facts. apply (efficient_return_best _ _ _ _ _ _ _ _ _ _ X1 O1 M1 (F1 _)) in E1. apply (efficient_return_best _ _ _ _ _ _ _ _ _ _ X2 O2 M2 (F2 _)) in E2.
      destruct E1 as [t1 [lb [ub [Et1 [B1 E1]]]]]. destruct E2 as [t2 [lb' [ub' [Et2 [B2 E2]]]]]. injection Et1 as <-. injection Et2 as <-. rewrite C1 in E1. rewrite C2 in E2. apply c_answers_from' with (ts := map fst s) in E1; try assumption. apply c_answers_from' with (ts := map fst s) in E2; try assumption.
      exists lb, ub, lb', ub'. split; [exact B1|]. split; [exact B2|]. exact (wide_loosened n _ _ _ _ _ _ _ (wide_force _ _ _ _ _ _ _ N12 Lo Sk B1 B2) _ _ _ Lt E1 E2).
    Qed.
    Theorem wide_risk : forall pinv1 pinv2 tg mn, same_kind mn o1 o2 -> efficient_risk sv1 pinv1 (NFloat tg) mn w1 o1 = (x1, y1, Ok d1) -> efficient_risk sv2 pinv2 (NFloat tg) mn w2 o2 = (x2, y2, Ok d2) ->
      exists lb ub lb' ub', bounds_in_force mn o1 lb ub /\ bounds_in_force mn o2 lb' ub' /\
      loosened (map fst s) lb ub lb' ub' (if mn then 0 else 1) (fun x => qform rows x <= tg * tg) (fun x => - inner m x) d1 d2.
    Proof.
      intros pinv1 pinv2 tg mn Sk E1 E2. facts. apply (efficient_risk_best _ _ _ _ _ _ _ _ _ _ _ X1 O1 M1 (F1 _)) in E1. apply (efficient_risk_best _ _ _ _ _ _ _ _ _ _ _ X2 O2 M2 (F2 _)) in E2.
      destruct E1 as [t1 [lb [ub [Et1 [_ [B1 E1]]]]]]. destruct E2 as [t2 [lb' [ub' [Et2 [_ [B2 E2]]]]]]. cbn [target_of] in Et1, Et2. injection Et1 as <-. injection Et2 as <-. rewrite C1 in E1. rewrite C2 in E2. apply c_answers_from' with (ts := map fst s) in E1; try assumption. apply c_answers_from' with (ts := map fst s) in E2; try assumption.
      exists lb, ub, lb', ub'. split; [exact B1|]. split; [exact B2|]. exact (wide_loosened n _ _ _ _ _ _ _ (wide_force _ _ _ _ _ _ _ N12 Lo Sk B1 B2) _ _ _ Lt E1 E2).
    Qed.
    Theorem wide_sharpe : forall rf, psd n rows -> max_sharpe sv1 (NFloat rf) w1 o1 = (x1, y1, Ok d1) -> max_sharpe sv2 (NFloat rf) w2 o2 = (x2, y2, Ok d2) ->
      loosened_ratio (map fst s) (e_lb o1) (e_ub o1) (e_lb o2) (e_ub o2) m rows rf d1 d2.
    Proof.
      intros rf HP E1 E2. facts.
      apply (fun P => sharpe_ratio _ _ _ _ _ _ _ _ X1 O1 A1 P M1) in E1; [|rewrite N1, C1; exact HP]. apply (fun P => sharpe_ratio _ _ _ _ _ _ _ _ X2 O2 A2 P M2) in E2; [|rewrite N2, C2; exact HP].
      destruct E1 as [r1 [z [rr [Er1 [B1 [G1 D1]]]]]]. destruct E2 as [r2 [z' [rr' [Er2 [B2 [G2 D2]]]]]]. cbn [target_of] in Er1, Er2. injection Er1 as <-. injection Er2 as <-. rewrite N1, C1 in B1. rewrite N2, C2 in B2.
      exists z, z'. rewrite Lt. split; [exact B1|]. split; [exists rr; split; [exact G1|]; intros u; subst d1; rewrite T1, dict_of_pairs_NoDup; [reflexivity|]; rewrite fst_combine; [exact Hnd|]; rewrite <- (Forall2_length _ _ _ G1), Lt; symmetry; apply B1|].
      split; [exact B2|]. split; [exists rr'; split; [exact G2|]; intros u; subst d2; rewrite T2, dict_of_pairs_NoDup; [reflexivity|]; rewrite fst_combine; [exact Hnd|]; rewrite <- (Forall2_length _ _ _ G2), Lt; symmetry; apply B2|].
      destruct B2 as (L2 & W2 & S2 & P2 & Q2). split.
      - destruct B1 as (L1 & W1 & S1 & _). exact (Q2 z L1 (looser_within _ _ _ _ _ Lo W1) S1).
      - intros W3. split; [exact L2|]. split; [exact W3|]. split; [exact S2|]. split; [exact P2|]. intros u Lu Wu Tu. exact (Q2 u Lu (looser_within _ _ _ _ _ Lo Wu) Tu).
    Qed.
  End Answers.
  Section Success.
    Variables (sv1 sv2 : solver_t).
    Hypothesis (X1 : exact_solver sv1) (X2 : exact_solver sv2) (K1 : complete_solver sv1) (K2 : complete_solver sv2) (Bl : bounded (e_lb o2)) (Bu : bounded (e_ub o2)).
    Let Q2 : continuous_on n (qform rows). Proof. apply (cont_vec_qform n n rows _ (cont_vec_id n)). Qed.
    Theorem wide_min_volatility_found : succeeds (min_volatility sv1) w1 o1 -> succeeds (min_volatility sv2) w2 o2.
    Proof.
      facts. rewrite min_volatility_iff, min_volatility_iff by assumption. intros [x X]. rewrite N1 in X.
      rewrite C2. apply (new_chosen w2 o2 false); try assumption; [right; auto|apply closed_true|rewrite N2; exact Q2|]. rewrite N2. exact (wide_fits n _ _ _ _ _ _ _ Lo x X).
    Qed.
    Theorem wide_utility_found : forall ra mn, same_kind mn o1 o2 -> succeeds (max_quadratic_utility sv1 ra mn) w1 o1 -> succeeds (max_quadratic_utility sv2 ra mn) w2 o2.
    Proof.
      intros ra mn Sk. facts. destruct (Rle_dec ra 0) as [Hra|Hra].
      - intros [w' [o' [d E]]]. unfold max_quadratic_utility in E; rewrite (proj2 (Rleb_true ra 0) Hra) in E; discriminate E.
      - apply Rnot_le_lt in Hra. rewrite (utility_iff sv1 w1 o1 X1 K1 O1 A1 _ M1 mn ra Hra (F1 _)), (utility_iff sv2 w2 o2 X2 K2 O2 A2 _ M2 mn _ Hra (F2 _)).
        intros (lb & ub & x & B & X). rewrite N1 in X. destruct (force_some mn o2) as (lb' & ub' & B'). rewrite C2.
        destruct (new_chosen w2 o2 mn _ _ (if mn then 0 else 1) (fun _ => True) (fun x => - (inner m x - ra / 2 * qform rows x)) O2 A2 Bl Bu B') as [x' X'].
        + apply closed_true.
        + rewrite N2. apply (cont_ext n (fun x => ra / 2 * qform rows x - inner m x)); [|intros; ring]. apply cont_minus; [apply cont_scal; exact Q2|apply new_inner_cont].
        + rewrite N2. exact (wide_fits n _ _ _ _ _ _ _ (wide_force _ _ _ _ _ _ _ N12 Lo Sk B B') x X).
        + exists lb', ub', x'. split; [exact B'|exact X'].
    Qed.
    Theorem wide_return_found : forall tg mn, same_kind mn o1 o2 -> succeeds (efficient_return sv1 (NFloat tg) mn) w1 o1 -> succeeds (efficient_return sv2 (NFloat tg) mn) w2 o2.
    Proof.
      intros tg mn Sk. facts. rewrite (return_iff sv1 w1 o1 X1 K1 O1 A1 _ M1 mn tg R1 (F1 _)), (return_iff sv2 w2 o2 X2 K2 O2 A2 _ M2 mn tg R2 (F2 _)).
      intros [(y & Hy & Y) (lb & ub & x & B & X)]. rewrite N1 in X, Y. destruct (force_some mn o2) as (lb' & ub' & B'). rewrite C2. split.
      - destruct (new_chosen w2 o2 false _ _ 1 (fun _ => True) (fun x => - inner m x) O2 A2 Bl Bu (or_intror (conj (or_introl eq_refl) (conj eq_refl eq_refl)))) as [x' X'].
        + apply closed_true.
        + rewrite N2. apply cont_opp, new_inner_cont.
        + rewrite N2. exact (wide_fits n _ _ _ _ _ _ _ Lo y Y).
        + exists x'. split; [|exact X']. destruct X' as (_ & _ & _ & _ & Mx). destruct Y as (Ly & Wy & Ty & _). rewrite N2 in Mx. specialize (Mx y Ly (looser_within _ _ _ _ _ Lo Wy) Ty I). cbv beta in Mx. fold m in Mx. lra.
      - destruct (new_chosen w2 o2 mn _ _ (if mn then 0 else 1) (fun x => tg <= inner m x) (qform rows) O2 A2 Bl Bu B') as [x' X'].
        + rewrite N2. apply closed_le; [apply cont_const|apply new_inner_cont].
        + rewrite N2. exact Q2.
        + rewrite N2. exact (wide_fits n _ _ _ _ _ _ _ (wide_force _ _ _ _ _ _ _ N12 Lo Sk B B') x X).
        + exists lb', ub', x'. split; [exact B'|exact X'].
    Qed.
    Theorem wide_risk_found : forall pinv tg mn, same_kind mn o1 o2 -> succeeds (efficient_risk sv1 pinv (NFloat tg) mn) w1 o1 -> succeeds (efficient_risk sv2 pinv (NFloat tg) mn) w2 o2.
    Proof.
      intros pinv tg mn Sk. facts. rewrite (risk_iff sv1 w1 o1 X1 K1 O1 A1 _ M1 mn pinv (NFloat tg) tg eq_refl (F1 _)), (risk_iff sv2 w2 o2 X2 K2 O2 A2 _ M2 mn pinv (NFloat tg) tg eq_refl (F2 _)).
      rewrite C1, C2, N1. intros (P & G & lb & ub & x & B & X). split; [exact P|]. split; [exact G|]. destruct (force_some mn o2) as (lb' & ub' & B').
      destruct (new_chosen w2 o2 mn _ _ (if mn then 0 else 1) (fun x => qform rows x <= tg * tg) (fun x => - inner m x) O2 A2 Bl Bu B') as [x' X'].
      + rewrite N2. apply closed_le; [exact Q2|apply cont_const].
      + rewrite N2. apply cont_opp, new_inner_cont.
      + rewrite N2. exact (wide_fits n _ _ _ _ _ _ _ (wide_force _ _ _ _ _ _ _ N12 Lo Sk B B') x X).
      + exists lb', ub', x'. split; [exact B'|exact X'].
    Qed.
    Theorem wide_sharpe_found : forall rf, psd n rows -> (forall x, fits n (e_lb o2) (e_ub o2) 1 x -> 0 < qform rows x) ->
      succeeds (max_sharpe sv1 (NFloat rf)) w1 o1 -> succeeds (max_sharpe sv2 (NFloat rf)) w2 o2.
    Proof.
      intros rf HP Hpos (x1 & y1 & d1 & E1). facts. assert (Lr : length rows = n) by apply HM.
      assert (Ex : Exists (fun a => rf < a) m) by exact (sharpe_some_asset sv1 (NFloat rf) rf m w1 o1 x1 y1 d1 M1 eq_refl E1).
      apply (fun P => sharpe_ratio _ _ _ _ _ _ _ _ X1 O1 A1 P M1) in E1; [|rewrite N1, C1; exact HP].
      destruct E1 as [r1 [z [rr [Er1 [B1 _]]]]]. cbn [target_of] in Er1. injection Er1 as <-. rewrite N1, C1 in B1. destruct B1 as (Lz & Wz & Tz & Pz & _).
      apply (exist_sharpe (MuSeries s) (CovFrame cols rows) b2 v2 w2 o2 m I2) with (r := rf); cbn [cov_values]; try assumption; try reflexivity.
      - rewrite Lr. exact HM.
      - rewrite Lr, N2. reflexivity.
      - rewrite N2. exact HP.
      - rewrite N2. exact Hpos.
      - split; [exact Ex|]. exists z. rewrite N2. split; [split; [exact Lz|]; split; [exact (looser_within _ _ _ _ _ Lo Wz)|exact Tz]|exact Pz].
    Qed.
  End Success.
End Wider.
