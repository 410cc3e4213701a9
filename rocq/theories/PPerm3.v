(** * C41: the largest Sharpe ratio, and labels in different orders *)
From Coq Require Import ZArith String List Bool Reals Lra Lia Permutation.
From Verif Require Import Num Py RBase PyLemmas SBL MBase MConvex MEF SLin SBase SConvex SPerm Sums Mat PBase PConvex PEF PEF2 PEF3 PEF4 PDown PDown2 PDown5 PObj SObj SHRP PPerm PPerm2 PEF5.
Import ListNotations.
Local Open Scope R_scope.

Lemma psd_pick : forall n p M, ordering n p -> square n M -> psd n M -> psd n (cov_reordered p M).
Proof.
  intros n p M H HM [_ HP]. split; [apply cov_reordered_square; assumption|]. intros x Hx. rewrite <- (pick_unpick 0 n p x H Hx).
  assert (L : length (unpick 0 p x) = n) by (rewrite unpick_length; apply ordering_length; exact H).
  rewrite (qform_pick n) by assumption. apply HP. exact L.
Qed.
Lemma ratio_pick : forall n p lb ub m M rf x, ordering n p -> square n M -> length lb = n -> length ub = n -> length m = n -> length x = n ->
  best_ratio n (pick None p lb) (pick None p ub) (pick 0 p m) (cov_reordered p M) rf (pick 0 p x) -> best_ratio n lb ub m M rf x.
Proof.
  intros n p lb ub m M rf x H HM Hl Hu Hm Hx [_ [C1 [C2 [C3 C4]]]]. split; [exact Hx|]. split; [apply (within_pick n p) in C1; assumption|].
  split; [rewrite (total_pick n) in C2 by assumption; exact C2|]. unfold excess in *. rewrite (inner_pick n) in C3 by assumption. split; [exact C3|].
  intros y Ly Y1 Y2. specialize (C4 (pick 0 p y)). rewrite pick_length, (inner_pick n), (inner_pick n), !(qform_pick n), (total_pick n) in C4 by assumption.
  apply C4; [apply ordering_length; exact H|apply (within_pick n); assumption|exact Y2].
Qed.

Lemma dget_combine_pick : forall n p ts r t, ordering n p -> length ts = n -> length r = n -> NoDup ts ->
  dget t (dict_of_pairs (combine (pick (LInt 0) p ts) (pick 0 p r))) = dget t (combine ts r).
Proof.
  intros n p ts r t H Ht Hr Hnd. rewrite combine_pick by congruence.
  assert (P : Permutation (pick (LInt 0, 0) p (combine ts r)) (combine ts r)) by (apply pick_perm; rewrite combine_length, Ht, Hr, Nat.min_id; exact H).
  assert (Nd : NoDup (map fst (combine ts r))) by (rewrite fst_combine by congruence; exact Hnd).
  rewrite dict_of_pairs_NoDup by (apply (Permutation_NoDup (Permutation_map fst (Permutation_sym P))); exact Nd).
  symmetry. apply dget_perm; [exact Nd|]. apply Permutation_sym. exact P.
Qed.

(** ** Only one portfolio has the largest ratio if the covariance matrix is positive definite *)
Lemma total_zeros : forall n, total (repeat 0 n) = 0.
Proof. induction n as [|n IH]; cbn; [reflexivity|rewrite IH; lra]. Qed.
Lemma ratio_unique : forall n lb ub m M rf x y, pos_def n M -> length m = n -> best_ratio n lb ub m M rf x -> best_ratio n lb ub m M rf y -> x = y.
Proof.
  intros n lb ub m M rf x y [HM Hp] Hm [X1 [X2 [X3 [X4 X5]]]] [Y1 [Y2 [Y3 [Y4 Y5]]]].
  assert (E : length x = length y) by congruence.
  destruct (list_eq_dec Req_EM_T x y) as [|Hne]; [assumption|exfalso].
  assert (Hd : 0 < qform M (differences x y)).
  { apply Hp; [rewrite differences_length by exact E; exact X1|]. intros D. apply Hne. apply differences_zero; [exact E|]. rewrite X1. exact D. }
  assert (Pos : forall z, length z = n -> total z = 1 -> 0 < qform M z).
  { intros z Lz Tz. apply Hp; [exact Lz|]. intros ->. rewrite total_zeros in Tz. lra. }
  pose proof (Pos x X1 X3) as Qx. pose proof (Pos y Y1 Y3) as Qy.
  set (ex := excess m rf x) in *. set (ey := excess m rf y) in *. set (qx := qform M x) in *. set (qy := qform M y) in *. set (qd := qform M (differences x y)) in *.
  assert (S : ex * ex * qy = ey * ey * qx).
  { pose proof (X5 y Y1 Y2 Y3) as A. pose proof (Y5 x X1 X2 X3) as B. fold ex ey qx qy in A, B.
    assert (C : ex * sqrt qy = ey * sqrt qx) by lra. pose proof (sqrt_sqrt qx ltac:(lra)) as R1. pose proof (sqrt_sqrt qy ltac:(lra)) as R2.
    rewrite <- R1, <- R2. replace (ex * ex * (sqrt qy * sqrt qy)) with ((ex * sqrt qy) * (ex * sqrt qy)) by ring. rewrite C. ring. }
  assert (Len : forall t, length (SObj.blend t x y) = n) by (intros t; rewrite blend_length by exact E; exact X1).
  assert (Tot : forall t, total (SObj.blend t x y) = 1) by (intros t; rewrite total_blend by exact E; rewrite X3, Y3; ring).
  assert (Q : forall t, qform M (SObj.blend t x y) = (1 - t) * qx + t * qy - t * (1 - t) * qd) by (intros t; apply (qform_blend n); assumption).
  assert (Ex : forall t, excess m rf (SObj.blend t x y) = (1 - t) * ex + t * ey).
  { intros t. unfold ex, ey, excess. rewrite inner_blend by congruence. ring. }
  set (c := qx / (ex * ex)). assert (Ecx : qx = c * (ex * ex)) by (unfold c; field; lra).
  assert (Ecy : qy = c * (ey * ey)) by (unfold c; apply (Rmult_eq_reg_l (ex * ex)); [rewrite S; field; lra|nra]).
  (* a mixture of both cannot do better *)
  assert (D : qd <= c * ((ex - ey) * (ex - ey))).
  { pose proof (X5 (SObj.blend (1/2) x y) (Len _) (within_blend lb ub x y (1/2) ltac:(lra) X2 Y2) (Tot _)) as B. rewrite Ex in B. fold ex qx in B.
    assert (Qb : 0 < qform M (SObj.blend (1/2) x y)) by (apply Pos; [apply Len|apply Tot]).
    set (e := (1 - 1/2) * ex + 1/2 * ey) in *. assert (Bp : 0 < e) by (unfold e; lra).
    assert (B2 : e * e * qx <= ex * ex * qform M (SObj.blend (1/2) x y)).
    { pose proof (sqrt_sqrt qx ltac:(lra)) as R1. pose proof (sqrt_sqrt (qform M (SObj.blend (1/2) x y)) ltac:(lra)) as R2.
      rewrite <- R1. rewrite <- R2. pose proof (sqrt_pos qx). pose proof (sqrt_pos (qform M (SObj.blend (1/2) x y))).
      set (u := sqrt qx) in *. set (v := sqrt (qform M (SObj.blend (1/2) x y))) in *.
      replace (e * e * (u * u)) with ((e * u) * (e * u)) by ring. replace (ex * ex * (v * v)) with ((ex * v) * (ex * v)) by ring.
      apply Rmult_le_compat; try exact B; apply Rmult_le_pos; lra. }
    rewrite Q, Ecx, Ecy in B2.
    assert (B3 : e * e * c <= (1 - 1/2) * (c * (ex * ex)) + 1/2 * (c * (ey * ey)) - 1/2 * (1 - 1/2) * qd).
    { apply (Rmult_le_reg_l (ex * ex)); [nra|]. lra. }
    replace (e * e * c) with (c * (ex * ex) / 4 + c * (ex * ey) / 2 + c * (ey * ey) / 4) in B3 by (unfold e; field). lra. }
  destruct (Req_dec ex ey) as [Eq|Nq]; [rewrite Eq in D; replace (c * ((ey - ey) * (ey - ey))) with 0 in D by ring; lra|].
  (* otherwise some fully invested portfolio would have no variance *)
  set (t := - ex / (ey - ex)). assert (Qt : 0 < qform M (SObj.blend t x y)) by (apply Pos; [apply Len|apply Tot]).
  rewrite Q, Ecx, Ecy in Qt.
  assert (Hk : 0 < (ey - ex) * (ey - ex)) by (apply Rsqr_pos_lt; lra).
  assert (Et : ((1 - t) * (c * (ex * ex)) + t * (c * (ey * ey)) - t * (1 - t) * qd) = (ex * ey * (qd - c * ((ex - ey) * (ex - ey)))) / ((ey - ex) * (ey - ex))) by (unfold t; field; lra).
  rewrite Et in Qt. apply (Rmult_lt_compat_r _ _ _ Hk) in Qt. unfold Rdiv in Qt. rewrite Rmult_assoc, Rinv_l, Rmult_1_r, Rmult_0_l in Qt by lra.
  assert (0 < ex * ey) by (apply Rmult_lt_0_compat; assumption). nra.
Qed.

(** ** Twins *)
Section Twins3.
  Variables (p : list nat) (s : list (label * R)) (cols : list label) (rows : list (list R)) (b b' : bounds_arg) (v1 v2 w1 w2 : world) (o1 o2 : ef).
  Hypothesis T : twins p s cols rows b b' v1 v2 w1 w2 o1 o2.
  Hypothesis Hnd : NoDup (map fst s).
  Let n := length s.

  Lemma sharpe_ratio : forall sv w o rf x y d m, exact_solver sv -> open_ef w o [] -> e_add o = [] -> psd (e_n o) (e_cov o) -> e_mu o = Some m ->
    max_sharpe sv rf w o = (x, y, Ok d) -> exists r z rr, target_of rf = Some r /\
    best_ratio (e_n o) (e_lb o) (e_ub o) m (e_cov o) r z /\ Forall2 (rounded 16) z rr /\ d = dict_of_pairs (combine (b_tickers (e_base o)) rr).
  Proof.
    intros sv w o rf x y d m S O A P Em E.
    destruct (max_sharpe_best _ _ _ _ _ _ _ _ S O A P (Forall_nil _) (Forall_nil _) E) as [m' [r [Em' [Er [st [rr [_ [F [Ed [Ad [Hp Hb]]]]]]]]]]].
    assert (m' = m) by congruence. subst m'. destruct O as [_ [_ [_ [_ [Hsz _]]]]]. destruct Ad as [A1 [A2 [A3 _]]].
    exists r, (st (e_w o)), rr. split; [exact Er|]. split; [|auto]. split; [apply (sized_nth _ _ _ _ A1 Hsz)|]. do 3 (split; [assumption|]).
    intros q Lq Q1 Q2. specialize (Hb (upd st (e_w o) q)). rewrite upd_same in Hb. apply Hb. split; [|rewrite upd_same; auto].
    apply upd_sized; [exact A1|]. rewrite (nth_error_nth' _ _ _ Hsz). exact Lq.
  Qed.

  Theorem twins_sharpe : forall sv1 sv2 rf x1 x2 y1 y2 d1 d2, psd n rows -> exact_solver sv1 -> exact_solver sv2 ->
    max_sharpe sv1 rf w1 o1 = (x1, y1, Ok d1) -> max_sharpe sv2 rf w2 o2 = (x2, y2, Ok d2) ->
    exists r, target_of rf = Some r /\
    ratio_answers (map fst s) (e_lb o1) (e_ub o1) (map snd s) rows r d1 /\
    ratio_answers (map fst s) (e_lb o1) (e_ub o1) (map snd s) rows r d2.
  Proof.
    intros sv1 sv2 rf x1 x2 y1 y2 d1 d2 HP S1 S2 E1 E2.
    destruct (twins_facts _ _ _ _ _ _ _ _ _ _ _ _ T) as [H [HM [O1 [O2 [N1 [N2 [A1 [A2 [T1 [T2 [M1 [M2 [C1 [C2 [L1 [L2 [L3 [L4 _]]]]]]]]]]]]]]]]]].
    fold n in H, HM, N1, N2, L1, L2. pose proof (ordering_length _ _ H) as L.
    apply (fun P => sharpe_ratio _ _ _ _ _ _ _ _ S1 O1 A1 P M1) in E1; [|rewrite N1, C1; exact HP].
    apply (fun P => sharpe_ratio _ _ _ _ _ _ _ _ S2 O2 A2 P M2) in E2; [|rewrite N2, C2; apply psd_pick; assumption].
    destruct E1 as [r [z [rr [Er [B1 [F1 D1]]]]]], E2 as [r2 [z2 [rr2 [Er2 [B2 [F2 D2]]]]]]. assert (r2 = r) by congruence. subst r2.
    rewrite N1, C1 in B1. rewrite N2, C2, L3, L4 in B2. exists r. split; [exact Er|]. split.
    - exists z, rr. rewrite map_length. split; [exact B1|]. split; [exact F1|]. intros t. subst d1. rewrite T1, dict_of_pairs_NoDup; [reflexivity|].
      rewrite fst_combine; [exact Hnd|]. rewrite map_length, <- (Forall2_length _ _ _ F1). destruct B1 as [B1 _]. symmetry. exact B1.
    - assert (Lz : length z2 = n) by apply B2. assert (Lu : length (unpick 0 p z2) = n) by (rewrite unpick_length; exact L).
      rewrite <- (pick_unpick 0 n p z2 H Lz) in B2, F2. set (y := unpick 0 p z2) in *.
      exists y, (map round16 y). rewrite map_length. fold n.
      split; [apply (ratio_pick n p); try assumption; apply map_length|]. split; [apply round16_rounded|]. intros t. subst d2. rewrite T2.
      rewrite (rounded_pick n p y (map round16 y) rr2 H Lu (round16_rounded y) F2). apply (dget_combine_pick n); try assumption; rewrite map_length; [reflexivity|exact Lu].
  Qed.
  Theorem same_sharpe : forall sv1 sv2 rf x1 x2 y1 y2 d1 d2, pos_def n rows -> exact_solver sv1 -> exact_solver sv2 ->
    max_sharpe sv1 rf w1 o1 = (x1, y1, Ok d1) -> max_sharpe sv2 rf w2 o2 = (x2, y2, Ok d2) -> agree d1 d2.
  Proof.
    intros sv1 sv2 rf x1 x2 y1 y2 d1 d2 HP S1 S2 E1 E2.
    assert (Hps : psd n rows).
    { destruct HP as [HM HP]. split; [exact HM|]. intros z Lz. destruct (list_eq_dec Req_EM_T z (repeat 0 n)) as [->|Hz]; [|left; apply HP; assumption].
      right. symmetry. unfold qform. generalize (map (fun row => inner row (repeat 0 n)) rows). clear. induction n as [|k IH]; intros l; [reflexivity|]. destruct l as [|a l]; [reflexivity|]. cbn. rewrite IH. ring. }
    destruct (twins_sharpe _ _ _ _ _ _ _ _ _ Hps S1 S2 E1 E2) as [r [_ [[z [rr [B1 [F1 D1]]]] [z2 [rr2 [B2 [F2 D2]]]]]]].
    rewrite map_length in B1, B2. assert (z = z2) as <-.
    { exact (ratio_unique _ _ _ _ _ _ _ _ HP (map_length _ _) B1 B2). }
    intros t. rewrite D1, D2, (Forall2_rounded_unique _ _ _ F1 F2). reflexivity.
  Qed.
End Twins3.

(** ** The same labelled data in two different orders *)
Definition lab_mu : list (label * R) := [(LStr "A", 1/5); (LStr "B", 1/10)].
Definition lab_world : world := mkWorld [2%nat] (fun _ => None) [] 2.
Definition lab_ef (a b : R) : ef :=
  mkEF (mkBase [LStr "A"; LStr "B"] None) None 0 None []
    [(0%nat, lower_con [Some 0; Some 0] 0); (1%nat, upper_con [Some 1; Some 1] 0)]
    [Some 0; Some 0] [Some 1; Some 1] None [[a; 0]; [0; b]] (Some [1/5; 1/10]) None None.
Lemma lab_init : forall cols a b, ef_init (MIn (MuSeries lab_mu)) (CIn (CovFrame cols [[a; 0]; [0; b]])) (BPair (Some 0) (Some 1)) (mkWorld [] (fun _ => None) [] 0)
  = (lab_world, Ok (lab_ef a b)).
Proof. intros. reflexivity. Qed.
Lemma lab_open : forall a b, open_ef lab_world (lab_ef a b) [].
Proof.
  intros. unfold open_ef, e_n. cbn [lab_ef e_opt e_cons e_lb e_ub e_w e_base b_tickers e_cov e_mu e_add lab_world w_sizes w_params].
  split; [reflexivity|]. split; [eexists; eexists; reflexivity|]. split; [reflexivity|]. split; [reflexivity|].
  split; [reflexivity|]. split; [split; [reflexivity|repeat constructor]|]. split; [intros m E; inversion E; reflexivity|].
  repeat constructor.
Qed.
Lemma lab_q : forall a b x y, qform [[a; 0]; [0; b]] [x; y] = a * (x * x) + b * (y * y). Proof. intros. cbn. ring. Qed.
Lemma quarters : rounded 16 (3/4) (3/4) /\ rounded 16 (1/4) (1/4).
Proof.
  split.
  - exists 7500000000000000%Z. change (10 ^ 16)%Z with 10000000000000000%Z. split; [lra|]. replace (3 / 4 * 10000000000000000 - 7500000000000000) with 0 by lra. rewrite Rabs_R0. split; lra.
  - exists 2500000000000000%Z. change (10 ^ 16)%Z with 10000000000000000%Z. split; [lra|]. replace (1 / 4 * 10000000000000000 - 2500000000000000) with 0 by lra. rewrite Rabs_R0. split; lra.
Qed.
(** the least variance is at the weights [b/(a+b)], [a/(a+b)] *)
Lemma lab_best : forall sv a b u v, exact_solver sv -> complete_solver sv -> 0 < a -> 0 < b -> a * u = b * v -> u + v = 1 -> 0 <= u -> 0 <= v ->
  rounded 16 u u -> rounded 16 v v ->
  exists w' o', min_volatility sv lab_world (lab_ef a b) = (w', o', Ok [(LStr "A", u); (LStr "B", v)]).
Proof.
  intros sv a b u v Hx Hc Ha Hb Hab Huv Hu Hv Ru Rv.
  assert (Hmin : forall x y, x + y = 1 -> a * (u * u) + b * (v * v) + (a + b) * ((x - u) * (x - u)) = a * (x * x) + b * (y * y)).
  { intros x y E. replace y with (1 - x) by lra. replace v with (1 - u) in * by lra. assert (E1 : b = a * u + b * u) by lra.
    transitivity (a * (x * x) + b * (1 - x) * (1 - x) + 2 * (u - x) * (a * u + b * u - b)); [ring|rewrite <- E1; ring]. }
  assert (Hsq : forall x, 0 <= (a + b) * ((x - u) * (x - u))) by (intros x; apply Rmult_le_pos; [lra|apply Rle_0_sqr]).
  destruct (min_volatility_found sv _ _ [] (fun _ => [u; v]) Hc (lab_open a b)) as [w' [o' [d E]]].
  { split; [|split; [exact I|]].
    - split; [intros i Hi; cbn in Hi; replace i with 0%nat by lia; reflexivity|].
      cbn [lab_ef e_w e_lb e_ub]. split; [split; repeat apply Forall2_cons; try apply Forall2_nil; cbn; lra|]. split; [cbn; lra|constructor].
    - intros s' [S1 [[S2 S3] [S4 _]]] _. cbn [lab_ef e_w e_cov e_add e_lb e_ub] in *. unfold penalty. cbn [map total].
      specialize (S1 0%nat ltac:(cbn; lia)). cbn in S1. destruct (s' 0%nat) as [|x [|y [|]]]; try discriminate S1.
      rewrite !lab_q. cbn in S4. pose proof (Hmin x y ltac:(lra)). pose proof (Hsq x). lra. }
  exists w', o'. rewrite E. apply (min_volatility_best _ _ _ _ _ _ _ Hx (lab_open a b)) in E.
  destruct (best_chosen lab_world (lab_ef a b) _ _ _ _ _ _ _ eq_refl eq_refl E) as [x [r [[X1 [_ [X2 [_ X3]]]] [_ [F ->]]]]].
  cbn [lab_ef e_base b_tickers e_cov e_lb e_ub] in *. change (e_n (lab_ef a b)) with 2%nat in *.
  destruct x as [|x [|y [|]]]; try discriminate X1. cbn in X2.
  specialize (X3 [u; v] eq_refl ltac:(split; repeat apply Forall2_cons; try apply Forall2_nil; cbn; lra) ltac:(cbn; lra) I). rewrite !lab_q in X3.
  pose proof (Hmin x y ltac:(lra)) as Hq. assert (Ex : x = u).
  { assert (Z : (a + b) * ((x - u) * (x - u)) <= 0) by lra. assert (0 <= (x - u) * (x - u)) by apply Rle_0_sqr.
    assert ((x - u) * (x - u) = 0) by nra. apply Rsqr_0_uniq in H0. lra. }
  assert (Ey : y = v) by lra. subst x y.
  inversion F as [|? r1 ? r' F1 F']; subst. inversion F' as [|? r2 ? r'' F2 F'']; subst. inversion F''; subst.
  rewrite (rounded_unique 16 _ _ _ ltac:(lia) F1 Ru), (rounded_unique 16 _ _ _ ltac:(lia) F2 Rv). reflexivity.
Qed.
(** the covariances agree label by label, yet asset A gets 3/4 in one order and 1/4 in the other *)
Theorem mismatch_witness : forall sv, exact_solver sv -> complete_solver sv ->
  exists w o1 o2 x1 y1 d1 x2 y2 d2,
    ef_init (MIn (MuSeries lab_mu)) (CIn (CovFrame [LStr "A"; LStr "B"] [[1; 0]; [0; 3]])) (BPair (Some 0) (Some 1)) (mkWorld [] (fun _ => None) [] 0) = (w, Ok o1) /\
    ef_init (MIn (MuSeries lab_mu)) (CIn (CovFrame [LStr "B"; LStr "A"] [[3; 0]; [0; 1]])) (BPair (Some 0) (Some 1)) (mkWorld [] (fun _ => None) [] 0) = (w, Ok o2) /\
    min_volatility sv w o1 = (x1, y1, Ok d1) /\ min_volatility sv w o2 = (x2, y2, Ok d2) /\
    dget (LStr "A") d1 = Some (3/4) /\ dget (LStr "A") d2 = Some (1/4).
Proof.
  intros sv Hx Hc. destruct quarters as [Q1 Q2].
  destruct (lab_best sv 1 3 (3/4) (1/4) Hx Hc ltac:(lra) ltac:(lra) ltac:(lra) ltac:(lra) ltac:(lra) ltac:(lra) Q1 Q2) as [x1 [y1 E1]].
  destruct (lab_best sv 3 1 (1/4) (3/4) Hx Hc ltac:(lra) ltac:(lra) ltac:(lra) ltac:(lra) ltac:(lra) ltac:(lra) Q2 Q1) as [x2 [y2 E2]].
  exists lab_world, (lab_ef 1 3), (lab_ef 3 1), x1, y1. eexists. exists x2, y2. eexists.
  split; [apply lab_init|]. split; [apply lab_init|]. split; [exact E1|]. split; [exact E2|]. split; reflexivity.
Qed.
Lemma labels_ignored : forall s cols cols' rows b w,
  ef_init (MIn (MuSeries s)) (CIn (CovFrame cols rows)) b w = ef_init (MIn (MuSeries s)) (CIn (CovFrame cols' rows)) b w.
Proof. reflexivity. Qed.
