(** * C41: the optimizers *)
From Coq Require Import ZArith String List Bool Reals Lra Lia Permutation.
From Verif Require Import Num Py RBase PyLemmas SBL MBase MConvex MEF SLin SBase SConvex SPerm Sums Mat PBase PConvex PEF PEF2 PEF3 PEF4 PDown PDown2 PDown5 PObj PPerm.
Import ListNotations.
Local Open Scope R_scope.

(** ** Rounding is a function *)
Lemma rounded_unique : forall d x y z, (0 <= d)%Z -> rounded d x y -> rounded d x z -> y = z.
Proof.
  intros d x y z Hd [k [K1 [K2 K3]]] [j [J1 [J2 J3]]].
  assert (P : 0 < IZR (10 ^ d)) by (apply IZR_lt; apply Z.pow_pos_nonneg; lia).
  enough (k = j) as -> by (apply (Rmult_eq_reg_r (IZR (10 ^ d))); lra).
  set (X := x * IZR (10 ^ d)) in *.
  assert (D : (k = j \/ k = j + 1 \/ j = k + 1)%Z).
  { assert (IZR (k - j) <= 1 /\ -1 <= IZR (k - j)) as [A B].
    { rewrite minus_IZR. unfold Rabs in K2, J2. destruct (Rcase_abs (X - IZR k)), (Rcase_abs (X - IZR j)); lra. }
    change 1 with (IZR 1) in A. change (-1) with (IZR (-1)) in B. apply le_IZR in A, B. lia. }
  destruct D as [D|[D|D]]; [exact D|exfalso|exfalso].
  - rewrite D, plus_IZR in K2, K3. assert (2 * Rabs (X - (IZR j + 1)) = 1 /\ 2 * Rabs (X - IZR j) = 1) as [A B].
    { unfold Rabs in *. destruct (Rcase_abs (X - (IZR j + 1))), (Rcase_abs (X - IZR j)); lra. }
    apply K3 in A. apply J3 in B. apply Z.even_spec in A, B. rewrite Z.even_add in A. rewrite B in A. discriminate A.
  - rewrite D, plus_IZR in J2, J3. assert (2 * Rabs (X - (IZR k + 1)) = 1 /\ 2 * Rabs (X - IZR k) = 1) as [A B].
    { unfold Rabs in *. destruct (Rcase_abs (X - (IZR k + 1))), (Rcase_abs (X - IZR k)); lra. }
    apply J3 in A. apply K3 in B. apply Z.even_spec in A, B. rewrite Z.even_add in A. rewrite B in A. discriminate A.
Qed.
Lemma Forall2_rounded_unique : forall x r r', Forall2 (rounded 16) x r -> Forall2 (rounded 16) x r' -> r = r'.
Proof.
  intros x r r' H. revert r'. induction H as [|a b x r Hab H IH]; intros r' H'; inversion H'; subst; [reflexivity|].
  f_equal; [eapply rounded_unique; [|eassumption|eassumption]; lia|apply IH; assumption].
Qed.

(** ** Dictionaries *)
Lemma dget_perm : forall {V} (a b : dict V), NoDup (map fst a) -> Permutation a b -> forall t, dget t a = dget t b.
Proof.
  intros V a b Hn Hp t. assert (Hn' : NoDup (map fst b)) by (apply (Permutation_NoDup (Permutation_map fst Hp)); exact Hn).
  destruct (dget t a) as [v|] eqn:E.
  - symmetry. apply In_dget; [exact Hn'|]. apply (Permutation_in _ Hp). apply dget_In. exact E.
  - symmetry. apply dget_None. apply dget_None in E. intros Hi. apply E. apply (Permutation_in _ (Permutation_sym (Permutation_map fst Hp))). exact Hi.
Qed.
Lemma combine_pick : forall {X Y} (dx : X) (dy : Y) p xs ys, length xs = length ys ->
  combine (pick dx p xs) (pick dy p ys) = pick (dx, dy) p (combine xs ys).
Proof.
  intros X Y dx dy p xs ys E. unfold pick. induction p as [|i p IH]; [reflexivity|]. cbn. rewrite IH. f_equal. symmetry. apply combine_nth. exact E.
Qed.
Lemma fst_combine : forall {X Y} (xs : list X) (ys : list Y), length xs = length ys -> map fst (combine xs ys) = xs.
Proof. intros X Y xs. induction xs as [|x xs IH]; intros [|y ys] E; try discriminate E; [reflexivity|]. cbn. f_equal. apply IH. cbn in E. lia. Qed.
Lemma rounded_pick : forall n p x r r2, ordering n p -> length x = n -> Forall2 (rounded 16) x r -> Forall2 (rounded 16) (pick 0 p x) r2 -> r2 = pick 0 p r.
Proof.
  intros n p x r r2 H Hx F F2. apply (Forall2_rounded_unique (pick 0 p x)); [exact F2|].
  apply (Forall2_pick (rounded 16) 0 0 n p x r H Hx); [|exact F]. rewrite <- (Forall2_length _ _ _ F). exact Hx.
Qed.

(** ** The twins *)
Lemma pick_repeat : forall {X} (d : X) n p a, ordering n p -> pick d p (repeat a n) = repeat a n.
Proof.
  intros X d n p a H. rewrite <- (ordering_length _ _ H) at 2. unfold pick.
  assert (G : forall q, (forall i, In i q -> (i < n)%nat) -> map (fun i => nth i (repeat a n) d) q = repeat a (length q)).
  { induction q as [|i q IH]; intros Hq; [reflexivity|]. cbn. f_equal; [|apply IH; intros j Hj; apply Hq; right; exact Hj].
    rewrite (nth_indep _ d a) by (rewrite repeat_length; apply Hq; left; reflexivity). apply nth_repeat. }
  apply G. intros i Hi. apply (ordering_lt _ _ _ H Hi).
Qed.
Lemma columns_pick : forall n p rows lb ub, ordering n p -> length rows = n -> columns rows = Ok (lb, ub) ->
  columns (pick [] p rows) = Ok (pick None p lb, pick None p ub).
Proof.
  intros n p rows lb ub H Hn E. pose proof (ordering_length _ _ H) as L.
  destruct rows as [|r0 rows]; [discriminate E|]. set (rs := r0 :: rows) in *. unfold columns in E. fold rs in E. cbn [rs] in E. fold rs in E.
  destruct (forallb (fun r => (length r =? length r0)%nat) rs) eqn:E1; [|discriminate E].
  destruct (length r0 <? 2)%nat eqn:E2; [discriminate E|]. inversion E; subst lb ub; clear E.
  rewrite forallb_forall in E1.
  assert (Q : forall r, In r (pick [] p rs) -> length r = length r0).
  { intros r Hr. unfold pick in Hr. apply in_map_iff in Hr. destruct Hr as [i [Hr Hi]]. subst r. apply Nat.eqb_eq. apply E1. apply nth_In. rewrite Hn. apply (ordering_lt _ _ _ H Hi). }
  pose proof (pick_map (fun r : list bnum => nth 0 r None) [] p rs) as P0. pose proof (pick_map (fun r : list bnum => nth 1 r None) [] p rs) as P1.
  transitivity (Ok (map (fun r : list bnum => nth 0 r None) (pick [] p rs), map (fun r : list bnum => nth 1 r None) (pick [] p rs))); [clear P0 P1|rewrite P0, P1; reflexivity].
  assert (Lp : length (pick [] p rs) = n) by (rewrite pick_length; exact L).
  destruct (pick [] p rs) as [|q0 qs] eqn:Ep; [cbn in Lp; subst n; discriminate Lp|].
  unfold columns. assert (Eq0 : length q0 = length r0) by (apply Q; left; reflexivity). rewrite Eq0, E2.
  replace (forallb (fun r => (length r =? length r0)%nat) (q0 :: qs)) with true; [reflexivity|].
  symmetry. apply forallb_forall. intros r Hr. apply Nat.eqb_eq. apply Q. exact Hr.
Qed.
Lemma read_bounds_pick : forall n p b b' lb ub, ordering n p -> bounds_reordered n p b b' -> read_bounds n b = Ok (lb, ub) ->
  read_bounds n b' = Ok (pick None p lb, pick None p ub).
Proof.
  intros n p b b' lb ub H [[l [u [-> ->]]]|[rows [Hn [-> ->]]]] E.
  - cbn [read_bounds] in *. destruct (_ && _); [discriminate E|]. inversion E; subst. rewrite !pick_repeat by exact H. reflexivity.
  - cbn [read_bounds] in *. rewrite pick_length, (ordering_length _ _ H), Nat.eqb_refl. rewrite Hn, Nat.eqb_refl in E. apply (columns_pick n); assumption.
Qed.
Lemma num_cols_square : forall n M, (0 < n)%nat -> square n M -> num_cols M = n.
Proof. intros n [|r M] Hn [H1 H2]; [cbn in H1; lia|]. inversion H2; subst. assumption. Qed.

Lemma mu_reordered_fst : forall p s, map fst (mu_reordered p s) = pick (LInt 0) p (map fst s).
Proof. intros. unfold mu_reordered. rewrite pick_map. reflexivity. Qed.
Lemma mu_reordered_snd : forall p s, map snd (mu_reordered p s) = pick 0 p (map snd s).
Proof. intros. unfold mu_reordered. rewrite pick_map. reflexivity. Qed.

(** the constructor accepts the re-ordered data as well *)
Theorem reordered_accepted : forall p s cols rows b b' v1 v2 w1 o1, ordering (length s) p -> square (length s) rows ->
  bounds_reordered (length s) p b b' -> ef_init (MIn (MuSeries s)) (CIn (CovFrame cols rows)) b v1 = (w1, Ok o1) ->
  exists w2 o2, ef_init (MIn (MuSeries (mu_reordered p s))) (CIn (CovFrame (pick (LInt 0) p cols) (cov_reordered p rows))) b' v2 = (w2, Ok o2).
Proof.
  intros p s cols rows b b' v1 v2 w1 o1 H HM Hb E. destruct (ef_init_inv _ _ _ _ _ _ E) as [m [lb [ub [Em [Hs [Hr _]]]]]]. inversion Em; subst m.
  pose proof (ordering_length _ _ H) as L. pose proof (cov_reordered_square _ _ _ H HM) as HM'. cbn [init_tickers] in Hr. rewrite map_length in Hr.
  eexists _, _. apply ef_init_ok with (lb := pick None p lb) (ub := pick None p ub).
  - cbn [init_shape_ok mu_values cov_values]. unfold init_shape_ok. cbn [mu_values cov_values]. rewrite mu_reordered_snd, pick_length, L.
    split; [apply HM'|]. destruct (length s) as [|n] eqn:En.
    + destruct HM' as [A _]. destruct (cov_reordered p rows); [reflexivity|discriminate A].
    + apply num_cols_square; [lia|exact HM'].
  - cbn [init_tickers]. rewrite mu_reordered_fst, pick_length, L. apply (read_bounds_pick _ p b); assumption.
Qed.

Section Twins.
  Variables (p : list nat) (s : list (label * R)) (cols : list label) (rows : list (list R)) (b b' : bounds_arg) (v1 v2 w1 w2 : world) (o1 o2 : ef).
  Hypothesis T : twins p s cols rows b b' v1 v2 w1 w2 o1 o2.
  Let n := length s.

  Lemma twins_facts : ordering n p /\ square n rows /\
    open_ef w1 o1 [] /\ open_ef w2 o2 [] /\ e_n o1 = n /\ e_n o2 = n /\ e_add o1 = [] /\ e_add o2 = [] /\
    b_tickers (e_base o1) = map fst s /\ b_tickers (e_base o2) = pick (LInt 0) p (map fst s) /\
    e_mu o1 = Some (map snd s) /\ e_mu o2 = Some (pick 0 p (map snd s)) /\
    e_cov o1 = rows /\ e_cov o2 = cov_reordered p rows /\
    length (e_lb o1) = n /\ length (e_ub o1) = n /\ e_lb o2 = pick None p (e_lb o1) /\ e_ub o2 = pick None p (e_ub o1) /\
    (forall name, fresh_name w1 o1 name) /\ (forall name, fresh_name w2 o2 name).
  Proof.
    unfold twins in T. destruct T as [H [HM [Hb [E1 E2]]]]. fold n in H, HM, Hb. pose proof (ordering_length _ _ H) as L.
    pose proof (cov_reordered_square _ _ _ H HM) as HM'.
    destruct (ef_init_inv _ _ _ _ _ _ E1) as [m [lb [ub [Em [Hs [Hr [Ew Eo]]]]]]]. inversion Em; subst m.
    destruct (ef_init_inv _ _ _ _ _ _ E2) as [m' [lb' [ub' [Em' [Hs' [Hr' [Ew' Eo']]]]]]]. inversion Em'; subst m'.
    assert (N1 : length (init_tickers (MuSeries s) (CovFrame cols rows)) = n) by (cbn [init_tickers]; apply map_length).
    assert (N2 : length (init_tickers (MuSeries (mu_reordered p s)) (CovFrame (pick (LInt 0) p cols) (cov_reordered p rows))) = n)
      by (cbn [init_tickers]; rewrite mu_reordered_fst, pick_length; exact L).
    pose proof (PEF2.init_open _ _ b v1 lb ub Hs) as O1. pose proof (PEF2.init_open _ _ b' v2 lb' ub' Hs') as O2.
    rewrite N1 in *. rewrite N2 in *. specialize (O1 HM Hr). specialize (O2 HM' Hr'). rewrite <- Ew, <- Eo in O1. rewrite <- Ew', <- Eo' in O2.
    rewrite (read_bounds_pick n p b b' lb ub H Hb Hr) in Hr'. inversion Hr'; subst lb' ub'.
    destruct (read_bounds_len _ _ _ _ Hr) as [L1 L2].
    split; [exact H|]. split; [exact HM|]. split; [exact O1|]. split; [exact O2|].
    rewrite Eo, Eo'. unfold e_n. cbn [init_ef e_base b_tickers e_add e_mu e_cov e_lb e_ub mu_values cov_values].
    rewrite N1, N2. cbn [init_tickers]. rewrite mu_reordered_fst, mu_reordered_snd.
    do 14 (split; [assumption || reflexivity|]).
    split; intros name q Hq; cbn in Hq; contradiction.
  Qed.

  (** one best portfolio of the re-ordered problem, seen with its labels *)
  Lemma answers_pick : forall lb ub sum ok1 ok2 cost1 cost2 d ws, NoDup (map fst s) -> length lb = n -> length ub = n ->
    (forall x, length x = n -> (ok1 x <-> ok2 (pick 0 p x))) -> (forall x, length x = n -> cost2 (pick 0 p x) = cost1 x) ->
    best_portfolio w2 o2 [] (pick None p lb) (pick None p ub) sum ok2 cost2 ws d ->
    answers (map fst s) lb ub sum ok1 cost1 d.
  Proof.
    intros lb ub sum ok1 ok2 cost1 cost2 d ws Hnd Hl Hu Hok Hc B.
    destruct twins_facts as [H [HM [O1 [O2 [N1 [N2 [A1 [A2 [T1 [T2 _]]]]]]]]]]. pose proof (ordering_length _ _ H) as L.
    destruct O2 as [_ [_ [_ [_ [Hsz _]]]]].
    destruct (best_chosen _ _ _ _ _ _ _ _ _ Hsz A2 B) as [x [r [C [_ [F E]]]]]. rewrite N2 in C.
    assert (Lx : length x = n) by apply C.
    assert (Lu : length (unpick 0 p x) = n) by (rewrite unpick_length; exact L).
    rewrite <- (pick_unpick 0 n p x H Lx) in C, F.
    set (y := unpick 0 p x) in *. exists y, (map round16 y). unfold answers. rewrite map_length. fold n.
    split; [apply (chosen_pick n p lb ub sum ok1 ok2 cost1 cost2); assumption|].
    split; [apply round16_rounded|]. intros t. subst d. rewrite T2.
    rewrite (rounded_pick n p y (map round16 y) r H Lu (round16_rounded y) F).
    assert (El : length (map fst s) = length (map round16 y)) by (rewrite !map_length; symmetry; exact Lu).
    rewrite combine_pick by exact El.
    assert (P : Permutation (pick (LInt 0, 0) p (combine (map fst s) (map round16 y))) (combine (map fst s) (map round16 y))).
    { apply pick_perm. rewrite combine_length, !map_length. rewrite Lu. fold n. rewrite Nat.min_id. exact H. }
    assert (Nd : NoDup (map fst (combine (map fst s) (map round16 y)))) by (rewrite fst_combine by exact El; exact Hnd).
    rewrite dict_of_pairs_NoDup by (apply (Permutation_NoDup (Permutation_map fst (Permutation_sym P))); exact Nd).
    symmetry. apply dget_perm; [exact Nd|]. apply Permutation_sym. exact P.
  Qed.
  Lemma answers_direct : forall lb ub sum ok cost d ws, NoDup (map fst s) ->
    best_portfolio w1 o1 [] lb ub sum ok cost ws d -> answers (map fst s) lb ub sum ok cost d.
  Proof.
    intros lb ub sum ok cost d ws Hnd B.
    destruct twins_facts as [H [HM [O1 [O2 [N1 [N2 [A1 [A2 [T1 [T2 _]]]]]]]]]].
    destruct O1 as [_ [_ [_ [_ [Hsz _]]]]].
    destruct (best_chosen _ _ _ _ _ _ _ _ _ Hsz A1 B) as [x [r [C [_ [F E]]]]]. rewrite N1 in C.
    exists x, r. unfold answers. rewrite map_length. fold n. split; [exact C|]. split; [exact F|]. intros t. subst d. rewrite T1.
    rewrite dict_of_pairs_NoDup; [reflexivity|]. rewrite fst_combine; [exact Hnd|]. rewrite map_length, <- (Forall2_length _ _ _ F). destruct C as [C _]. symmetry. exact C.
  Qed.

  Lemma Forall_perm : forall {X} (P : X -> Prop) a c, Permutation a c -> (Forall P a <-> Forall P c).
  Proof. intros X P a c Hp. split; intros F; [apply (Permutation_Forall Hp F)|apply (Permutation_Forall (Permutation_sym Hp) F)]. Qed.
  Lemma in_force_pick : forall mn lb ub, bounds_in_force mn o2 lb ub ->
    exists lb1 ub1, bounds_in_force mn o1 lb1 ub1 /\ length lb1 = n /\ length ub1 = n /\ lb = pick None p lb1 /\ ub = pick None p ub1.
  Proof.
    intros mn lb ub B. destruct twins_facts as [H [HM [O1 [O2 [N1 [N2 [A1 [A2 [T1 [T2 [M1 [M2 [C1 [C2 [L1 [L2 [L3 [L4 _]]]]]]]]]]]]]]]]]].
    assert (Q : no_short_allowed (e_lb o2) <-> no_short_allowed (e_lb o1)).
    { unfold no_short_allowed. rewrite L3. apply Forall_perm. apply pick_perm. rewrite L1. exact H. }
    unfold bounds_in_force in B. rewrite Q in B. destruct B as [[B1 [B2 [-> ->]]]|[B1 [-> ->]]].
    - exists (repeat (Some (-1)) n), (repeat (Some 1) n). rewrite !repeat_length, !pick_repeat, N2 by exact H.
      split; [left; rewrite N1; auto|auto].
    - exists (e_lb o1), (e_ub o1). split; [right; auto|auto].
  Qed.
  Lemma in_force_unique : forall mn o lb ub lb' ub', bounds_in_force mn o lb ub -> bounds_in_force mn o lb' ub' -> lb = lb' /\ ub = ub'.
  Proof.
    intros mn o lb ub lb' ub' [[A [B [-> ->]]]|[A [-> ->]]] [[A' [B' [-> ->]]]|[A' [-> ->]]]; try (split; reflexivity); exfalso.
    - destruct A' as [A'|A']; [congruence|contradiction].
    - destruct A as [A|A]; [congruence|contradiction].
  Qed.

  Theorem twins_min_volatility : forall sv1 sv2 x1 x2 y1 y2 d1 d2, NoDup (map fst s) -> exact_solver sv1 -> exact_solver sv2 ->
    min_volatility sv1 w1 o1 = (x1, y1, Ok d1) -> min_volatility sv2 w2 o2 = (x2, y2, Ok d2) ->
    answers (map fst s) (e_lb o1) (e_ub o1) 1 (fun _ => True) (qform rows) d1 /\
    answers (map fst s) (e_lb o1) (e_ub o1) 1 (fun _ => True) (qform rows) d2.
  Proof.
    intros sv1 sv2 x1 x2 y1 y2 d1 d2 Hnd S1 S2 E1 E2.
    destruct twins_facts as [H [HM [O1 [O2 [N1 [N2 [A1 [A2 [T1 [T2 [M1 [M2 [C1 [C2 [L1 [L2 [L3 [L4 _]]]]]]]]]]]]]]]]]].
    apply (min_volatility_best _ _ _ _ _ _ _ S1 O1) in E1. apply (min_volatility_best _ _ _ _ _ _ _ S2 O2) in E2. rewrite C1 in E1. rewrite C2, L3, L4 in E2.
    split; [eapply answers_direct; eassumption|]. eapply (answers_pick (e_lb o1) (e_ub o1)); try eassumption; [intros; tauto|].
    intros x Hx. apply (qform_pick n); assumption.
  Qed.
  Theorem twins_utility : forall sv1 sv2 ra mn x1 x2 y1 y2 d1 d2, NoDup (map fst s) -> exact_solver sv1 -> exact_solver sv2 ->
    max_quadratic_utility sv1 ra mn w1 o1 = (x1, y1, Ok d1) -> max_quadratic_utility sv2 ra mn w2 o2 = (x2, y2, Ok d2) ->
    0 < ra /\ exists lb ub, bounds_in_force mn o1 lb ub /\
    answers (map fst s) lb ub (if mn then 0 else 1) (fun _ => True) (fun x => - (inner (map snd s) x - ra / 2 * qform rows x)) d1 /\
    answers (map fst s) lb ub (if mn then 0 else 1) (fun _ => True) (fun x => - (inner (map snd s) x - ra / 2 * qform rows x)) d2.
  Proof.
    intros sv1 sv2 ra mn x1 x2 y1 y2 d1 d2 Hnd S1 S2 E1 E2.
    destruct twins_facts as [H [HM [O1 [O2 [N1 [N2 [A1 [A2 [T1 [T2 [M1 [M2 [C1 [C2 [L1 [L2 [L3 [L4 [F1 F2]]]]]]]]]]]]]]]]]]].
    apply (utility_best _ _ _ _ _ _ _ _ _ _ S1 O1 M1 (F1 _)) in E1. apply (utility_best _ _ _ _ _ _ _ _ _ _ S2 O2 M2 (F2 _)) in E2.
    destruct E1 as [Hra [lb [ub [B1 E1]]]], E2 as [_ [lb2 [ub2 [B2 E2]]]]. rewrite C1 in E1. rewrite C2 in E2.
    destruct (in_force_pick _ _ _ B2) as [lb' [ub' [B3 [Q1 [Q2 [-> ->]]]]]]. destruct (in_force_unique _ _ _ _ _ _ B1 B3) as [<- <-].
    split; [exact Hra|]. exists lb, ub. split; [exact B1|].
    split; [eapply answers_direct; eassumption|]. eapply (answers_pick lb ub); try eassumption; [intros; tauto|].
    intros x Hx. cbv beta. rewrite (qform_pick n), (inner_pick n) by (try assumption; apply map_length). reflexivity.
  Qed.
  Theorem twins_return : forall sv1 sv2 tg mn x1 x2 y1 y2 d1 d2, NoDup (map fst s) -> exact_solver sv1 -> exact_solver sv2 ->
    efficient_return sv1 tg mn w1 o1 = (x1, y1, Ok d1) -> efficient_return sv2 tg mn w2 o2 = (x2, y2, Ok d2) ->
    exists t lb ub, tg = NFloat t /\ bounds_in_force mn o1 lb ub /\
    answers (map fst s) lb ub (if mn then 0 else 1) (fun x => t <= inner (map snd s) x) (qform rows) d1 /\
    answers (map fst s) lb ub (if mn then 0 else 1) (fun x => t <= inner (map snd s) x) (qform rows) d2.
  Proof.
    intros sv1 sv2 tg mn x1 x2 y1 y2 d1 d2 Hnd S1 S2 E1 E2.
    destruct twins_facts as [H [HM [O1 [O2 [N1 [N2 [A1 [A2 [T1 [T2 [M1 [M2 [C1 [C2 [L1 [L2 [L3 [L4 [F1 F2]]]]]]]]]]]]]]]]]]].
    apply (efficient_return_best _ _ _ _ _ _ _ _ _ _ S1 O1 M1 (F1 _)) in E1. apply (efficient_return_best _ _ _ _ _ _ _ _ _ _ S2 O2 M2 (F2 _)) in E2.
    destruct E1 as [t [lb [ub [Et [B1 E1]]]]], E2 as [t2 [lb2 [ub2 [Et2 [B2 E2]]]]]. rewrite C1 in E1. rewrite C2 in E2. assert (t2 = t) by congruence. subst t2.
    destruct (in_force_pick _ _ _ B2) as [lb' [ub' [B3 [Q1 [Q2 [-> ->]]]]]]. destruct (in_force_unique _ _ _ _ _ _ B1 B3) as [<- <-].
    exists t, lb, ub. split; [exact Et|]. split; [exact B1|].
    split; [eapply answers_direct; eassumption|]. eapply (answers_pick lb ub); try eassumption.
    - intros x Hx. cbv beta. rewrite (inner_pick n) by (try assumption; apply map_length). tauto.
    - intros x Hx. apply (qform_pick n); assumption.
  Qed.
  Theorem twins_risk : forall sv1 sv2 pinv1 pinv2 tg mn x1 x2 y1 y2 d1 d2, NoDup (map fst s) -> exact_solver sv1 -> exact_solver sv2 ->
    efficient_risk sv1 pinv1 tg mn w1 o1 = (x1, y1, Ok d1) -> efficient_risk sv2 pinv2 tg mn w2 o2 = (x2, y2, Ok d2) ->
    exists t lb ub, target_of tg = Some t /\ bounds_in_force mn o1 lb ub /\
    answers (map fst s) lb ub (if mn then 0 else 1) (fun x => qform rows x <= t * t) (fun x => - inner (map snd s) x) d1 /\
    answers (map fst s) lb ub (if mn then 0 else 1) (fun x => qform rows x <= t * t) (fun x => - inner (map snd s) x) d2.
  Proof.
    intros sv1 sv2 pinv1 pinv2 tg mn x1 x2 y1 y2 d1 d2 Hnd S1 S2 E1 E2.
    destruct twins_facts as [H [HM [O1 [O2 [N1 [N2 [A1 [A2 [T1 [T2 [M1 [M2 [C1 [C2 [L1 [L2 [L3 [L4 [F1 F2]]]]]]]]]]]]]]]]]]].
    apply (efficient_risk_best _ _ _ _ _ _ _ _ _ _ _ S1 O1 M1 (F1 _)) in E1. apply (efficient_risk_best _ _ _ _ _ _ _ _ _ _ _ S2 O2 M2 (F2 _)) in E2.
    destruct E1 as [t [lb [ub [Et [_ [B1 E1]]]]]], E2 as [t2 [lb2 [ub2 [Et2 [_ [B2 E2]]]]]]. rewrite C1 in E1. rewrite C2 in E2. assert (t2 = t) by congruence. subst t2.
    destruct (in_force_pick _ _ _ B2) as [lb' [ub' [B3 [Q1 [Q2 [-> ->]]]]]]. destruct (in_force_unique _ _ _ _ _ _ B1 B3) as [<- <-].
    exists t, lb, ub. split; [exact Et|]. split; [exact B1|].
    split; [eapply answers_direct; eassumption|]. eapply (answers_pick lb ub); try eassumption.
    - intros x Hx. cbv beta. rewrite (qform_pick n) by assumption. tauto.
    - intros x Hx. cbv beta. rewrite (inner_pick n) by (try assumption; apply map_length). reflexivity.
  Qed.
End Twins.

(** ** With a positive definite covariance matrix the weights agree *)
Lemma answers_same : forall ts lb ub sum (ok : list R -> Prop) cost d1 d2,
  (forall x y, chosen (length ts) lb ub sum ok cost x -> chosen (length ts) lb ub sum ok cost y -> x = y) ->
  answers ts lb ub sum ok cost d1 -> answers ts lb ub sum ok cost d2 -> agree d1 d2.
Proof.
  intros ts lb ub sum ok cost d1 d2 U [x [r [C [F D]]]] [y [r' [C' [F' D']]]] t. rewrite D, D'.
  pose proof (U x y C C') as <-. rewrite (Forall2_rounded_unique _ _ _ F F'). reflexivity.
Qed.
Lemma answers_cost : forall ts lb ub sum (ok : list R -> Prop) cost cost' d, (forall x, cost x = cost' x) ->
  answers ts lb ub sum ok cost d -> answers ts lb ub sum ok cost' d.
Proof.
  intros ts lb ub sum ok cost cost' d E [x [r [[C1 [C2 [C3 [C4 C5]]]] [F D]]]]. exists x, r. split; [|auto]. repeat (split; [assumption|]).
  intros y. rewrite <- !E. apply C5.
Qed.
Section Same.
  Variables (p : list nat) (s : list (label * R)) (cols : list label) (rows : list (list R)) (b b' : bounds_arg) (v1 v2 w1 w2 : world) (o1 o2 : ef).
  Hypothesis T : twins p s cols rows b b' v1 v2 w1 w2 o1 o2.
  Hypothesis Hnd : NoDup (map fst s).
  Hypothesis HP : pos_def (length s) rows.

  Theorem same_min_volatility : forall sv1 sv2 x1 x2 y1 y2 d1 d2, exact_solver sv1 -> exact_solver sv2 ->
    min_volatility sv1 w1 o1 = (x1, y1, Ok d1) -> min_volatility sv2 w2 o2 = (x2, y2, Ok d2) -> agree d1 d2.
  Proof.
    intros sv1 sv2 x1 x2 y1 y2 d1 d2 S1 S2 E1 E2.
    destruct (twins_min_volatility _ _ _ _ _ _ _ _ _ _ _ _ T sv1 sv2 _ _ _ _ _ _ Hnd S1 S2 E1 E2) as [A1 A2].
    apply (answers_cost _ _ _ _ _ _ (fun z => 1 * qform rows z + 0)) in A1; [|intros; ring].
    apply (answers_cost _ _ _ _ _ _ (fun z => 1 * qform rows z + 0)) in A2; [|intros; ring].
    refine (answers_same _ _ _ _ _ _ _ _ _ A1 A2). rewrite map_length.
    apply (chosen_unique (length s) rows _ _ _ _ 1 (fun _ => 0)); [exact HP|lra| |tauto]. intros; ring.
  Qed.
  Theorem same_utility : forall sv1 sv2 ra mn x1 x2 y1 y2 d1 d2, exact_solver sv1 -> exact_solver sv2 ->
    max_quadratic_utility sv1 ra mn w1 o1 = (x1, y1, Ok d1) -> max_quadratic_utility sv2 ra mn w2 o2 = (x2, y2, Ok d2) -> agree d1 d2.
  Proof.
    intros sv1 sv2 ra mn x1 x2 y1 y2 d1 d2 S1 S2 E1 E2.
    destruct (twins_utility _ _ _ _ _ _ _ _ _ _ _ _ T sv1 sv2 _ _ _ _ _ _ _ _ Hnd S1 S2 E1 E2) as [Hra [lb [ub [_ [A1 A2]]]]].
    apply (answers_cost _ _ _ _ _ _ (fun z => ra / 2 * qform rows z + - inner (map snd s) z)) in A1; [|intros; ring].
    apply (answers_cost _ _ _ _ _ _ (fun z => ra / 2 * qform rows z + - inner (map snd s) z)) in A2; [|intros; ring].
    refine (answers_same _ _ _ _ _ _ _ _ _ A1 A2). rewrite map_length.
    apply (chosen_unique (length s) rows _ _ _ _ (ra / 2) (fun z => - inner (map snd s) z)); [exact HP|lra| |tauto].
    intros x y t Hx Hy. rewrite inner_blend by congruence. ring.
  Qed.
  Theorem same_return : forall sv1 sv2 tg mn x1 x2 y1 y2 d1 d2, exact_solver sv1 -> exact_solver sv2 ->
    efficient_return sv1 tg mn w1 o1 = (x1, y1, Ok d1) -> efficient_return sv2 tg mn w2 o2 = (x2, y2, Ok d2) -> agree d1 d2.
  Proof.
    intros sv1 sv2 tg mn x1 x2 y1 y2 d1 d2 S1 S2 E1 E2.
    destruct (twins_return _ _ _ _ _ _ _ _ _ _ _ _ T sv1 sv2 _ _ _ _ _ _ _ _ Hnd S1 S2 E1 E2) as [t [lb [ub [_ [_ [A1 A2]]]]]].
    apply (answers_cost _ _ _ _ _ _ (fun z => 1 * qform rows z + 0)) in A1; [|intros; ring].
    apply (answers_cost _ _ _ _ _ _ (fun z => 1 * qform rows z + 0)) in A2; [|intros; ring].
    refine (answers_same _ _ _ _ _ _ _ _ _ A1 A2). rewrite map_length.
    apply (chosen_unique (length s) rows _ _ _ _ 1 (fun _ => 0)); [exact HP|lra| |]; [intros; ring|].
    intros x y Hx Hy X Y. rewrite inner_blend by congruence. lra.
  Qed.
End Same.
