(** * Tables of returns in another order and unit: the risk measures and the pair of problems (C130) *)
From Coq Require Import ZArith String List Bool Reals Lia Lra Permutation.
From Verif Require Import Num Py RBase PyLemmas SBL MBase MConvex MEF MDown SLin SBase SConvex SPerm SUnits SDown SDays Sums Mat PBase PConvex PEF PEF2 PEF3 PEF4 PDown PDown2 PDown5 PObj PPerm PPerm2 PPerm3 PPerm4 PUnits PRisk.
Import ListNotations.
Local Open Scope R_scope.

(** ** Tables *)
Lemma complete_restated : forall p a n row, ordering n p -> length row = n -> complete (day_restated p a row) = option_map (fun l => map (Rmult a) (pick 0 p l)) (complete row).
Proof.
  intros p a n row H L.
  assert (K : forall ys : list R, complete (map Some ys) = Some ys) by (induction ys as [|y ys IH]; [reflexivity|cbn [map complete]; rewrite IH; reflexivity]).
  assert (C1 : forall (r : list (option R)) l, complete r = Some l -> r = map Some l).
  { induction r as [|[x|] r IH]; intros l E; cbn [complete] in E; [injection E as <-; reflexivity| |discriminate E].
    destruct (complete r) as [l'|]; [|discriminate E]. injection E as <-. cbn. f_equal. apply IH. reflexivity. }
  assert (C2 : forall (r : list (option R)), complete r = None <-> In None r).
  { induction r as [|[x|] r IH]; cbn [complete]; [split; [discriminate|contradiction]| |split; [left; reflexivity|reflexivity]].
    destruct (complete r) eqn:E; [split; [discriminate|intros [F|F]; [discriminate|apply IH in F; discriminate]]|split; [right; apply IH; reflexivity|reflexivity]]. }
  unfold day_restated. destruct (complete row) as [l|] eqn:E; cbn [option_map].
  - apply C1 in E. subst row. rewrite map_length in L.
    assert (P : pick None p (map Some l) = map Some (pick 0 p l)).
    { unfold pick. rewrite map_map. apply map_ext_in. intros i Hi. apply (ordering_lt _ _ _ H) in Hi. rewrite (nth_indep _ None (Some 0)) by (rewrite map_length; lia). apply map_nth. }
    rewrite P, map_map, <- (K (map (Rmult a) (pick 0 p l))), map_map. reflexivity.
  - apply C2. apply C2 in E. apply (in_map (option_map (Rmult a)) _ None). eapply Permutation_in; [apply Permutation_sym, pick_perm; rewrite L; exact H|exact E].
Qed.
Lemma dropna_restated : forall p a n rows, ordering n p -> Forall (fun r => length r = n) rows ->
  dropna (map (day_restated p a) rows) = map (fun l => map (Rmult a) (pick 0 p l)) (dropna rows).
Proof.
  intros p a n rows H F. induction F as [|r rows L F IH]; [reflexivity|]. cbn [map]. unfold dropna in *. cbn [flat_map]. rewrite (complete_restated p a n) by assumption.
  rewrite map_app, IH. destruct (complete r); reflexivity.
Qed.
Lemma dropna_perm : forall rows rows', Permutation rows rows' -> Permutation (dropna rows) (dropna rows').
Proof. intros rows rows' P. unfold dropna. apply Permutation_flat_map. exact P. Qed.
Lemma complete_length : forall (r : list (option R)) l, complete r = Some l -> length l = length r.
Proof.
  induction r as [|[x|] r IH]; intros l E; cbn [complete] in E; [injection E as <-; reflexivity| |discriminate E].
  destruct (complete r) as [l'|]; [|discriminate E]. injection E as <-. cbn. f_equal. apply IH. reflexivity.
Qed.
Lemma dropna_lengths : forall n rows, Forall (fun r => length r = n) rows -> Forall (fun l => length l = n) (dropna rows).
Proof.
  intros n rows F. induction F as [|r rows L F IH]; [constructor|]. unfold dropna in *. cbn [flat_map]. destruct (complete r) as [l|] eqn:E; [|exact IH].
  cbn [app]. constructor; [rewrite (complete_length _ _ E); exact L|exact IH].
Qed.
Lemma good_restated : forall p a n rows rows', ordering n p -> good_rows n rows -> restated p a rows rows' -> good_rows n rows'.
Proof.
  intros p a n rows rows' H [F [r [l [Hin E]]]] [days [P ->]]. split.
  - apply Forall_map. apply (Permutation_Forall P). eapply Forall_impl; [|exact F]. intros r' _. unfold day_restated. rewrite map_length, pick_length. apply ordering_length. exact H.
  - exists (day_restated p a r), (map (Rmult a) (pick 0 p l)). split; [apply in_map; apply (Permutation_in _ P); exact Hin|].
    rewrite Forall_forall in F. rewrite (complete_restated p a n) by auto. rewrite E. reflexivity.
Qed.
Lemma in_order_restated : forall p a rows rows', restated_in_order p a rows rows' -> restated p a rows rows'.
Proof. intros p a rows rows' ->. exists rows. split; [apply Permutation_refl|reflexivity]. Qed.

(** ** The returns of a portfolio in the two tables *)
Lemma period_restated : forall p a n rets x, ordering n p -> Forall (fun l => length l = n) rets -> length x = n ->
  period_returns (map (fun l => map (Rmult a) (pick 0 p l)) rets) (pick 0 p x) = map (Rmult a) (period_returns rets x).
Proof.
  intros p a n rets x H F L. unfold period_returns. rewrite !map_map. apply map_ext_in. intros l Hin. rewrite Forall_forall in F. rewrite inner_times. f_equal. apply (inner_pick n); auto.
Qed.
Lemma restated_series : forall p a n rows rows' x, ordering n p -> Forall (fun r => length r = n) rows -> restated p a rows rows' -> length x = n ->
  Permutation (map (Rmult a) (period_returns (dropna rows) x)) (period_returns (dropna rows') (pick 0 p x)) /\ length (dropna rows') = length (dropna rows).
Proof.
  intros p a n rows rows' x H F [days [P ->]] L. assert (F' : Forall (fun r => length r = n) days) by (apply (Permutation_Forall P); exact F).
  rewrite (dropna_restated p a n) by assumption. rewrite (period_restated p a n) by (try apply dropna_lengths; assumption). pose proof (dropna_perm _ _ P) as Q. split.
  - apply Permutation_map. unfold period_returns. apply Permutation_map. exact Q.
  - rewrite map_length. symmetry. apply Permutation_length. exact Q.
Qed.

(** ** Semivariance *)
Lemma shortfall_times : forall a b y, 0 < a -> shortfall (a * b) (a * y) = a * shortfall b y.
Proof.
  intros a b y Ha. unfold shortfall. destruct (Rlt_dec (a * y) (a * b)) as [E|E], (Rlt_dec y b) as [E'|E'].
  - ring.
  - apply Rmult_lt_reg_l in E; lra.
  - exfalso. apply E. apply Rmult_lt_compat_l; assumption.
  - ring.
Qed.
Lemma semivariance_restated : forall p a n rows rows' b x, 0 < a -> ordering n p -> Forall (fun r => length r = n) rows -> restated p a rows rows' -> length x = n ->
  semivariance (dropna rows') (a * b) (pick 0 p x) = (a * a) * semivariance (dropna rows) b x.
Proof.
  intros p a n rows rows' b x Ha H F Hr L. destruct (restated_series p a n rows rows' x H F Hr L) as [P E]. unfold semivariance. rewrite E.
  rewrite <- (PPerm.total_perm _ _ (Permutation_map _ P)), map_map.
  transitivity (total (map (Rmult (a * a)) (map (fun y => shortfall b y * shortfall b y) (period_returns (dropna rows) x))) / INR (length (dropna rows))).
  - f_equal. f_equal. rewrite map_map. apply map_ext. intros y. rewrite shortfall_times by exact Ha. ring.
  - assert (T : forall l, total (map (Rmult (a * a)) l) = a * a * total l) by (induction l as [|z l IH]; cbn; [ring|rewrite IH; ring]). rewrite T. unfold Rdiv. ring.
Qed.

(** ** The mean of the worst share *)
Lemma sort_unique : forall l l', desc l -> desc l' -> Permutation l l' -> l = l'.
Proof.
  induction l as [|x l IH]; intros l' D D' P; [apply Permutation_nil in P; auto|]. destruct l' as [|y l']; [apply Permutation_sym, Permutation_nil in P; discriminate|].
  assert (M : forall z l0, desc (z :: l0) -> forall w, In w l0 -> w <= z) by (intros z l0 [Fz _] w Hin; rewrite Forall_forall in Fz; apply Fz; exact Hin).
  assert (E : x = y).
  { apply Rle_antisym.
    - assert (I : In x (y :: l')) by (apply (Permutation_in _ P); left; reflexivity). destruct I as [->|I]; [lra|]. apply (M y l' D' _ I).
    - assert (I : In y (x :: l)) by (apply (Permutation_in _ (Permutation_sym P)); left; reflexivity). destruct I as [->|I]; [lra|]. apply (M x l D _ I). }
  subst y. f_equal. apply IH; [apply D|apply D'|]. apply (Permutation_cons_inv P).
Qed.
Lemma desc_times : forall a l, 0 < a -> desc l -> desc (map (Rmult a) l).
Proof.
  intros a l Ha. induction l as [|x l IH]; [exact (fun H => H)|]. intros [F D]. split; [|apply IH; exact D]. apply Forall_map. eapply Forall_impl; [|exact F].
  intros y Hy. apply Rmult_le_compat_l; lra.
Qed.
Lemma first_times : forall a l k, first k (map (Rmult a) l) = a * first k l.
Proof. intros a. induction l as [|x l IH]; intros k; cbn [map first]; [ring|]. destruct (Rle_dec k 1); [ring|rewrite IH; ring]. Qed.
Lemma worst_restated : forall a beta l l', 0 < a -> Permutation (map (Rmult a) l) l' -> worst_mean beta l' = a * worst_mean beta l.
Proof.
  intros a beta l l' Ha P. unfold worst_mean. rewrite <- (Permutation_length P), map_length.
  assert (E : sort_desc l' = map (Rmult a) (sort_desc l)).
  { apply sort_unique; [apply sort_is_desc|apply desc_times; [exact Ha|apply sort_is_desc]|].
    eapply Permutation_trans; [apply Permutation_sym, sort_perm|]. eapply Permutation_trans; [apply Permutation_sym; exact P|]. apply Permutation_map. apply sort_perm. }
  rewrite E, first_times. unfold Rdiv. ring.
Qed.
Lemma cvar_restated : forall p a n rows rows' beta x, 0 < a -> ordering n p -> Forall (fun r => length r = n) rows -> restated p a rows rows' -> length x = n ->
  cvar beta (dropna rows') (pick 0 p x) = a * cvar beta (dropna rows) x.
Proof.
  intros p a n rows rows' beta x Ha H F Hr L. destruct (restated_series p a n rows rows' x H F Hr L) as [P _]. unfold cvar. apply worst_restated; [exact Ha|].
  eapply Permutation_trans; [|apply Permutation_map; exact P]. rewrite !map_map. erewrite map_ext; [apply Permutation_refl|]. intros y. cbv beta. ring.
Qed.
Lemma drawdowns_times : forall a rs peak level, 0 < a -> drawdowns_from (a * peak) (a * level) (map (Rmult a) rs) = map (Rmult a) (drawdowns_from peak level rs).
Proof.
  intros a rs peak level Ha. revert peak level. induction rs as [|r rs IH]; intros peak level; [reflexivity|]. cbn [map drawdowns_from].
  rewrite <- Rmult_plus_distr_l, RmaxRmult, <- Rmult_minus_distr_l, IH by lra. reflexivity.
Qed.
Lemma cdar_restated : forall p a n rows rows' beta x, 0 < a -> ordering n p -> Forall (fun r => length r = n) rows -> restated_in_order p a rows rows' -> length x = n ->
  cdar beta (dropna rows') (pick 0 p x) = a * cdar beta (dropna rows) x.
Proof.
  intros p a n rows rows' beta x Ha H F -> L. unfold cdar. apply worst_restated; [exact Ha|].
  rewrite (dropna_restated p a n), (period_restated p a n) by (try apply dropna_lengths; assumption).
  pose proof (drawdowns_times a (period_returns (dropna rows) x) 0 0 Ha) as E. rewrite Rmult_0_r in E. rewrite E. apply Permutation_refl.
Qed.

(** ** Two new optimizers for the same assets *)
Definition new_for (w : world) (o : ef) (ts : list label) (m : list R) (lb ub : list (option R)) : Prop :=
  open_ef w o [] /\ e_add o = [] /\ all_params o = [] /\ b_tickers (e_base o) = ts /\ e_mu o = Some m /\ e_lb o = lb /\ e_ub o = ub.

Section Pair.
  Variables (p : list nat) (c : R) (s : list (label * R)) (lb0 ub0 : list (option R)) (w1 w2 : world) (o1 o2 : ef).
  Let n := length s.
  Let m := map snd s.
  Hypothesis H : ordering n p.
  Hypothesis L0 : length lb0 = n.
  Hypothesis U0 : length ub0 = n.
  Hypothesis F1 : new_for w1 o1 (map fst s) m lb0 ub0.
  Hypothesis F2 : new_for w2 o2 (pick (LInt 0) p (map fst s)) (map (Rmult c) (pick 0 p m)) (pick None p lb0) (pick None p ub0).

  Lemma pair_n1 : e_n o1 = n.
  Proof. unfold e_n. destruct F1 as (_ & _ & _ & -> & _). apply map_length. Qed.
  Lemma pair_n2 : e_n o2 = n.
  Proof. unfold e_n. destruct F2 as (_ & _ & _ & -> & _). rewrite pick_length. apply ordering_length. exact H. Qed.
  Lemma pair_force : forall mn lb ub, bounds_in_force mn o2 lb ub ->
    exists lb1 ub1, bounds_in_force mn o1 lb1 ub1 /\ length lb1 = n /\ length ub1 = n /\ lb = pick None p lb1 /\ ub = pick None p ub1.
  Proof.
    intros mn lb ub B. pose proof pair_n1 as N1. pose proof pair_n2 as N2. destruct F1 as (_ & _ & _ & _ & _ & E1 & E2). destruct F2 as (_ & _ & _ & _ & _ & E3 & E4).
    assert (Q : no_short_allowed (e_lb o2) <-> no_short_allowed (e_lb o1)).
    { unfold no_short_allowed. rewrite E3, E1. apply Forall_perm. apply pick_perm. rewrite L0. exact H. }
    unfold bounds_in_force in B. rewrite Q in B. destruct B as [[B1 [B2 [-> ->]]]|[B1 [-> ->]]].
    - exists (repeat (Some (-1)) n), (repeat (Some 1) n). rewrite !repeat_length, !pick_repeat, N2 by exact H. split; [left; rewrite N1; auto|auto].
    - exists lb0, ub0. rewrite E3, E4. split; [right; auto|auto].
  Qed.
  Lemma pair_answers : forall mn lb ub lb2 ub2 sum (ok1 ok2 : list R -> Prop) g (cost1 cost2 : list R -> R) d1 d2 ws1 ws2, NoDup (map fst s) -> 0 < g ->
    (forall x, length x = n -> (ok1 x <-> ok2 (pick 0 p x))) -> (forall x, length x = n -> cost2 (pick 0 p x) = g * cost1 x) ->
    bounds_in_force mn o1 lb ub -> best_portfolio w1 o1 [] lb ub sum ok1 cost1 ws1 d1 ->
    bounds_in_force mn o2 lb2 ub2 -> best_portfolio w2 o2 [] lb2 ub2 sum ok2 cost2 ws2 d2 ->
    exists lb ub, bounds_in_force mn o1 lb ub /\ answers (map fst s) lb ub sum ok1 cost1 d1 /\ answers (map fst s) lb ub sum ok1 cost1 d2.
  Proof.
    intros mn lb ub lb2 ub2 sum ok1 ok2 g cost1 cost2 d1 d2 ws1 ws2 Hnd Hg Hok Hc B1 P1 B2 P2. pose proof pair_n1 as N1. pose proof pair_n2 as N2.
    destruct F1 as (O1 & A1 & _ & T1 & _). destruct F2 as (O2 & A2 & _ & T2 & _). pose proof (ordering_length _ _ H) as L.
    destruct (pair_force mn lb2 ub2 B2) as (lb' & ub' & B' & Ll & Lu & -> & ->). destruct (in_force_unique _ _ _ _ _ _ B1 B') as [-> ->].
    exists lb', ub'. split; [exact B'|]. split; [apply (answers_from s w1 o1 lb' ub' sum ok1 cost1 d1 ws1); assumption|].
    apply (answers_times s lb' ub' sum ok1 ok1 g cost1 (fun x => g * cost1 x)); [exact Hg|tauto|reflexivity|].
    destruct O2 as (_ & _ & _ & _ & Hsz & _). destruct (best_chosen _ _ _ _ _ _ _ _ _ Hsz A2 P2) as [x [r [C [_ [F E]]]]]. rewrite N2 in C.
    assert (Lx : length x = n) by apply C. assert (Ly : length (unpick 0 p x) = n) by (rewrite unpick_length; exact L).
    rewrite <- (pick_unpick 0 n p x H Lx) in C, F. set (y := unpick 0 p x) in *. exists y, (map round16 y). rewrite map_length. fold n.
    split; [apply (chosen_pick n p lb' ub' sum ok1 ok2 (fun x => g * cost1 x) cost2); assumption|]. split; [apply round16_rounded|].
    intros t. subst d2. rewrite T2. rewrite (rounded_pick n p y (map round16 y) r H Ly (round16_rounded y) F).
    apply (dget_combine_pick n); [exact H|apply map_length|rewrite map_length; exact Ly|exact Hnd].
  Qed.
  Lemma pair_exists : forall mn sum (ok1 ok2 : list R -> Prop) g (cost1 cost2 : list R -> R), 0 < g ->
    (forall x, length x = n -> (ok1 x <-> ok2 (pick 0 p x))) -> (forall x, length x = n -> cost2 (pick 0 p x) = g * cost1 x) ->
    ((exists lb ub x, bounds_in_force mn o1 lb ub /\ chosen n lb ub sum ok1 cost1 x) <->
     (exists lb ub x, bounds_in_force mn o2 lb ub /\ chosen n lb ub sum ok2 cost2 x)).
  Proof.
    intros mn sum ok1 ok2 g cost1 cost2 Hg Hok Hc. destruct (in_force_exists mn o2) as [lb2 [ub2 B2]]. destruct (pair_force mn lb2 ub2 B2) as (lb & ub & B1 & Q1 & Q2 & -> & ->).
    pose proof (chosen_both n p lb ub sum ok1 ok2 (fun x => g * cost1 x) cost2 H Q1 Q2 Hok Hc (fun _ => True) (fun _ => True) ltac:(intros; tauto)) as G.
    pose proof (chosen_times n lb ub sum ok1 ok1 g cost1 (fun x => g * cost1 x) Hg ltac:(tauto) ltac:(reflexivity)) as K.
    split; intros [l [u [x [B C]]]].
    - destruct (in_force_unique _ _ _ _ _ _ B B1) as [-> ->]. apply K in C. destruct (proj1 G (ex_intro _ x (conj I C))) as [y [_ D]]. eexists _, _, y. split; [exact B2|exact D].
    - destruct (in_force_unique _ _ _ _ _ _ B B2) as [-> ->]. destruct (proj2 G (ex_intro _ x (conj I C))) as [y [_ D]]. apply K in D. exists lb, ub, y. auto.
  Qed.
End Pair.

(** ** What the constructors of the downside optimizers leave behind *)
Lemma init_new_for : forall s M b v w o, square (length s) M -> ef_init (MIn (MuSeries s)) (CIn (CovArray M)) b v = (w, Ok o) ->
  e_add o = [] /\ all_params o = [] /\ b_tickers (e_base o) = map fst s /\ e_mu o = Some (map snd s) /\
  read_bounds (length s) b = Ok (e_lb o, e_ub o) /\ length (e_lb o) = length s /\ length (e_ub o) = length s.
Proof.
  intros s M b v w o HM E. destruct (ef_init_inv _ _ _ _ _ _ E) as [m1 [lb [ub [Em [Hs [Hr [Ew Eo]]]]]]]. inversion Em; subst m1.
  assert (N1 : length (init_tickers (MuSeries s) (CovArray M)) = length s) by (cbn [init_tickers]; apply map_length). rewrite N1 in Hr. destruct (read_bounds_len _ _ _ _ Hr) as [L1 L2].
  rewrite Eo. cbn [init_ef e_base b_tickers e_add e_mu e_lb e_ub mu_values init_tickers]. repeat (split; [assumption || reflexivity|]). assumption.
Qed.
