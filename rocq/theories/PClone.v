(** * An asset listed twice: EfficientFrontier (C141) *)
From Coq Require Import ZArith String List Bool Reals Lra Lia.
From Verif Require Import Num Py RBase PyLemmas SBL MBase MConvex MEF MDown SLin SBase SConvex SPerm SDown SClone Sums Mat PBase PConvex PEF PEF2 PEF3 PEF4 PDown PDown2 PDown5 PObj SObj SHRP PPerm PPerm2 PEF5 PEF6 PPerm3 PPerm4 PUnits PUnits2.
Import ListNotations.
Local Open Scope R_scope.

Lemma add_at_length : forall x i a, length (add_at i a x) = length x.
Proof. induction x as [|y x IH]; intros [|i] a; cbn; auto. Qed.
Lemma add_at_total : forall x i a, (i < length x)%nat -> total (add_at i a x) = total x + a.
Proof. induction x as [|y x IH]; intros [|i] a H; cbn in H |- *; try lia; [ring|]. rewrite IH by lia. ring. Qed.
Lemma add_at_zero : forall x i, add_at i 0 x = x.
Proof. induction x as [|y x IH]; intros [|i]; cbn; try reflexivity; [rewrite Rplus_0_r|rewrite IH]; reflexivity. Qed.
Lemma inner_add_at : forall m x i a, length m = length x -> (i < length x)%nat -> inner m (add_at i a x) = inner m x + nth i m 0 * a.
Proof.
  induction m as [|v m IH]; intros [|y x] i a L H; try discriminate L; [cbn in H; lia|]. injection L as L. destruct i as [|i]; cbn [add_at inner nth]; [ring|].
  rewrite IH by (auto; cbn in H; lia). ring.
Qed.
Lemma add_at_inner : forall x m i a, length m = length x -> (i < length x)%nat -> inner (add_at i a x) m = inner x m + a * nth i m 0.
Proof.
  induction x as [|y x IH]; intros [|v m] i a L H; try discriminate L; [cbn in H; lia|]. injection L as L. destruct i as [|i]; cbn [add_at inner nth]; [ring|].
  rewrite IH by (auto; cbn in H; lia). ring.
Qed.
Lemma merge_length : forall i x n, length x = S n -> length (merge i x) = n.
Proof. intros i [|a x] n L; [discriminate L|]. injection L as L. cbn. rewrite add_at_length. exact L. Qed.
Lemma merge_total : forall i x n, length x = S n -> (i < n)%nat -> total (merge i x) = total x.
Proof. intros i [|a x] n L H; [discriminate L|]. injection L as L. cbn [merge total]. rewrite add_at_total by lia. ring. Qed.
Lemma merge_zero : forall i x, merge i (0 :: x) = x.
Proof. intros i x. apply add_at_zero. Qed.
Lemma inner_clone : forall m i x, length x = S (length m) -> (i < length m)%nat -> inner (nth i m 0 :: m) x = inner m (merge i x).
Proof. intros m i [|a x] L H; [discriminate L|]. injection L as L. cbn [merge inner]. rewrite inner_add_at by lia. ring. Qed.
Lemma qform_clone : forall n M i x, square n M -> (i < n)%nat -> length x = S n -> qform (cov_clone i M) x = qform M (merge i x).
Proof.
  intros n M i x [Lm Fm] H L. unfold qform, cov_clone. set (wide := map (fun row => nth i row 0 :: row) M).
  set (Z := map (fun row => inner row (merge i x)) M).
  assert (W : map (fun row => inner row x) wide = Z).
  { unfold wide, Z. rewrite map_map. apply map_ext_in. intros row I. rewrite Forall_forall in Fm. pose proof (Fm row I) as Lr. apply inner_clone; [rewrite Lr; exact L|rewrite Lr; exact H]. }
  cbn [map]. rewrite W. replace (inner (nth i wide []) x) with (nth i Z 0).
  - destruct x as [|a x]; [discriminate L|]. injection L as L. cbn [inner merge]. rewrite add_at_inner; [ring| |lia]. unfold Z. rewrite map_length. congruence.
  - rewrite <- W. rewrite (nth_indep _ 0 (inner [] x)) by (unfold wide; rewrite !map_length; lia). rewrite (map_nth (fun row => inner row x)). reflexivity.
Qed.
Lemma cov_clone_square : forall n M i, square n M -> (i < n)%nat -> square (S n) (cov_clone i M).
Proof.
  intros n M i [L F] H. unfold cov_clone. assert (W : Forall (fun row => length row = S n) (map (fun row => nth i row 0 :: row) M)).
  { apply Forall_map. revert F. apply Forall_impl. intros row E. cbn. rewrite E. reflexivity. }
  split; [cbn; rewrite map_length; congruence|]. constructor; [|exact W]. rewrite Forall_forall in W. apply W. apply nth_In. rewrite map_length. lia.
Qed.
Lemma psd_clone : forall n M i, psd n M -> (i < n)%nat -> psd (S n) (cov_clone i M).
Proof.
  intros n M i [S P] H. split; [apply cov_clone_square; assumption|]. intros w L. rewrite (qform_clone n) by assumption. apply P. apply merge_length. exact L.
Qed.

(** ** Weights from 0 to 1 that sum to 1 *)
Lemma long_within : forall n x, within (zeros_to n) (ones_to n) x <-> length x = n /\ Forall (fun a => 0 <= a <= 1) x.
Proof.
  unfold within, zeros_to, ones_to. induction n as [|n IH]; intros x; cbn [repeat]; split.
  - intros [F _]. inversion F. split; [reflexivity|constructor].
  - intros [L _]. destruct x; [split; constructor|discriminate L].
  - intros [F G]. inversion F as [|? a ? q A1 F1]; subst. inversion G as [|? ? ? ? B1 G1]; subst. destruct (proj1 (IH q) (conj F1 G1)) as [L Q]. cbn in A1, B1. split; [cbn; congruence|]. constructor; [lra|exact Q].
  - intros [L F]. destruct x as [|a x]; [discriminate L|]. injection L as L. pose proof (Forall_inv F) as A. pose proof (Forall_inv_tail F) as Q. destruct (proj2 (IH x) (conj L Q)) as [F1 G1]. cbv beta in A. split; constructor; try assumption; cbn; lra.
Qed.
Lemma entries_le_total : forall x, Forall (fun a => 0 <= a) x -> Forall (fun a => a <= total x) x /\ 0 <= total x.
Proof.
  induction x as [|a x IH]; intros F; [split; [constructor|cbn; lra]|]. inversion F as [|? ? A Q]; subst. destruct (IH Q) as [I T]. cbn [total]. split; [|lra].
  constructor; [lra|]. revert I. apply Forall_impl. intros b Hb. lra.
Qed.
Lemma long_sum : forall x, total x = 1 -> (Forall (fun a => 0 <= a <= 1) x <-> Forall (fun a => 0 <= a) x).
Proof.
  intros x T. split; [apply Forall_impl; intros; lra|]. intros F. destruct (entries_le_total x F) as [G _]. rewrite T in G. rewrite Forall_forall in *. intros a I. split; [apply F|apply G]; exact I.
Qed.
Lemma merge_nonneg : forall i x, Forall (fun a => 0 <= a) x -> Forall (fun a => 0 <= a) (merge i x).
Proof.
  intros i [|a x] F; [constructor|]. inversion F as [|? ? A Q]; subst. cbn [merge]. clear F. revert i. induction Q as [|y x Y Q IH]; intros [|i]; cbn [add_at]; constructor; try assumption; try lra. apply IH.
Qed.
Lemma merge_within : forall n i x, (i < n)%nat -> total x = 1 -> within (zeros_to (S n)) (ones_to (S n)) x -> within (zeros_to n) (ones_to n) (merge i x).
Proof.
  intros n i x H T W. apply long_within in W as [L F]. apply long_within. split; [apply merge_length; exact L|]. apply long_sum; [rewrite (merge_total i x n); assumption|].
  apply merge_nonneg. apply long_sum; assumption.
Qed.
Lemma cons_within : forall n x, within (zeros_to n) (ones_to n) x -> within (zeros_to (S n)) (ones_to (S n)) (0 :: x).
Proof. intros n x W. apply long_within in W as [L F]. apply long_within. split; [cbn; congruence|]. constructor; [lra|exact F]. Qed.

Section Merged.
  Variables (n i : nat) (ok ok' : list R -> Prop) (cost cost' : list R -> R).
  Hypothesis H : (i < n)%nat.
  Hypothesis Hok : forall x, length x = S n -> total x = 1 -> (ok' x <-> ok (merge i x)).
  Hypothesis Hc : forall x, length x = S n -> total x = 1 -> cost' x = cost (merge i x).
  Lemma chosen_merge : forall x, chosen (S n) (zeros_to (S n)) (ones_to (S n)) 1 ok' cost' x ->
    chosen n (zeros_to n) (ones_to n) 1 ok cost (merge i x) /\ length x = S n /\ Forall (fun a => 0 <= a <= 1) x.
  Proof.
    intros x (L & W & T & O & M). split; [|split; [exact L|apply (long_within (S n)); exact W]].
    split; [apply merge_length; exact L|]. split; [apply merge_within; assumption|]. split; [rewrite (merge_total i x n); assumption|]. split; [apply Hok; assumption|].
    intros y Ly Wy Ty Oy. assert (L0 : length (0 :: y) = S n) by (cbn; congruence). assert (T0 : total (0 :: y) = 1) by (cbn; lra).
    specialize (M (0 :: y) L0 (cons_within _ _ Wy) T0). rewrite (Hc x L T), (Hc _ L0 T0), merge_zero in M. apply M. apply Hok; try assumption. rewrite merge_zero. exact Oy.
  Qed.
  Lemma chosen_both : (exists x, chosen n (zeros_to n) (ones_to n) 1 ok cost x) <-> (exists x, chosen (S n) (zeros_to (S n)) (ones_to (S n)) 1 ok' cost' x).
  Proof.
    split; [|intros [x C]; exists (merge i x); apply chosen_merge; exact C].
    intros [y (L & W & T & O & M)]. assert (L0 : length (0 :: y) = S n) by (cbn; congruence). assert (T0 : total (0 :: y) = 1) by (cbn; lra).
    exists (0 :: y). split; [exact L0|]. split; [apply cons_within; exact W|]. split; [exact T0|]. split; [apply Hok; try assumption; rewrite merge_zero; exact O|].
    intros x Lx Wx Tx Ox. rewrite (Hc x Lx Tx), (Hc _ L0 T0), merge_zero. apply M; [apply merge_length; exact Lx|apply merge_within; assumption|rewrite (merge_total i x n); assumption|apply Hok; assumption].
  Qed.
  Lemma answers_merge : forall ts d, length ts = S n -> answers ts (zeros_to (S n)) (ones_to (S n)) 1 ok' cost' d ->
    merged_answers ts i (chosen n (zeros_to n) (ones_to n) 1 ok cost) d.
  Proof.
    intros ts d Lt (x & r & C & F & D). rewrite Lt in C. destruct (chosen_merge x C) as (C1 & L & Q). exists x, r. rewrite Lt. auto.
  Qed.
End Merged.
Lemma ratio_merge : forall n i m M rf x, (i < n)%nat -> length m = n -> square n M ->
  best_ratio (S n) (zeros_to (S n)) (ones_to (S n)) (nth i m 0 :: m) (cov_clone i M) rf x ->
  best_ratio n (zeros_to n) (ones_to n) m M rf (merge i x) /\ length x = S n /\ Forall (fun a => 0 <= a <= 1) x.
Proof.
  intros n i m M rf x H Lm HM (L & W & T & E & B). assert (Ex : forall z, length z = S n -> excess (nth i m 0 :: m) rf z = excess m rf (merge i z)) by (intros z Lz; unfold excess; rewrite inner_clone by lia; reflexivity).
  split; [|split; [exact L|apply (long_within (S n)); exact W]]. rewrite Ex in E by exact L.
  split; [apply merge_length; exact L|]. split; [apply merge_within; assumption|]. split; [rewrite (merge_total i x n); assumption|]. split; [exact E|].
  intros y Ly Wy Ty. assert (L0 : length (0 :: y) = S n) by (cbn; congruence). assert (T0 : total (0 :: y) = 1) by (cbn; lra).
  specialize (B (0 :: y) L0 (cons_within _ _ Wy) T0). rewrite !Ex, !(qform_clone n) in B by assumption. rewrite merge_zero in B. exact B.
Qed.
Lemma ratio_both : forall n i m M rf, (i < n)%nat -> length m = n -> square n M ->
  ((exists x, best_ratio n (zeros_to n) (ones_to n) m M rf x) <-> (exists x, best_ratio (S n) (zeros_to (S n)) (ones_to (S n)) (nth i m 0 :: m) (cov_clone i M) rf x)).
Proof.
  intros n i m M rf H Lm HM. assert (Ex : forall z, length z = S n -> excess (nth i m 0 :: m) rf z = excess m rf (merge i z)) by (intros z Lz; unfold excess; rewrite inner_clone by lia; reflexivity).
  split; [|intros [x C]; exists (merge i x); apply ratio_merge; assumption].
  intros [y (L & W & T & E & B)]. assert (L0 : length (0 :: y) = S n) by (cbn; congruence). assert (T0 : total (0 :: y) = 1) by (cbn; lra).
  exists (0 :: y). split; [exact L0|]. split; [apply cons_within; exact W|]. split; [exact T0|]. rewrite Ex, merge_zero by exact L0. split; [exact E|].
  intros x Lx Wx Tx. rewrite !Ex, !(qform_clone n) by assumption. rewrite merge_zero. apply B; [apply merge_length; exact Lx|apply merge_within; assumption|rewrite (merge_total i x n); assumption].
Qed.

(** ** EfficientFrontier *)
Lemma long_force : forall o n lb ub, e_lb o = zeros_to n -> e_ub o = ones_to n -> bounds_in_force false o lb ub -> lb = zeros_to n /\ ub = ones_to n.
Proof. intros o n lb ub L U [(E & _)|(_ & -> & ->)]; [discriminate E|auto]. Qed.
Lemma long_force_ok : forall o n, e_lb o = zeros_to n -> e_ub o = ones_to n -> bounds_in_force false o (zeros_to n) (ones_to n).
Proof. intros o n L U. right. rewrite L, U. auto. Qed.
Lemma ex_force : forall o n m (ok : list R -> Prop) cost, e_lb o = zeros_to n -> e_ub o = ones_to n ->
  ((exists lb ub x, bounds_in_force false o lb ub /\ chosen m lb ub 1 ok cost x) <-> exists x, chosen m (zeros_to n) (ones_to n) 1 ok cost x).
Proof.
  intros o n m ok cost L U. split.
  - intros (lb & ub & x & B & C). destruct (long_force _ _ _ _ L U B) as [-> ->]. eauto.
  - intros [x C]. exists (zeros_to n), (ones_to n), x. split; [apply long_force_ok; assumption|exact C].
Qed.
Lemma long_read : forall n, read_bounds n longs = Ok (zeros_to n, ones_to n).
Proof. intros n. unfold read_bounds, longs. rewrite andb_false_r. reflexivity. Qed.
Lemma long_facts : forall s cols rows v w o, square (length s) rows -> ef_init (MIn (MuSeries s)) (CIn (CovFrame cols rows)) longs v = (w, Ok o) ->
  open_ef w o [] /\ e_n o = length s /\ e_add o = [] /\ b_tickers (e_base o) = map fst s /\ e_mu o = Some (map snd s) /\ e_cov o = rows /\
  e_lb o = zeros_to (length s) /\ e_ub o = ones_to (length s) /\ e_maxret o = None /\ (forall name, fresh_name w o name).
Proof.
  intros s cols rows v w o HM E1.
  destruct (ef_init_inv _ _ _ _ _ _ E1) as [m1 [lb [ub [Em [Hs [Hr [Ew Eo]]]]]]]. inversion Em; subst m1.
  assert (N1 : length (init_tickers (MuSeries s) (CovFrame cols rows)) = length s) by (cbn [init_tickers]; apply map_length).
  pose proof (PEF2.init_open _ _ longs v lb ub Hs) as O1. rewrite N1 in *. specialize (O1 HM Hr). rewrite <- Ew, <- Eo in O1. rewrite long_read in Hr. injection Hr as <- <-.
  split; [exact O1|]. rewrite Eo. unfold e_n. cbn [init_ef e_base b_tickers e_add e_mu e_cov e_lb e_ub e_maxret mu_values cov_values]. rewrite N1. cbn [init_tickers].
  do 8 (split; [reflexivity|]). intros name q Hq; cbn in Hq; contradiction.
Qed.
Theorem clone_accepted : forall t i s cols cols' rows v1 v2 w1 o1, (i < length s)%nat -> square (length s) rows ->
  ef_init (MIn (MuSeries s)) (CIn (CovFrame cols rows)) longs v1 = (w1, Ok o1) ->
  exists w2 o2, ef_init (MIn (MuSeries (mu_clone t i s))) (CIn (CovFrame cols' (cov_clone i rows))) longs v2 = (w2, Ok o2).
Proof.
  intros t i s cols cols' rows v1 v2 w1 o1 Hi HM E. eexists _, _. pose proof (cov_clone_square _ _ _ HM Hi) as HM'.
  apply ef_init_ok with (lb := zeros_to (S (length s))) (ub := ones_to (S (length s))).
  - unfold init_shape_ok. cbn [mu_values cov_values mu_clone map snd length]. rewrite map_length. split; [apply HM'|]. apply num_cols_square; [lia|exact HM'].
  - cbn [init_tickers mu_clone map fst length]. rewrite map_length. apply long_read.
Qed.

Section Clones.
  Variables (t : label) (i : nat) (s : list (label * R)) (cols cols' : list label) (rows : list (list R)) (v1 v2 w1 w2 : world) (o1 o2 : ef).
  Hypothesis T : ef_clones t i s cols cols' rows v1 v2 w1 w2 o1 o2.
  Let n := length s.
  Let m := map snd s.
  Let ts := map fst (mu_clone t i s).
  Let best := chosen n (zeros_to n) (ones_to n) 1.
  Ltac facts := pose proof T as (Hi & HM & I1 & I2); pose proof (cov_clone_square _ _ _ HM Hi) as HM2;
    destruct (long_facts _ _ _ _ _ _ HM I1) as (O1 & N1 & A1 & T1 & M1 & C1 & LB1 & UB1 & R1 & F1);
    destruct (long_facts (mu_clone t i s) _ _ _ _ _ HM2 I2) as (O2 & N2 & A2 & T2 & M2 & C2 & LB2 & UB2 & R2 & F2);
    change (length (mu_clone t i s)) with (S n) in N2, LB2, UB2; change (map snd (mu_clone t i s)) with (nth i m 0 :: m) in M2; fold n in Hi, HM, HM2, N1, LB1, UB1; fold m in M1; fold ts in T2;
    assert (Lm : length m = n) by (apply map_length); assert (Lts : length ts = S n) by (unfold ts; rewrite map_length; reflexivity);
    assert (Ret : forall x, length x = S n -> total x = 1 -> inner (nth i m 0 :: m) x = inner m (merge i x)) by (intros x Lx _; apply inner_clone; rewrite Lm; assumption);
    assert (Var : forall x, length x = S n -> total x = 1 -> qform (cov_clone i rows) x = qform rows (merge i x)) by (intros x Lx _; apply (qform_clone n); assumption).
  Lemma c_answers_from : forall w o ts lb ub (ok : list R -> Prop) cost d ws, NoDup ts -> open_ef w o [] -> e_add o = [] -> b_tickers (e_base o) = ts ->
    best_portfolio w o [] lb ub 1 ok cost ws d -> answers ts lb ub 1 ok cost d.
  Proof.
    intros w o tt lb ub ok cost d ws Hnd (_ & _ & _ & _ & Hsz & _) A E B. destruct (best_chosen _ _ _ _ _ _ _ _ _ Hsz A B) as [x [r [C [_ [F Ed]]]]]. unfold e_n in C. rewrite E in C.
    exists x, r. split; [exact C|]. split; [exact F|]. intros u. subst d. rewrite E.
    rewrite dict_of_pairs_NoDup; [reflexivity|]. rewrite fst_combine; [exact Hnd|]. rewrite <- (Forall2_length _ _ _ F). destruct C as [C _]. symmetry. exact C.
  Qed.
  Section Answers.
    Variables (sv : solver_t) (x2 : world) (y2 : ef) (d2 : dict R).
    Hypothesis (Hnd : NoDup ts) (X : exact_solver sv).
    Theorem clone_min_volatility : min_volatility sv w2 o2 = (x2, y2, Ok d2) -> merged_answers ts i (best (fun _ => True) (qform rows)) d2.
    Proof.
      intros E. facts. apply (min_volatility_best _ _ _ _ _ _ _ X O2) in E. rewrite C2, LB2, UB2 in E. apply c_answers_from with (ts := ts) in E; try assumption.
      revert E. apply answers_merge; try assumption. tauto.
    Qed.
    Theorem clone_utility : forall ra, max_quadratic_utility sv ra false w2 o2 = (x2, y2, Ok d2) ->
      merged_answers ts i (best (fun _ => True) (fun x => - (inner m x - ra / 2 * qform rows x))) d2.
    Proof.
      intros ra E. facts. apply (utility_best _ _ _ _ _ _ _ _ _ _ X O2 M2 (F2 _)) in E. destruct E as [_ [lb [ub [B E]]]]. rewrite C2 in E. destruct (long_force _ _ _ _ LB2 UB2 B) as [-> ->].
      apply c_answers_from with (ts := ts) in E; try assumption. revert E. apply answers_merge; try assumption; [tauto|]. intros x Lx Tx. cbv beta. rewrite Ret, Var by assumption. reflexivity.
    Qed.
    Theorem clone_return : forall tg, efficient_return sv (NFloat tg) false w2 o2 = (x2, y2, Ok d2) ->
      merged_answers ts i (best (fun x => tg <= inner m x) (qform rows)) d2.
    Proof.
      intros tg E. facts. apply (efficient_return_best _ _ _ _ _ _ _ _ _ _ X O2 M2 (F2 _)) in E. destruct E as [t1 [lb [ub [Et [B E]]]]]. injection Et as <-. rewrite C2 in E. destruct (long_force _ _ _ _ LB2 UB2 B) as [-> ->].
      apply c_answers_from with (ts := ts) in E; try assumption. revert E. apply answers_merge; try assumption. intros x Lx Tx. cbv beta. rewrite Ret by assumption. tauto.
    Qed.
    Theorem clone_risk : forall pinv tg, efficient_risk sv pinv (NFloat tg) false w2 o2 = (x2, y2, Ok d2) ->
      merged_answers ts i (best (fun x => qform rows x <= tg * tg) (fun x => - inner m x)) d2.
    Proof.
      intros pinv tg E. facts. apply (efficient_risk_best _ _ _ _ _ _ _ _ _ _ _ X O2 M2 (F2 _)) in E. destruct E as [t1 [lb [ub [Et [_ [B E]]]]]]. cbn [target_of] in Et. injection Et as <-. rewrite C2 in E. destruct (long_force _ _ _ _ LB2 UB2 B) as [-> ->].
      apply c_answers_from with (ts := ts) in E; try assumption. revert E. apply answers_merge; try assumption; intros x Lx Tx; cbv beta; rewrite ?Ret, ?Var by assumption; tauto.
    Qed.
    Theorem clone_sharpe : forall rf, psd n rows -> max_sharpe sv (NFloat rf) w2 o2 = (x2, y2, Ok d2) ->
      merged_answers ts i (best_ratio n (zeros_to n) (ones_to n) m rows rf) d2.
    Proof.
      intros rf HP E. facts. apply (fun P => sharpe_ratio _ _ _ _ _ _ _ _ X O2 A2 P M2) in E; [|rewrite N2, C2; apply psd_clone; assumption].
      destruct E as [r [z [rr [Er [B [G D]]]]]]. cbn [target_of] in Er. injection Er as <-. rewrite N2, C2, LB2, UB2 in B. destruct (ratio_merge n i m rows rf z Hi Lm HM B) as (B1 & L & Q).
      exists z, rr. split; [congruence|]. split; [exact Q|]. split; [exact B1|]. split; [exact G|]. intros u. subst d2. rewrite T2, dict_of_pairs_NoDup; [reflexivity|].
      rewrite fst_combine; [exact Hnd|]. rewrite <- (Forall2_length _ _ _ G). congruence.
    Qed.
  End Answers.
  Section Success.
    Variables (sv1 sv2 : solver_t).
    Hypothesis (X1 : exact_solver sv1) (X2 : exact_solver sv2) (K1 : complete_solver sv1) (K2 : complete_solver sv2).
    Theorem clone_both_min_volatility : succeeds (min_volatility sv1) w1 o1 <-> succeeds (min_volatility sv2) w2 o2.
    Proof. facts. rewrite min_volatility_iff, min_volatility_iff by assumption. rewrite N1, N2, C1, C2, LB1, UB1, LB2, UB2. apply (chosen_both n i); try assumption. tauto. Qed.
    Theorem clone_both_utility : forall ra, succeeds (max_quadratic_utility sv1 ra false) w1 o1 <-> succeeds (max_quadratic_utility sv2 ra false) w2 o2.
    Proof.
      intros ra. facts. destruct (Rle_dec ra 0) as [Hra|Hra].
      - split; intros [w' [o' [d E]]]; unfold max_quadratic_utility in E; rewrite (proj2 (Rleb_true ra 0) Hra) in E; discriminate E.
      - apply Rnot_le_lt in Hra.
        rewrite (utility_iff sv1 w1 o1 X1 K1 O1 A1 _ M1 false ra Hra (F1 _)), (utility_iff sv2 w2 o2 X2 K2 O2 A2 _ M2 false _ Hra (F2 _)).
        rewrite N1, N2, C1, C2, (ex_force o1 n), (ex_force o2 (S n)) by assumption. apply (chosen_both n i); try assumption; [tauto|]. intros x Lx Tx. cbv beta. rewrite Ret, Var by assumption. reflexivity.
    Qed.
    Theorem clone_both_return : forall tg, succeeds (efficient_return sv1 (NFloat tg) false) w1 o1 <-> succeeds (efficient_return sv2 (NFloat tg) false) w2 o2.
    Proof.
      intros tg. facts.
      rewrite (return_iff sv1 w1 o1 X1 K1 O1 A1 _ M1 false tg R1 (F1 _)), (return_iff sv2 w2 o2 X2 K2 O2 A2 _ M2 false tg R2 (F2 _)).
      rewrite N1, N2, C1, C2, LB1, UB1, LB2, UB2, (ex_force o1 n), (ex_force o2 (S n)) by assumption.
      assert (P : (exists x, chosen n (zeros_to n) (ones_to n) 1 (fun x => tg <= inner m x) (qform rows) x) <-> (exists x, chosen (S n) (zeros_to (S n)) (ones_to (S n)) 1 (fun x => tg <= inner (nth i m 0 :: m) x) (qform (cov_clone i rows)) x)).
      { apply (chosen_both n i); try assumption. intros x Lx Tx. cbv beta. rewrite Ret by assumption. tauto. }
      rewrite <- P.
      assert (Q : (exists x, chosen n (zeros_to n) (ones_to n) 1 (fun _ => True) (fun x => - inner m x) x) <-> (exists x, chosen (S n) (zeros_to (S n)) (ones_to (S n)) 1 (fun _ => True) (fun x => - inner (nth i m 0 :: m) x) x)).
      { apply (chosen_both n i); try assumption; [tauto|]. intros x Lx Tx. cbv beta. rewrite Ret by assumption. reflexivity. }
      split; intros [[y [Hy C]] [z Z]]; (split; [|exists z; exact Z]).
      - destruct (proj1 Q (ex_intro _ _ C)) as [x (L & W & Tx & _ & M)]. exists x. split; [|split; auto]. pose proof C as (Ly & Wy & Ty & _).
        assert (L0 : length (0 :: y) = S n) by (cbn; congruence). assert (T0 : total (0 :: y) = 1) by (cbn; lra).
        specialize (M (0 :: y) L0 (cons_within _ _ Wy) T0 I). cbv beta in M. rewrite (Ret (0 :: y) L0 T0), merge_zero in M. lra.
      - exists (merge i y). pose proof C as (L & _ & Ty & _). split; [rewrite <- Ret by assumption; exact Hy|].
        refine (proj1 (chosen_merge n i (fun _ => True) (fun _ => True) (fun x => - inner m x) (fun x => - inner (nth i m 0 :: m) x) Hi _ _ y C)); [tauto|]. intros x Lx Tx. cbv beta. rewrite Ret by assumption. reflexivity.
    Qed.
    Theorem clone_both_sharpe : forall rf, psd n rows -> (succeeds (max_sharpe sv1 (NFloat rf)) w1 o1 <-> succeeds (max_sharpe sv2 (NFloat rf)) w2 o2).
    Proof.
      intros rf HP. facts. assert (Z : forall k a, Forall (fun b : option R => b <> None) (repeat (Some a) k)) by (intros k a; apply Forall_forall; intros b Hb; apply repeat_spec in Hb; subst b; discriminate).
      rewrite (sharpe_iff sv1 w1 o1 X1 K1 O1 A1 _ M1 (NFloat rf) rf), (sharpe_iff sv2 w2 o2 X2 K2 O2 A2 _ M2 (NFloat rf) rf); try reflexivity;
        try (rewrite LB1; apply Z); try (rewrite UB1; apply Z); try (rewrite LB2; apply Z); try (rewrite UB2; apply Z); [|rewrite N2, C2; apply psd_clone; assumption|rewrite N1, C1; exact HP].
      rewrite N1, N2, C1, C2, LB1, UB1, LB2, UB2, (ratio_both n i m rows rf) by assumption.
      assert (Q : Exists (fun a => rf < a) m <-> Exists (fun a => rf < a) (nth i m 0 :: m)).
      { split; [apply Exists_cons_tl|]. intros E. inversion E as [? ? G|? ? G]; subst; [|exact G]. apply Exists_exists. exists (nth i m 0). split; [apply nth_In; rewrite Lm; exact Hi|exact G]. }
      rewrite Q. tauto.
    Qed.
  End Success.
End Clones.
