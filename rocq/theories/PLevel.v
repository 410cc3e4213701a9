(** * The same amount added to every return in the table: the downside optimizers (C140) *)
From Coq Require Import ZArith String List Bool Reals Lia Lra Permutation.
From Verif Require Import Num Py RBase PyLemmas SBL MBase MConvex MEF MDown SLin SBase SConvex SPerm SUnits SDown SDays SShift SLevel Sums Mat PBase PConvex PEF PEF2 PDown5 PPerm PPerm2 PRisk PDays PDays2 PDays3 PShift PTail.
Import ListNotations.
Local Open Scope R_scope.

Lemma complete_plus : forall c r, complete (map (option_map (fun v => v + c)) r) = option_map (map (fun v => v + c)) (complete r).
Proof.
  intros c. induction r as [|[a|] r IH]; [reflexivity| |reflexivity]. cbn [map option_map complete]. rewrite IH. destruct (complete r); reflexivity.
Qed.
Lemma dropna_plus : forall c rows, dropna (rows_plus c rows) = map (map (fun v => v + c)) (dropna rows).
Proof.
  intros c. induction rows as [|r rows IH]; [reflexivity|]. unfold dropna, rows_plus in *. cbn [map flat_map]. rewrite complete_plus, IH. destruct (complete r); reflexivity.
Qed.
Lemma good_plus : forall n c rows, good_rows n rows -> good_rows n (rows_plus c rows).
Proof.
  intros n c rows [F (r & l & I & E)]. split.
  - unfold rows_plus. apply Forall_map. revert F. apply Forall_impl. intros q Hq. rewrite map_length. exact Hq.
  - exists (map (option_map (fun v => v + c)) r), (map (fun v => v + c) l). split; [apply in_map; exact I|]. rewrite complete_plus, E. reflexivity.
Qed.
Lemma periods_plus : forall c rets x, Forall (fun l => length l = length x) rets ->
  period_returns (map (map (fun v => v + c)) rets) x = map (fun y => y + c * total x) (period_returns rets x).
Proof.
  intros c rets x F. unfold period_returns. rewrite !map_map. apply map_ext_in. intros r I. rewrite Forall_forall in F. apply inner_plus. apply F. exact I.
Qed.
Lemma shortfall_plus : forall k b y, shortfall (b + k) (y + k) = shortfall b y.
Proof. intros k b y. unfold shortfall. destruct (Rlt_dec (y + k) (b + k)), (Rlt_dec y b); lra. Qed.
Lemma semivariance_plus : forall c rets b x, Forall (fun l => length l = length x) rets ->
  semivariance (map (map (fun v => v + c)) rets) (b + c * total x) x = semivariance rets b x.
Proof.
  intros c rets b x F. unfold semivariance. rewrite periods_plus by exact F. rewrite map_map, map_length. do 2 f_equal. apply map_ext. intros y. rewrite shortfall_plus. reflexivity.
Qed.
Lemma over_plus : forall k a l, over (a + k) (map (fun v => v + k) l) = over a l.
Proof. intros k a l. unfold over. rewrite map_map. f_equal. apply map_ext. intros v. f_equal. ring. Qed.
Lemma worst_plus_le : forall beta k l, 0 <= beta < 1 -> (0 < length l)%nat -> worst_mean beta (map (fun v => v + k) l) <= worst_mean beta l + k.
Proof.
  intros beta k l Hb Hl. destruct (worst_reached beta l Hb Hl) as [a E]. rewrite E. apply Rle_trans with (1 := worst_le beta (map (fun v => v + k) l) (a + k) Hb ltac:(rewrite map_length; exact Hl)).
  rewrite over_plus, map_length. lra.
Qed.
Lemma worst_plus : forall beta k l, 0 <= beta < 1 -> (0 < length l)%nat -> worst_mean beta (map (fun v => v + k) l) = worst_mean beta l + k.
Proof.
  intros beta k l Hb Hl. apply Rle_antisym; [apply worst_plus_le; assumption|].
  pose proof (worst_plus_le beta (- k) (map (fun v => v + k) l) Hb ltac:(rewrite map_length; exact Hl)) as H. rewrite map_map in H.
  rewrite (map_ext _ (fun v => v)), map_id in H by (intros v; ring). lra.
Qed.
Lemma cvar_plus : forall beta c rets x, 0 <= beta < 1 -> (0 < length rets)%nat -> Forall (fun l => length l = length x) rets ->
  cvar beta (map (map (fun v => v + c)) rets) x = cvar beta rets x - c * total x.
Proof.
  intros beta c rets x Hb Hl F. unfold cvar. rewrite periods_plus by exact F.
  replace (map Ropp (map (fun y => y + c * total x) (period_returns rets x))) with (map (fun v => v + - (c * total x)) (map Ropp (period_returns rets x))) by (rewrite !map_map; apply map_ext; intros y; ring).
  rewrite worst_plus; [ring|exact Hb|]. unfold period_returns. rewrite !map_length. exact Hl.
Qed.
Lemma cdar_plus : forall beta c rets x, Forall (fun l => length l = length x) rets -> total x = 0 -> cdar beta (map (map (fun v => v + c)) rets) x = cdar beta rets x.
Proof.
  intros beta c rets x F T. unfold cdar. rewrite periods_plus by exact F. rewrite T, Rmult_0_r. rewrite (map_ext _ (fun v => v)), map_id by (intros v; ring). reflexivity.
Qed.
Lemma mu_plus_len : forall e s, length (mu_plus e s) = length s.
Proof. intros e s. unfold mu_plus. apply map_length. Qed.
Lemma return_plus : forall e (s : list (label * R)) x, length x = length s -> inner (map snd (mu_plus e s)) x = inner (map snd s) x + e * total x.
Proof. intros e s x L. rewrite mu_plus_snd. apply inner_plus. rewrite map_length. symmetry. exact L. Qed.
Lemma level_init : forall e s b v1 v2 w1 o1, ef_init (MIn (MuSeries s)) (CIn (CovArray (zeros (length s)))) b v1 = (w1, Ok o1) ->
  exists w2 o2, ef_init (MIn (MuSeries (mu_plus e s))) (CIn (CovArray (zeros (length s)))) b v2 = (w2, Ok o2) /\ e_mu o2 = Some (map snd (mu_plus e s)).
Proof.
  intros e s b v1 v2 w1 o1 E. destruct (ef_init_inv _ _ _ _ _ _ E) as [m [lb [ub [Em [Hs [Hr _]]]]]]. inversion Em; subst m.
  cbn [init_tickers] in Hr. rewrite map_length in Hr. eexists _, _. split; [apply ef_init_ok with (lb := lb) (ub := ub)|].
  - unfold init_shape_ok in *. cbn [mu_values cov_values] in *. rewrite mu_plus_snd, !map_length in *. exact Hs.
  - cbn [init_tickers]. rewrite mu_plus_fst, map_length. exact Hr.
  - reflexivity.
Qed.
Lemma answers_level : forall (s : list (label * R)) lb ub sum (ok1 ok2 : list R -> Prop) e (cost1 cost2 : list R -> R) d,
  (forall x, length x = length s -> total x = sum -> (ok1 x <-> ok2 x)) -> (forall x, length x = length s -> total x = sum -> cost2 x = cost1 x + e) ->
  answers (map fst s) lb ub sum ok2 cost2 d -> answers (map fst s) lb ub sum ok1 cost1 d.
Proof.
  intros s lb ub sum ok1 ok2 e cost1 cost2 d Hok E (x & r & C & F). exists x, r. split; [|exact F].
  rewrite map_length in *. apply (chosen_shift (length s) lb ub sum ok1 ok2 e cost1 cost2); assumption.
Qed.
Lemma force_level : forall (mn : bool) (s : list (label * R)) o1 o2 (ok1 ok2 : list R -> Prop) e (cost1 cost2 : list R -> R), let sum := if mn then 0 else 1 in
  e_n o2 = e_n o1 -> e_lb o2 = e_lb o1 -> e_ub o2 = e_ub o1 ->
  (forall x, length x = length s -> total x = sum -> (ok1 x <-> ok2 x)) -> (forall x, length x = length s -> total x = sum -> cost2 x = cost1 x + e) ->
  ((exists lb ub x, bounds_in_force mn o1 lb ub /\ chosen (length s) lb ub sum ok1 cost1 x) <->
   (exists lb ub x, bounds_in_force mn o2 lb ub /\ chosen (length s) lb ub sum ok2 cost2 x)).
Proof.
  intros mn s o1 o2 ok1 ok2 e cost1 cost2 sum N L U Hok E.
  split; intros (lb & ub & x & B & C); exists lb, ub, x; (split; [apply (same_force mn o1 o2 lb ub N L U); exact B|apply (chosen_shift (length s) lb ub sum ok1 ok2 e cost1 cost2); assumption]).
Qed.
Lemma sum_prop : forall (mn : bool) x, total x = (if mn then 0 else 1) -> forall a, a * total x = a * sum_of mn.
Proof. intros mn x T a. rewrite T. reflexivity. Qed.
Lemma iff_and : forall P Q A B : Prop, (P <-> Q) -> (A <-> B) -> (P /\ A <-> Q /\ B).
Proof. tauto. Qed.

Theorem semi_level_accepted : forall c e s rows freq bench b v1 v2 w1 o1 d1, semi_init (MIn (MuSeries s)) (RTable (length s) rows) freq bench b v1 = (w1, Ok (o1, d1)) ->
  exists w2 o2 d2, semi_init (MIn (MuSeries (mu_plus e s))) (RTable (length s) (rows_plus c rows)) freq (bench + c) b v2 = (w2, Ok (o2, d2)).
Proof.
  intros c e s rows freq bench b v1 v2 w1 o1 d1 E. unfold semi_init in *. cbn [mu_values] in *. try rewrite map_length in *. rewrite ?mu_plus_len.
  destruct (ef_init (MIn (MuSeries s)) _ b v1) as [x1 [q1|]] eqn:I1; [|discriminate E].
  destruct (level_init e s b v1 v2 x1 q1 I1) as (x2 & q2 & I2 & M2). rewrite I2. unfold validate_returns in *. rewrite M2, map_length, mu_plus_len, Nat.eqb_refl. cbn [negb]. eauto.
Qed.
Section Level_semi.
  Variables (c e : R) (s : list (label * R)) (rows : list (list (option R))) (freq bench : R) (b : bounds_arg) (v1 v2 w1 w2 : world) (o1 o2 : ef) (d1 d2 : semi).
  Hypothesis T : semi_level c e s rows freq bench b v1 v2 w1 w2 o1 o2 d1 d2.
  Lemma E2i_semi : semi_init (MIn (MuSeries (mu_plus e s))) (RTable (length (mu_plus e s)) (rows_plus c rows)) freq (bench + c) b v2 = (w2, Ok (o2, d2)).
  Proof. rewrite mu_plus_len. apply T. Qed.
  Lemma Hg2_semi : good_rows (length (mu_plus e s)) (rows_plus c rows).
  Proof. rewrite mu_plus_len. apply good_plus. apply T. Qed.
  Lemma lens_semi : forall x : list R, length x = length s -> Forall (fun l => length l = length x) (dropna rows).
  Proof. intros x L. rewrite L. apply dropna_lengths. destruct T as [[F _] _]. exact F. Qed.
  Lemma obj_semi : e_n o2 = e_n o1 /\ e_lb o2 = e_lb o1 /\ e_ub o2 = e_ub o1.
  Proof.
    pose proof T as (Hg & E1 & _). destruct (semi_run_facts _ _ _ _ _ _ _ _ _ Hg E1) as (_ & _ & _ & _ & B1 & N1). destruct (semi_run_facts _ _ _ _ _ _ _ _ _ Hg2_semi E2i_semi) as (_ & _ & _ & _ & B2 & N2).
    rewrite mu_plus_len in B2, N2. rewrite B1 in B2. injection B2 as L U. split; [congruence|]. split; congruence.
  Qed.
  Lemma ret_semi : forall (mn : bool) x, length x = length s -> total x = (if mn then 0 else 1) -> inner (map snd (mu_plus e s)) x = inner (map snd s) x + e * sum_of mn.
  Proof. intros mn x L S. rewrite (return_plus e s x L). rewrite (sum_prop mn x S). reflexivity. Qed.
  Lemma risk_semi : forall (mn : bool) x, length x = length s -> total x = (if mn then 0 else 1) ->
    semivariance (dropna (rows_plus c rows)) ((bench + c) * (if mn then 0 else 1)) x = semivariance (dropna rows) (bench * (if mn then 0 else 1)) x.
  Proof.
    intros mn x L S. rewrite dropna_plus. replace ((bench + c) * (if mn then 0 else 1)) with (bench * (if mn then 0 else 1) + c * total x) by (rewrite S; ring).
    apply semivariance_plus. apply lens_semi. exact L.
  Qed.
  Variables (sv1 sv2 : solver_t) (mn : bool).
  Hypothesis (X1 : exact_solver sv1) (X2 : exact_solver sv2).
  Theorem semi_min_level : forall x1 x2 y1 y2 r1 r2, NoDup (map fst s) -> min_semivariance sv1 d1 mn w1 o1 = (x1, y1, Ok r1) -> min_semivariance sv2 d2 mn w2 o2 = (x2, y2, Ok r2) ->
  exists lb ub, bounds_in_force mn o1 lb ub /\ answers (map fst s) lb ub (if mn then 0 else 1) (fun _ => True) (semivariance (dropna rows) (bench * (if mn then 0 else 1))) r1 /\
    answers (map fst s) lb ub (if mn then 0 else 1) (fun _ => True) (semivariance (dropna rows) (bench * (if mn then 0 else 1))) r2.
  Proof.
    intros x1 x2 y1 y2 r1 r2 Hnd C1 C2. pose proof T as (Hg & E1 & _). destruct obj_semi as (N & L & U).
    assert (Hnd2 : NoDup (map fst (mu_plus e s))) by (rewrite mu_plus_fst; exact Hnd).
    destruct (semi_min_run _ _ _ _ _ _ _ _ _ Hg E1 sv1 mn X1 _ _ _ Hnd C1) as (lb & ub & B & A1). destruct (semi_min_run _ _ _ _ _ _ _ _ _ Hg2_semi E2i_semi sv2 mn X2 _ _ _ Hnd2 C2) as (lb2 & ub2 & B2 & A2).
    apply (same_force _ _ _ _ _ N L U) in B2. destruct (in_force_unique _ _ _ _ _ _ B2 B) as [-> ->]. rewrite mu_plus_fst in A2. exists lb, ub. split; [exact B|]. split; [exact A1|].
    refine (answers_level s lb ub _ _ _ (0) _ _ _ _ _ A2); intros z Lz Sz; repeat match goal with L : length ?x = length s, S : total ?x = _ |- _ => progress (rewrite ?(risk_semi mn x L S), ?(ret_semi mn x L S)) end; (split; intros ?; try exact I; lra) || (try unfold Rdiv; cbn [sum_of]; ring) || lra.
  Qed.
  Theorem semi_min_level_both : complete_solver sv1 -> complete_solver sv2 -> (succeeds (min_semivariance sv1 d1 mn) w1 o1 <-> succeeds (min_semivariance sv2 d2 mn) w2 o2).
  Proof.
    intros K1 K2 . pose proof T as (Hg & E1 & _). destruct obj_semi as (N & L & U).
    rewrite (semi_min_iff _ _ _ _ _ _ _ _ _ Hg E1 sv1 mn X1 K1 ), (semi_min_iff _ _ _ _ _ _ _ _ _ Hg2_semi E2i_semi sv2 mn X2 K2 ). rewrite mu_plus_len.
    first [apply iff_and; [tauto || lra|] | idtac]. apply (force_level mn s o1 o2 _ _ (0) _ _ N L U); intros z Lz Sz; repeat match goal with L : length ?x = length s, S : total ?x = _ |- _ => progress (rewrite ?(risk_semi mn x L S), ?(ret_semi mn x L S)) end; (split; intros ?; try exact I; lra) || (try unfold Rdiv; cbn [sum_of]; ring) || lra.
  Qed.
  Theorem semi_risk_level : 0 <= freq -> forall t, forall x1 x2 y1 y2 r1 r2, NoDup (map fst s) -> semi_efficient_risk sv1 d1 t mn w1 o1 = (x1, y1, Ok r1) -> semi_efficient_risk sv2 d2 t mn w2 o2 = (x2, y2, Ok r2) ->
  exists lb ub, bounds_in_force mn o1 lb ub /\ answers (map fst s) lb ub (if mn then 0 else 1) (fun x => freq * semivariance (dropna rows) (bench * (if mn then 0 else 1)) x <= t * t) (fun x => - inner (map snd s) x) r1 /\
    answers (map fst s) lb ub (if mn then 0 else 1) (fun x => freq * semivariance (dropna rows) (bench * (if mn then 0 else 1)) x <= t * t) (fun x => - inner (map snd s) x) r2.
  Proof.
    intros Hf t x1 x2 y1 y2 r1 r2 Hnd C1 C2. pose proof T as (Hg & E1 & _). destruct obj_semi as (N & L & U).
    assert (Hnd2 : NoDup (map fst (mu_plus e s))) by (rewrite mu_plus_fst; exact Hnd).
    destruct (semi_risk_run _ _ _ _ _ _ _ _ _ Hg E1 sv1 mn X1 t _ _ _ Hf Hnd C1) as (lb & ub & B & A1). destruct (semi_risk_run _ _ _ _ _ _ _ _ _ Hg2_semi E2i_semi sv2 mn X2 (t) _ _ _ Hf Hnd2 C2) as (lb2 & ub2 & B2 & A2).
    apply (same_force _ _ _ _ _ N L U) in B2. destruct (in_force_unique _ _ _ _ _ _ B2 B) as [-> ->]. rewrite mu_plus_fst in A2. exists lb, ub. split; [exact B|]. split; [exact A1|].
    refine (answers_level s lb ub _ _ _ (- (e * sum_of mn)) _ _ _ _ _ A2); intros z Lz Sz; repeat match goal with L : length ?x = length s, S : total ?x = _ |- _ => progress (rewrite ?(risk_semi mn x L S), ?(ret_semi mn x L S)) end; (split; intros ?; try exact I; lra) || (try unfold Rdiv; cbn [sum_of]; ring) || lra.
  Qed.
  Theorem semi_risk_level_both : complete_solver sv1 -> complete_solver sv2 -> 0 <= freq -> forall t, (succeeds (semi_efficient_risk sv1 d1 t mn) w1 o1 <-> succeeds (semi_efficient_risk sv2 d2 t mn) w2 o2).
  Proof.
    intros K1 K2 Hf t . pose proof T as (Hg & E1 & _). destruct obj_semi as (N & L & U).
    rewrite (semi_risk_iff _ _ _ _ _ _ _ _ _ Hg E1 sv1 mn X1 K1 Hf t ), (semi_risk_iff _ _ _ _ _ _ _ _ _ Hg2_semi E2i_semi sv2 mn X2 K2 Hf (t) ). rewrite mu_plus_len.
    first [apply iff_and; [tauto || lra|] | idtac]. apply (force_level mn s o1 o2 _ _ (- (e * sum_of mn)) _ _ N L U); intros z Lz Sz; repeat match goal with L : length ?x = length s, S : total ?x = _ |- _ => progress (rewrite ?(risk_semi mn x L S), ?(ret_semi mn x L S)) end; (split; intros ?; try exact I; lra) || (try unfold Rdiv; cbn [sum_of]; ring) || lra.
  Qed.
  Theorem semi_return_level : forall t, forall x1 x2 y1 y2 r1 r2, NoDup (map fst s) -> semi_efficient_return sv1 d1 (NFloat t) mn w1 o1 = (x1, y1, Ok r1) -> semi_efficient_return sv2 d2 (NFloat (t + e * sum_of mn)) mn w2 o2 = (x2, y2, Ok r2) ->
  exists lb ub, bounds_in_force mn o1 lb ub /\ answers (map fst s) lb ub (if mn then 0 else 1) (fun x => t <= inner (map snd s) x) (semivariance (dropna rows) (bench * (if mn then 0 else 1))) r1 /\
    answers (map fst s) lb ub (if mn then 0 else 1) (fun x => t <= inner (map snd s) x) (semivariance (dropna rows) (bench * (if mn then 0 else 1))) r2.
  Proof.
    intros t x1 x2 y1 y2 r1 r2 Hnd C1 C2. pose proof T as (Hg & E1 & _). destruct obj_semi as (N & L & U).
    assert (Hnd2 : NoDup (map fst (mu_plus e s))) by (rewrite mu_plus_fst; exact Hnd).
    destruct (semi_return_run _ _ _ _ _ _ _ _ _ Hg E1 sv1 mn X1 t _ _ _ Hnd C1) as (lb & ub & B & A1). destruct (semi_return_run _ _ _ _ _ _ _ _ _ Hg2_semi E2i_semi sv2 mn X2 (t + e * sum_of mn) _ _ _ Hnd2 C2) as (lb2 & ub2 & B2 & A2).
    apply (same_force _ _ _ _ _ N L U) in B2. destruct (in_force_unique _ _ _ _ _ _ B2 B) as [-> ->]. rewrite mu_plus_fst in A2. exists lb, ub. split; [exact B|]. split; [exact A1|].
    refine (answers_level s lb ub _ _ _ (0) _ _ _ _ _ A2); intros z Lz Sz; repeat match goal with L : length ?x = length s, S : total ?x = _ |- _ => progress (rewrite ?(risk_semi mn x L S), ?(ret_semi mn x L S)) end; (split; intros ?; try exact I; lra) || (try unfold Rdiv; cbn [sum_of]; ring) || lra.
  Qed.
  Theorem semi_utility_level : forall k, forall x1 x2 y1 y2 r1 r2, NoDup (map fst s) -> semi_max_quadratic_utility sv1 d1 k mn w1 o1 = (x1, y1, Ok r1) -> semi_max_quadratic_utility sv2 d2 k mn w2 o2 = (x2, y2, Ok r2) ->
  exists lb ub, bounds_in_force mn o1 lb ub /\ answers (map fst s) lb ub (if mn then 0 else 1) (fun _ => True) (fun x => - inner (map snd s) x / freq + 1 / 2 * k * semivariance (dropna rows) (bench * (if mn then 0 else 1)) x) r1 /\
    answers (map fst s) lb ub (if mn then 0 else 1) (fun _ => True) (fun x => - inner (map snd s) x / freq + 1 / 2 * k * semivariance (dropna rows) (bench * (if mn then 0 else 1)) x) r2.
  Proof.
    intros k x1 x2 y1 y2 r1 r2 Hnd C1 C2. pose proof T as (Hg & E1 & _). destruct obj_semi as (N & L & U).
    assert (Hnd2 : NoDup (map fst (mu_plus e s))) by (rewrite mu_plus_fst; exact Hnd).
    destruct (semi_utility_run _ _ _ _ _ _ _ _ _ Hg E1 sv1 mn X1 k _ _ _ Hnd C1) as (lb & ub & B & A1). destruct (semi_utility_run _ _ _ _ _ _ _ _ _ Hg2_semi E2i_semi sv2 mn X2 (k) _ _ _ Hnd2 C2) as (lb2 & ub2 & B2 & A2).
    apply (same_force _ _ _ _ _ N L U) in B2. destruct (in_force_unique _ _ _ _ _ _ B2 B) as [-> ->]. rewrite mu_plus_fst in A2. exists lb, ub. split; [exact B|]. split; [exact A1|].
    refine (answers_level s lb ub _ _ _ (- (e * sum_of mn) / freq) _ _ _ _ _ A2); intros z Lz Sz; repeat match goal with L : length ?x = length s, S : total ?x = _ |- _ => progress (rewrite ?(risk_semi mn x L S), ?(ret_semi mn x L S)) end; (split; intros ?; try exact I; lra) || (try unfold Rdiv; cbn [sum_of]; ring) || lra.
  Qed.
  Theorem semi_utility_level_both : complete_solver sv1 -> complete_solver sv2 -> forall k, (succeeds (semi_max_quadratic_utility sv1 d1 k mn) w1 o1 <-> succeeds (semi_max_quadratic_utility sv2 d2 k mn) w2 o2).
  Proof.
    intros K1 K2 k . pose proof T as (Hg & E1 & _). destruct obj_semi as (N & L & U).
    rewrite (semi_utility_iff _ _ _ _ _ _ _ _ _ Hg E1 sv1 mn X1 K1 k ), (semi_utility_iff _ _ _ _ _ _ _ _ _ Hg2_semi E2i_semi sv2 mn X2 K2 (k) ). rewrite mu_plus_len.
    first [apply iff_and; [tauto || lra|] | idtac]. apply (force_level mn s o1 o2 _ _ (- (e * sum_of mn) / freq) _ _ N L U); intros z Lz Sz; repeat match goal with L : length ?x = length s, S : total ?x = _ |- _ => progress (rewrite ?(risk_semi mn x L S), ?(ret_semi mn x L S)) end; (split; intros ?; try exact I; lra) || (try unfold Rdiv; cbn [sum_of]; ring) || lra.
  Qed.
End Level_semi.

Theorem cvar_level_accepted : forall c e s rows beta b v1 v2 w1 o1 d1, cvar_init (MIn (MuSeries s)) (RTable (length s) rows) beta b v1 = (w1, Ok (o1, d1)) ->
  exists w2 o2 d2, cvar_init (MIn (MuSeries (mu_plus e s))) (RTable (length s) (rows_plus c rows)) beta b v2 = (w2, Ok (o2, d2)).
Proof.
  intros c e s rows beta b v1 v2 w1 o1 d1 E. unfold cvar_init in *. cbn [mu_values] in *. try rewrite map_length in *. rewrite ?mu_plus_len.
  destruct (ef_init (MIn (MuSeries s)) _ b v1) as [x1 [q1|]] eqn:I1; [|discriminate E].
  destruct (level_init e s b v1 v2 x1 q1 I1) as (x2 & q2 & I2 & M2). rewrite I2. unfold validate_returns in *. rewrite M2, map_length, mu_plus_len, Nat.eqb_refl. cbn [negb].
  match type of E with context [if ?q then Err ValueError else Ok _] => destruct q; [discriminate E|] end. destruct (validate_beta beta); [|discriminate E]. eauto.
Qed.
Section Level_cvar.
  Variables (c e : R) (s : list (label * R)) (rows : list (list (option R))) (beta : R) (b : bounds_arg) (v1 v2 w1 w2 : world) (o1 o2 : ef) (d1 d2 : cvar_data).
  Hypothesis T : cvar_level_pair c e s rows beta b v1 v2 w1 w2 o1 o2 d1 d2.
  Lemma E2i_cvar : cvar_init (MIn (MuSeries (mu_plus e s))) (RTable (length (mu_plus e s)) (rows_plus c rows)) beta b v2 = (w2, Ok (o2, d2)).
  Proof. rewrite mu_plus_len. apply T. Qed.
  Lemma Hg2_cvar : good_rows (length (mu_plus e s)) (rows_plus c rows).
  Proof. rewrite mu_plus_len. apply good_plus. apply T. Qed.
  Lemma lens_cvar : forall x : list R, length x = length s -> Forall (fun l => length l = length x) (dropna rows).
  Proof. intros x L. rewrite L. apply dropna_lengths. destruct T as [[F _] _]. exact F. Qed.
  Lemma obj_cvar : e_n o2 = e_n o1 /\ e_lb o2 = e_lb o1 /\ e_ub o2 = e_ub o1.
  Proof.
    pose proof T as (Hg & E1 & _). destruct (cvar_run_facts _ _ _ _ _ _ _ _ Hg E1) as (_ & _ & _ & _ & B1 & N1). destruct (cvar_run_facts _ _ _ _ _ _ _ _ Hg2_cvar E2i_cvar) as (_ & _ & _ & _ & B2 & N2).
    rewrite mu_plus_len in B2, N2. rewrite B1 in B2. injection B2 as L U. split; [congruence|]. split; congruence.
  Qed.
  Lemma ret_cvar : forall (mn : bool) x, length x = length s -> total x = (if mn then 0 else 1) -> inner (map snd (mu_plus e s)) x = inner (map snd s) x + e * sum_of mn.
  Proof. intros mn x L S. rewrite (return_plus e s x L). rewrite (sum_prop mn x S). reflexivity. Qed.
  Lemma risk_c : forall (mn : bool) x, length x = length s -> total x = (if mn then 0 else 1) -> cvar beta (dropna (rows_plus c rows)) x = cvar beta (dropna rows) x - c * sum_of mn.
  Proof.
    intros mn x L S. pose proof T as (Hg & E1 & _). destruct (cvar_run_facts _ _ _ _ _ _ _ _ Hg E1) as (_ & ((T1 & _) & B & _) & (D1 & D2) & _). rewrite D1 in T1. rewrite D2 in B.
    rewrite dropna_plus, cvar_plus; [rewrite (sum_prop mn x S); reflexivity|exact B|exact T1|apply lens_cvar; exact L].
  Qed.
  Variables (sv1 sv2 : solver_t) (mn : bool).
  Hypothesis (X1 : exact_solver sv1) (X2 : exact_solver sv2).
  Theorem cvar_min_level : forall x1 x2 y1 y2 r1 r2, NoDup (map fst s) -> min_cvar sv1 d1 mn w1 o1 = (x1, y1, Ok r1) -> min_cvar sv2 d2 mn w2 o2 = (x2, y2, Ok r2) ->
  exists lb ub, bounds_in_force mn o1 lb ub /\ answers (map fst s) lb ub (if mn then 0 else 1) (fun _ => True) (cvar beta (dropna rows)) r1 /\
    answers (map fst s) lb ub (if mn then 0 else 1) (fun _ => True) (cvar beta (dropna rows)) r2.
  Proof.
    intros x1 x2 y1 y2 r1 r2 Hnd C1 C2. pose proof T as (Hg & E1 & _). destruct obj_cvar as (N & L & U).
    assert (Hnd2 : NoDup (map fst (mu_plus e s))) by (rewrite mu_plus_fst; exact Hnd).
    destruct (cvar_min_run _ _ _ _ _ _ _ _ Hg E1 sv1 mn X1 _ _ _ Hnd C1) as (lb & ub & B & A1). destruct (cvar_min_run _ _ _ _ _ _ _ _ Hg2_cvar E2i_cvar sv2 mn X2 _ _ _ Hnd2 C2) as (lb2 & ub2 & B2 & A2).
    apply (same_force _ _ _ _ _ N L U) in B2. destruct (in_force_unique _ _ _ _ _ _ B2 B) as [-> ->]. rewrite mu_plus_fst in A2. exists lb, ub. split; [exact B|]. split; [exact A1|].
    refine (answers_level s lb ub _ _ _ (- (c * sum_of mn)) _ _ _ _ _ A2); intros z Lz Sz; repeat match goal with L : length ?x = length s, S : total ?x = _ |- _ => progress (rewrite ?(risk_c mn x L S), ?(ret_cvar mn x L S)) end; (split; intros ?; try exact I; lra) || (try unfold Rdiv; cbn [sum_of]; ring) || lra.
  Qed.
  Theorem cvar_min_level_both : complete_solver sv1 -> complete_solver sv2 -> (succeeds (min_cvar sv1 d1 mn) w1 o1 <-> succeeds (min_cvar sv2 d2 mn) w2 o2).
  Proof.
    intros K1 K2 . pose proof T as (Hg & E1 & _). destruct obj_cvar as (N & L & U).
    rewrite (cvar_min_iff _ _ _ _ _ _ _ _ Hg E1 sv1 mn X1 K1 ), (cvar_min_iff _ _ _ _ _ _ _ _ Hg2_cvar E2i_cvar sv2 mn X2 K2 ). rewrite mu_plus_len.
    first [apply iff_and; [tauto || lra|] | idtac]. apply (force_level mn s o1 o2 _ _ (- (c * sum_of mn)) _ _ N L U); intros z Lz Sz; repeat match goal with L : length ?x = length s, S : total ?x = _ |- _ => progress (rewrite ?(risk_c mn x L S), ?(ret_cvar mn x L S)) end; (split; intros ?; try exact I; lra) || (try unfold Rdiv; cbn [sum_of]; ring) || lra.
  Qed.
  Theorem cvar_risk_level : forall t, forall x1 x2 y1 y2 r1 r2, NoDup (map fst s) -> cvar_efficient_risk sv1 d1 t mn w1 o1 = (x1, y1, Ok r1) -> cvar_efficient_risk sv2 d2 (t - c * sum_of mn) mn w2 o2 = (x2, y2, Ok r2) ->
  exists lb ub, bounds_in_force mn o1 lb ub /\ answers (map fst s) lb ub (if mn then 0 else 1) (fun x => cvar beta (dropna rows) x <= t) (fun x => - inner (map snd s) x) r1 /\
    answers (map fst s) lb ub (if mn then 0 else 1) (fun x => cvar beta (dropna rows) x <= t) (fun x => - inner (map snd s) x) r2.
  Proof.
    intros t x1 x2 y1 y2 r1 r2 Hnd C1 C2. pose proof T as (Hg & E1 & _). destruct obj_cvar as (N & L & U).
    assert (Hnd2 : NoDup (map fst (mu_plus e s))) by (rewrite mu_plus_fst; exact Hnd).
    destruct (cvar_risk_run _ _ _ _ _ _ _ _ Hg E1 sv1 mn X1 t _ _ _ Hnd C1) as (lb & ub & B & A1). destruct (cvar_risk_run _ _ _ _ _ _ _ _ Hg2_cvar E2i_cvar sv2 mn X2 (t - c * sum_of mn) _ _ _ Hnd2 C2) as (lb2 & ub2 & B2 & A2).
    apply (same_force _ _ _ _ _ N L U) in B2. destruct (in_force_unique _ _ _ _ _ _ B2 B) as [-> ->]. rewrite mu_plus_fst in A2. exists lb, ub. split; [exact B|]. split; [exact A1|].
    refine (answers_level s lb ub _ _ _ (- (e * sum_of mn)) _ _ _ _ _ A2); intros z Lz Sz; repeat match goal with L : length ?x = length s, S : total ?x = _ |- _ => progress (rewrite ?(risk_c mn x L S), ?(ret_cvar mn x L S)) end; (split; intros ?; try exact I; lra) || (try unfold Rdiv; cbn [sum_of]; ring) || lra.
  Qed.
  Theorem cvar_risk_level_both : complete_solver sv1 -> complete_solver sv2 -> forall t, 0 <= t -> 0 <= t - c * sum_of mn -> (succeeds (cvar_efficient_risk sv1 d1 t mn) w1 o1 <-> succeeds (cvar_efficient_risk sv2 d2 (t - c * sum_of mn) mn) w2 o2).
  Proof.
    intros K1 K2 t P1 P2. pose proof T as (Hg & E1 & _). destruct obj_cvar as (N & L & U).
    rewrite (cvar_risk_iff _ _ _ _ _ _ _ _ Hg E1 sv1 mn X1 K1 t ), (cvar_risk_iff _ _ _ _ _ _ _ _ Hg2_cvar E2i_cvar sv2 mn X2 K2 (t - c * sum_of mn) ). rewrite mu_plus_len.
    first [apply iff_and; [tauto || lra|] | idtac]. apply (force_level mn s o1 o2 _ _ (- (e * sum_of mn)) _ _ N L U); intros z Lz Sz; repeat match goal with L : length ?x = length s, S : total ?x = _ |- _ => progress (rewrite ?(risk_c mn x L S), ?(ret_cvar mn x L S)) end; (split; intros ?; try exact I; lra) || (try unfold Rdiv; cbn [sum_of]; ring) || lra.
  Qed.
  Theorem cvar_return_level : forall t, forall x1 x2 y1 y2 r1 r2, NoDup (map fst s) -> cvar_efficient_return sv1 d1 t mn w1 o1 = (x1, y1, Ok r1) -> cvar_efficient_return sv2 d2 (t + e * sum_of mn) mn w2 o2 = (x2, y2, Ok r2) ->
  exists lb ub, bounds_in_force mn o1 lb ub /\ answers (map fst s) lb ub (if mn then 0 else 1) (fun x => t <= inner (map snd s) x) (cvar beta (dropna rows)) r1 /\
    answers (map fst s) lb ub (if mn then 0 else 1) (fun x => t <= inner (map snd s) x) (cvar beta (dropna rows)) r2.
  Proof.
    intros t x1 x2 y1 y2 r1 r2 Hnd C1 C2. pose proof T as (Hg & E1 & _). destruct obj_cvar as (N & L & U).
    assert (Hnd2 : NoDup (map fst (mu_plus e s))) by (rewrite mu_plus_fst; exact Hnd).
    destruct (cvar_return_run _ _ _ _ _ _ _ _ Hg E1 sv1 mn X1 t _ _ _ Hnd C1) as (lb & ub & B & A1). destruct (cvar_return_run _ _ _ _ _ _ _ _ Hg2_cvar E2i_cvar sv2 mn X2 (t + e * sum_of mn) _ _ _ Hnd2 C2) as (lb2 & ub2 & B2 & A2).
    apply (same_force _ _ _ _ _ N L U) in B2. destruct (in_force_unique _ _ _ _ _ _ B2 B) as [-> ->]. rewrite mu_plus_fst in A2. exists lb, ub. split; [exact B|]. split; [exact A1|].
    refine (answers_level s lb ub _ _ _ (- (c * sum_of mn)) _ _ _ _ _ A2); intros z Lz Sz; repeat match goal with L : length ?x = length s, S : total ?x = _ |- _ => progress (rewrite ?(risk_c mn x L S), ?(ret_cvar mn x L S)) end; (split; intros ?; try exact I; lra) || (try unfold Rdiv; cbn [sum_of]; ring) || lra.
  Qed.
  Theorem cvar_return_level_both : complete_solver sv1 -> complete_solver sv2 -> forall t, (succeeds (cvar_efficient_return sv1 d1 t mn) w1 o1 <-> succeeds (cvar_efficient_return sv2 d2 (t + e * sum_of mn) mn) w2 o2).
  Proof.
    intros K1 K2 t . pose proof T as (Hg & E1 & _). destruct obj_cvar as (N & L & U).
    rewrite (cvar_return_iff _ _ _ _ _ _ _ _ Hg E1 sv1 mn X1 K1 t ), (cvar_return_iff _ _ _ _ _ _ _ _ Hg2_cvar E2i_cvar sv2 mn X2 K2 (t + e * sum_of mn) ). rewrite mu_plus_len.
    first [apply iff_and; [tauto || lra|] | idtac]. apply (force_level mn s o1 o2 _ _ (- (c * sum_of mn)) _ _ N L U); intros z Lz Sz; repeat match goal with L : length ?x = length s, S : total ?x = _ |- _ => progress (rewrite ?(risk_c mn x L S), ?(ret_cvar mn x L S)) end; (split; intros ?; try exact I; lra) || (try unfold Rdiv; cbn [sum_of]; ring) || lra.
  Qed.
End Level_cvar.

Theorem cdar_level_accepted : forall c e s rows beta b v1 v2 w1 o1 d1, cdar_init (MIn (MuSeries s)) (RTable (length s) rows) beta b v1 = (w1, Ok (o1, d1)) ->
  exists w2 o2 d2, cdar_init (MIn (MuSeries (mu_plus e s))) (RTable (length s) (rows_plus c rows)) beta b v2 = (w2, Ok (o2, d2)).
Proof.
  intros c e s rows beta b v1 v2 w1 o1 d1 E. unfold cdar_init in *. cbn [mu_values] in *. try rewrite map_length in *. rewrite ?mu_plus_len.
  destruct (ef_init (MIn (MuSeries s)) _ b v1) as [x1 [q1|]] eqn:I1; [|discriminate E].
  destruct (level_init e s b v1 v2 x1 q1 I1) as (x2 & q2 & I2 & M2). rewrite I2. unfold validate_returns in *. rewrite M2, map_length, mu_plus_len, Nat.eqb_refl. cbn [negb].
  match type of E with context [if ?q then Err ValueError else Ok _] => destruct q; [discriminate E|] end. destruct (validate_beta beta); [|discriminate E]. eauto.
Qed.
Section Level_cdar.
  Variables (c e : R) (s : list (label * R)) (rows : list (list (option R))) (beta : R) (b : bounds_arg) (v1 v2 w1 w2 : world) (o1 o2 : ef) (d1 d2 : cdar_data).
  Hypothesis T : cdar_level_pair c e s rows beta b v1 v2 w1 w2 o1 o2 d1 d2.
  Lemma E2i_cdar : cdar_init (MIn (MuSeries (mu_plus e s))) (RTable (length (mu_plus e s)) (rows_plus c rows)) beta b v2 = (w2, Ok (o2, d2)).
  Proof. rewrite mu_plus_len. apply T. Qed.
  Lemma Hg2_cdar : good_rows (length (mu_plus e s)) (rows_plus c rows).
  Proof. rewrite mu_plus_len. apply good_plus. apply T. Qed.
  Lemma lens_cdar : forall x : list R, length x = length s -> Forall (fun l => length l = length x) (dropna rows).
  Proof. intros x L. rewrite L. apply dropna_lengths. destruct T as [[F _] _]. exact F. Qed.
  Lemma obj_cdar : e_n o2 = e_n o1 /\ e_lb o2 = e_lb o1 /\ e_ub o2 = e_ub o1.
  Proof.
    pose proof T as (Hg & E1 & _). destruct (cdar_run_facts _ _ _ _ _ _ _ _ Hg E1) as (_ & _ & _ & _ & B1 & N1). destruct (cdar_run_facts _ _ _ _ _ _ _ _ Hg2_cdar E2i_cdar) as (_ & _ & _ & _ & B2 & N2).
    rewrite mu_plus_len in B2, N2. rewrite B1 in B2. injection B2 as L U. split; [congruence|]. split; congruence.
  Qed.
  Lemma ret_cdar : forall (mn : bool) x, length x = length s -> total x = (if mn then 0 else 1) -> inner (map snd (mu_plus e s)) x = inner (map snd s) x + e * sum_of mn.
  Proof. intros mn x L S. rewrite (return_plus e s x L). rewrite (sum_prop mn x S). reflexivity. Qed.
  Lemma risk_d : forall x, length x = length s -> total x = 0 -> cdar beta (dropna (rows_plus c rows)) x = cdar beta (dropna rows) x.
  Proof. intros x L S. rewrite dropna_plus. apply cdar_plus; [apply lens_cdar; exact L|exact S]. Qed.
  Variables (sv1 sv2 : solver_t).
  Hypothesis (X1 : exact_solver sv1) (X2 : exact_solver sv2).
  Theorem cdar_min_level : forall x1 x2 y1 y2 r1 r2, NoDup (map fst s) -> min_cdar sv1 d1 true w1 o1 = (x1, y1, Ok r1) -> min_cdar sv2 d2 true w2 o2 = (x2, y2, Ok r2) ->
  exists lb ub, bounds_in_force true o1 lb ub /\ answers (map fst s) lb ub 0 (fun _ => True) (cdar beta (dropna rows)) r1 /\
    answers (map fst s) lb ub 0 (fun _ => True) (cdar beta (dropna rows)) r2.
  Proof.
    intros x1 x2 y1 y2 r1 r2 Hnd C1 C2. pose proof T as (Hg & E1 & _). destruct obj_cdar as (N & L & U).
    assert (Hnd2 : NoDup (map fst (mu_plus e s))) by (rewrite mu_plus_fst; exact Hnd).
    destruct (cdar_min_run _ _ _ _ _ _ _ _ Hg E1 sv1 true X1 _ _ _ Hnd C1) as (lb & ub & B & A1). destruct (cdar_min_run _ _ _ _ _ _ _ _ Hg2_cdar E2i_cdar sv2 true X2 _ _ _ Hnd2 C2) as (lb2 & ub2 & B2 & A2).
    apply (same_force _ _ _ _ _ N L U) in B2. destruct (in_force_unique _ _ _ _ _ _ B2 B) as [-> ->]. rewrite mu_plus_fst in A2. exists lb, ub. split; [exact B|]. split; [exact A1|].
    refine (answers_level s lb ub _ _ _ (0) _ _ _ _ _ A2); intros z Lz Sz; repeat match goal with L : length ?x = length s, S : total ?x = _ |- _ => progress (rewrite ?(risk_d x L S), ?(ret_cdar true x L S), ?Rmult_0_r) end; (split; intros ?; try exact I; lra) || (try unfold Rdiv; cbn [sum_of]; ring) || lra.
  Qed.
  Theorem cdar_min_level_both : complete_solver sv1 -> complete_solver sv2 -> (succeeds (min_cdar sv1 d1 true) w1 o1 <-> succeeds (min_cdar sv2 d2 true) w2 o2).
  Proof.
    intros K1 K2 . pose proof T as (Hg & E1 & _). destruct obj_cdar as (N & L & U).
    rewrite (cdar_min_iff _ _ _ _ _ _ _ _ Hg E1 sv1 true X1 K1 ), (cdar_min_iff _ _ _ _ _ _ _ _ Hg2_cdar E2i_cdar sv2 true X2 K2 ). rewrite mu_plus_len.
    first [apply iff_and; [tauto || lra|] | idtac]. apply (force_level true s o1 o2 _ _ (0) _ _ N L U); intros z Lz Sz; repeat match goal with L : length ?x = length s, S : total ?x = _ |- _ => progress (rewrite ?(risk_d x L S), ?(ret_cdar true x L S), ?Rmult_0_r) end; (split; intros ?; try exact I; lra) || (try unfold Rdiv; cbn [sum_of]; ring) || lra.
  Qed.
  Theorem cdar_risk_level : forall t, forall x1 x2 y1 y2 r1 r2, NoDup (map fst s) -> cdar_efficient_risk sv1 d1 t true w1 o1 = (x1, y1, Ok r1) -> cdar_efficient_risk sv2 d2 t true w2 o2 = (x2, y2, Ok r2) ->
  exists lb ub, bounds_in_force true o1 lb ub /\ answers (map fst s) lb ub 0 (fun x => cdar beta (dropna rows) x <= t) (fun x => - inner (map snd s) x) r1 /\
    answers (map fst s) lb ub 0 (fun x => cdar beta (dropna rows) x <= t) (fun x => - inner (map snd s) x) r2.
  Proof.
    intros t x1 x2 y1 y2 r1 r2 Hnd C1 C2. pose proof T as (Hg & E1 & _). destruct obj_cdar as (N & L & U).
    assert (Hnd2 : NoDup (map fst (mu_plus e s))) by (rewrite mu_plus_fst; exact Hnd).
    destruct (cdar_risk_run _ _ _ _ _ _ _ _ Hg E1 sv1 true X1 t _ _ _ Hnd C1) as (lb & ub & B & A1). destruct (cdar_risk_run _ _ _ _ _ _ _ _ Hg2_cdar E2i_cdar sv2 true X2 (t) _ _ _ Hnd2 C2) as (lb2 & ub2 & B2 & A2).
    apply (same_force _ _ _ _ _ N L U) in B2. destruct (in_force_unique _ _ _ _ _ _ B2 B) as [-> ->]. rewrite mu_plus_fst in A2. exists lb, ub. split; [exact B|]. split; [exact A1|].
    refine (answers_level s lb ub _ _ _ (0) _ _ _ _ _ A2); intros z Lz Sz; repeat match goal with L : length ?x = length s, S : total ?x = _ |- _ => progress (rewrite ?(risk_d x L S), ?(ret_cdar true x L S), ?Rmult_0_r) end; (split; intros ?; try exact I; lra) || (try unfold Rdiv; cbn [sum_of]; ring) || lra.
  Qed.
  Theorem cdar_risk_level_both : complete_solver sv1 -> complete_solver sv2 -> forall t, (succeeds (cdar_efficient_risk sv1 d1 t true) w1 o1 <-> succeeds (cdar_efficient_risk sv2 d2 t true) w2 o2).
  Proof.
    intros K1 K2 t . pose proof T as (Hg & E1 & _). destruct obj_cdar as (N & L & U).
    rewrite (cdar_risk_iff _ _ _ _ _ _ _ _ Hg E1 sv1 true X1 K1 t ), (cdar_risk_iff _ _ _ _ _ _ _ _ Hg2_cdar E2i_cdar sv2 true X2 K2 (t) ). rewrite mu_plus_len.
    first [apply iff_and; [tauto || lra|] | idtac]. apply (force_level true s o1 o2 _ _ (0) _ _ N L U); intros z Lz Sz; repeat match goal with L : length ?x = length s, S : total ?x = _ |- _ => progress (rewrite ?(risk_d x L S), ?(ret_cdar true x L S), ?Rmult_0_r) end; (split; intros ?; try exact I; lra) || (try unfold Rdiv; cbn [sum_of]; ring) || lra.
  Qed.
  Theorem cdar_return_level : forall t, forall x1 x2 y1 y2 r1 r2, NoDup (map fst s) -> cdar_efficient_return sv1 d1 t true w1 o1 = (x1, y1, Ok r1) -> cdar_efficient_return sv2 d2 t true w2 o2 = (x2, y2, Ok r2) ->
  exists lb ub, bounds_in_force true o1 lb ub /\ answers (map fst s) lb ub 0 (fun x => t <= inner (map snd s) x) (cdar beta (dropna rows)) r1 /\
    answers (map fst s) lb ub 0 (fun x => t <= inner (map snd s) x) (cdar beta (dropna rows)) r2.
  Proof.
    intros t x1 x2 y1 y2 r1 r2 Hnd C1 C2. pose proof T as (Hg & E1 & _). destruct obj_cdar as (N & L & U).
    assert (Hnd2 : NoDup (map fst (mu_plus e s))) by (rewrite mu_plus_fst; exact Hnd).
    destruct (cdar_return_run _ _ _ _ _ _ _ _ Hg E1 sv1 true X1 t _ _ _ Hnd C1) as (lb & ub & B & A1). destruct (cdar_return_run _ _ _ _ _ _ _ _ Hg2_cdar E2i_cdar sv2 true X2 (t) _ _ _ Hnd2 C2) as (lb2 & ub2 & B2 & A2).
    apply (same_force _ _ _ _ _ N L U) in B2. destruct (in_force_unique _ _ _ _ _ _ B2 B) as [-> ->]. rewrite mu_plus_fst in A2. exists lb, ub. split; [exact B|]. split; [exact A1|].
    refine (answers_level s lb ub _ _ _ (0) _ _ _ _ _ A2); intros z Lz Sz; repeat match goal with L : length ?x = length s, S : total ?x = _ |- _ => progress (rewrite ?(risk_d x L S), ?(ret_cdar true x L S), ?Rmult_0_r) end; (split; intros ?; try exact I; lra) || (try unfold Rdiv; cbn [sum_of]; ring) || lra.
  Qed.
  Theorem cdar_return_level_both : complete_solver sv1 -> complete_solver sv2 -> forall t, (succeeds (cdar_efficient_return sv1 d1 t true) w1 o1 <-> succeeds (cdar_efficient_return sv2 d2 t true) w2 o2).
  Proof.
    intros K1 K2 t . pose proof T as (Hg & E1 & _). destruct obj_cdar as (N & L & U).
    rewrite (cdar_return_iff _ _ _ _ _ _ _ _ Hg E1 sv1 true X1 K1 t ), (cdar_return_iff _ _ _ _ _ _ _ _ Hg2_cdar E2i_cdar sv2 true X2 K2 (t) ). rewrite mu_plus_len.
    first [apply iff_and; [tauto || lra|] | idtac]. apply (force_level true s o1 o2 _ _ (0) _ _ N L U); intros z Lz Sz; repeat match goal with L : length ?x = length s, S : total ?x = _ |- _ => progress (rewrite ?(risk_d x L S), ?(ret_cdar true x L S), ?Rmult_0_r) end; (split; intros ?; try exact I; lra) || (try unfold Rdiv; cbn [sum_of]; ring) || lra.
  Qed.
End Level_cdar.
