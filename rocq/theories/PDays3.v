(** * The restated data are accepted; the order of the days matters for drawdowns (C130) *)
From Coq Require Import ZArith String List Bool Reals Lia Lra Permutation.
From Verif Require Import Num Py RBase PyLemmas SBL MBase MConvex MEF MDown SLin SBase SConvex SPerm SUnits SDown SDays SExist Sums Mat PBase PConvex PEF PEF2 PEF3 PEF4 PEF6 PDown PDown2 PDown3 PDown4 PDown5 PObj PPerm PPerm2 PPerm3 PPerm4 PUnits PRisk PExist4 PExist5 PDownW PDays PDays2.
Import ListNotations.
Local Open Scope R_scope.

Lemma restated_init : forall p c s b b' u1 v1 u2 o1, ordering (length s) p -> bounds_reordered (length s) p b b' ->
  ef_init (MIn (MuSeries s)) (CIn (CovArray (zeros (length s)))) b u1 = (v1, Ok o1) ->
  exists v2 o2, ef_init (MIn (MuSeries (mu_restated p c s))) (CIn (CovArray (zeros (length s)))) b' u2 = (v2, Ok o2) /\ e_mu o2 = Some (map snd (mu_restated p c s)).
Proof.
  intros p c s b b' u1 v1 u2 o1 H Hb E. pose proof (mu_restated_length p c s H) as L. destruct (zeros_square (length s)) as [Z _].
  destruct (ef_init_inv _ _ _ _ _ _ E) as [m1 [lb [ub [Em [Hs [Hr _]]]]]]. inversion Em; subst m1. cbn [init_tickers] in Hr. rewrite map_length in Hr.
  eexists _, _. split; [apply ef_init_ok with (lb := pick None p lb) (ub := pick None p ub)|reflexivity].
  - unfold init_shape_ok in *. cbn [mu_values cov_values] in *. rewrite map_length in Hs. rewrite map_length, L. exact Hs.
  - cbn [init_tickers]. rewrite map_length, L. apply (read_bounds_pick _ p b); assumption.
Qed.
Theorem semi_accepted : forall p a c s rows rows' freq bench b b' v1 v2 w1 o1 d1, ordering (length s) p -> bounds_reordered (length s) p b b' ->
  semi_init (MIn (MuSeries s)) (RTable (length s) rows) freq bench b v1 = (w1, Ok (o1, d1)) ->
  exists w2 o2 d2, semi_init (MIn (MuSeries (mu_restated p c s))) (RTable (length s) rows') freq (a * bench) b' v2 = (w2, Ok (o2, d2)).
Proof.
  intros p a c s rows rows' freq bench b b' v1 v2 w1 o1 d1 H Hb E. unfold semi_init in *. destruct (ef_init (MIn (MuSeries s)) _ b v1) as [x1 [q1|]] eqn:I1; [|discriminate E].
  destruct (restated_init p c s b b' v1 x1 v2 q1 H Hb I1) as (x2 & q2 & I2 & M2). rewrite I2. unfold validate_returns. rewrite M2, map_length, mu_restated_length, Nat.eqb_refl by exact H.
  cbn [negb]. eauto.
Qed.
Theorem cvar_accepted : forall p c s rows rows' beta b b' v1 v2 w1 o1 d1, ordering (length s) p -> bounds_reordered (length s) p b b' ->
  cvar_init (MIn (MuSeries s)) (RTable (length s) rows) beta b v1 = (w1, Ok (o1, d1)) ->
  exists w2 o2 d2, cvar_init (MIn (MuSeries (mu_restated p c s))) (RTable (length s) rows') beta b' v2 = (w2, Ok (o2, d2)).
Proof.
  intros p c s rows rows' beta b b' v1 v2 w1 o1 d1 H Hb E. unfold cvar_init in *. destruct (ef_init (MIn (MuSeries s)) _ b v1) as [x1 [q1|]] eqn:I1; [|discriminate E].
  destruct (restated_init p c s b b' v1 x1 v2 q1 H Hb I1) as (x2 & q2 & I2 & M2). rewrite I2. unfold validate_returns in *. rewrite M2, map_length, mu_restated_length, Nat.eqb_refl by exact H.
  cbn [negb]. match type of E with context [if ?q then Err ValueError else Ok _] => destruct q; [discriminate E|] end. destruct (validate_beta beta); [|discriminate E]. eauto.
Qed.
Theorem cdar_accepted : forall p c s rows rows' beta b b' v1 v2 w1 o1 d1, ordering (length s) p -> bounds_reordered (length s) p b b' ->
  cdar_init (MIn (MuSeries s)) (RTable (length s) rows) beta b v1 = (w1, Ok (o1, d1)) ->
  exists w2 o2 d2, cdar_init (MIn (MuSeries (mu_restated p c s))) (RTable (length s) rows') beta b' v2 = (w2, Ok (o2, d2)).
Proof.
  intros p c s rows rows' beta b b' v1 v2 w1 o1 d1 H Hb E. unfold cdar_init in *. cbn [mu_values] in *. rewrite map_length in *. rewrite (mu_restated_length p c s H).
  destruct (ef_init (MIn (MuSeries s)) _ b v1) as [x1 [q1|]] eqn:I1; [|discriminate E].
  destruct (restated_init p c s b b' v1 x1 v2 q1 H Hb I1) as (x2 & q2 & I2 & M2). rewrite I2. unfold validate_returns in *. rewrite M2, map_length, mu_restated_length, Nat.eqb_refl by exact H.
  cbn [negb]. match type of E with context [if ?q then Err ValueError else Ok _] => destruct q; [discriminate E|] end. destruct (validate_beta beta); [|discriminate E]. eauto.
Qed.

(** ** Drawdowns depend on the order of the days *)
Lemma first_all : forall l, first (INR (length l)) l = total l.
Proof.
  induction l as [|x l IH]; [reflexivity|]. cbn [first total]. change (length (x :: l)) with (S (length l)). rewrite S_INR. destruct (Rle_dec (INR (length l) + 1) 1) as [E|E].
  - destruct l as [|y l]; [cbn; ring|]. exfalso. change (length (y :: l)) with (S (length l)) in E. rewrite S_INR in E. pose proof (pos_INR (length l)). lra.
  - replace (INR (length l) + 1 - 1) with (INR (length l)) by ring. rewrite IH. reflexivity.
Qed.
Lemma worst_all : forall l, worst_mean 0 l = total l / INR (length l).
Proof. intros l. unfold worst_mean. rewrite Rminus_0_r, Rmult_1_l, <- (sort_length l), first_all, (PPerm.total_perm _ _ (Permutation_sym (sort_perm l))). reflexivity. Qed.

Definition tA := LStr "A".
Definition tB := LStr "B".
Definition dd_mu : list (label * R) := [(tA, 1/10); (tB, 1/10)].
Definition day1 : list (option R) := [Some (-1); Some (-1/2)].
Definition day2 : list (option R) := [Some 1; Some 0].
Definition day3 : list (option R) := [Some 0; Some 0].
Lemma dd_cdar : forall x y, 0 <= x -> 0 <= y -> x + y = 1 ->
  cdar 0 (dropna [day1; day2; day3]) [x; y] = (3 - x) / 6 /\ cdar 0 (dropna [day1; day3; day2]) [x; y] = (3 + x) / 6.
Proof.
  intros x y Hx Hy Hs. replace y with (1 - x) in * by lra. unfold cdar. rewrite !worst_all. unfold day1, day2, day3. cbn [dropna flat_map complete app period_returns map inner drawdowns_from].
  assert (E1 : Rmax 0 (0 + (-1 * x + (-1/2 * (1 - x) + 0))) = 0) by (apply Rmax_left; lra). rewrite !E1.
  assert (E2 : Rmax 0 (0 + (-1 * x + (-1/2 * (1 - x) + 0)) + (1 * x + (0 * (1 - x) + 0))) = 0) by (apply Rmax_left; lra). rewrite !E2.
  assert (E3 : Rmax 0 (0 + (-1 * x + (-1/2 * (1 - x) + 0)) + (0 * x + (0 * (1 - x) + 0))) = 0) by (apply Rmax_left; lra). rewrite !E3.
  assert (E4 : Rmax 0 (0 + (-1 * x + (-1/2 * (1 - x) + 0)) + (1 * x + (0 * (1 - x) + 0)) + (0 * x + (0 * (1 - x) + 0))) = 0) by (apply Rmax_left; lra). rewrite !E4.
  assert (E5 : Rmax 0 (0 + (-1 * x + (-1/2 * (1 - x) + 0)) + (0 * x + (0 * (1 - x) + 0)) + (1 * x + (0 * (1 - x) + 0))) = 0) by (apply Rmax_left; lra). rewrite !E5.
  cbn [length INR total]. split; field.
Qed.
Definition dd_init (rows : list (list (option R))) := cdar_init (MIn (MuSeries dd_mu)) (RTable 2 rows) 0 (BPair (Some 0) (Some 1)) (mkWorld [] (fun _ => None) [] 0).
Lemma dd_good : forall r1 r2, In r1 [day2; day3] -> In r2 [day2; day3] -> good_rows 2 [day1; r1; r2].
Proof.
  intros r1 r2 H1 H2. split.
  - constructor; [reflexivity|]. constructor; [destruct H1 as [<-|[<-|[]]]; reflexivity|]. constructor; [destruct H2 as [<-|[<-|[]]]; reflexivity|constructor].
  - exists day1, [-1; -1/2]. split; [left; reflexivity|reflexivity].
Qed.
Lemma dd_runs : forall rows, good_rows 2 rows -> exists w o d, dd_init rows = (w, Ok (o, d)) /\ e_lb o = [Some 0; Some 0] /\ e_ub o = [Some 1; Some 1] /\ b_tickers (e_base o) = [tA; tB].
Proof.
  intros rows Hg. unfold dd_init, cdar_init. cbn [mu_values dd_mu map snd length].
  assert (E : ef_init (MIn (MuSeries dd_mu)) (CIn (CovArray (zeros 2))) (BPair (Some 0) (Some 1)) (mkWorld [] (fun _ => None) [] 0) =
    (init_world (mkWorld [] (fun _ => None) [] 0) 2, Ok (init_ef (MuSeries dd_mu) (CovArray (zeros 2)) [Some 0; Some 0] [Some 1; Some 1] (mkWorld [] (fun _ => None) [] 0)))).
  { apply (ef_init_ok (MuSeries dd_mu) (CovArray (zeros 2)) (BPair (Some 0) (Some 1)) _ [Some 0; Some 0] [Some 1; Some 1]); [split; reflexivity|]. cbn. reflexivity. }
  change [(tA, 1 / 10); (tB, 1 / 10)] with dd_mu. rewrite E. cbn [validate_returns init_ef e_mu mu_values dd_mu map snd length Nat.eqb negb].
  assert (V : validate_beta 0 = Ok 0) by (unfold validate_beta; rewrite (proj2 (Rleb_true 0 0)), (proj2 (Rltb_true 0 1)) by lra; reflexivity). rewrite V.
  do 3 eexists. split; [reflexivity|]. auto.
Qed.
Lemma dd_answer : forall sv rows c, exact_solver sv -> complete_solver sv -> good_rows 2 rows ->
  (forall x y, 0 <= x -> 0 <= y -> x + y = 1 -> cdar 0 (dropna rows) [x; y] = (3 + IZR c * x) / 6) -> (c = 1 \/ c = -1)%Z ->
  exists w o d w' o' r, dd_init rows = (w, Ok (o, d)) /\ min_cdar sv d false w o = (w', o', Ok r) /\ dget tA r = Some (if Z.eqb c 1 then 0 else 1).
Proof.
  intros sv rows c Hex Hco Hg Hc Hcc. destruct (dd_runs rows Hg) as (w & o & d & Ei & El & Eu & Et). pose proof Ei as Ei'. unfold dd_init in Ei'.
  assert (Nn : e_n o = 2%nat) by (unfold e_n; rewrite Et; reflexivity).
  assert (Hb : bounds_in_force false o [Some 0; Some 0] [Some 1; Some 1]) by (right; rewrite El, Eu; auto).
  assert (Bl : bounded (e_lb o)) by (rewrite El; repeat constructor; discriminate). assert (Bu : bounded (e_ub o)) by (rewrite Eu; repeat constructor; discriminate).
  destruct (proj2 (exist_min_cdar _ _ _ _ _ _ _ _ _ Hg Ei' Bl Bu sv Hex Hco false _ _ Hb)) as (w' & o' & r & E).
  { exists [1; 0]. rewrite Nn. split; [reflexivity|]. split; [|cbn; lra]. repeat constructor; cbn; lra. }
  exists w, o, d, w', o', r. split; [exact Ei|]. split; [exact E|].
  destruct (cdar_init_ready _ _ _ _ _ _ _ _ _ Hg Ei') as (Ho & Hr & Er & Eb). destruct (cdar_new _ _ _ _ _ _ _ _ _ Ei') as [Ha _].
  destruct (min_cdar_best _ _ _ _ Ho Hr sv false _ _ _ Hex E) as (lb & ub & s0 & B & P & _). destruct (in_force_unique _ _ _ _ _ _ B Hb) as [-> ->]. rewrite Er, Eb in P.
  pose proof Ho as (_ & _ & _ & _ & Hsz & _). destruct (best_chosen _ _ _ _ _ _ _ _ _ Hsz Ha (ex_intro _ _ P)) as [x [q [(L & W & S & _ & M) [_ [F Ed]]]]]. rewrite Nn in L, M.
  destruct x as [|x [|y [|]]]; try discriminate L. cbn [total] in S.
  assert (Wx : 0 <= x /\ 0 <= y).
  { destruct W as [W _]. inversion W as [|? ? ? ? W1 W2]; subst. inversion W2 as [|? ? ? ? W3 W4]; subst. cbn in W1, W3. lra. }
  set (z := if Z.eqb c 1 then 0 else 1). assert (Ez : z = 0 \/ z = 1) by (unfold z; destruct (Z.eqb c 1); auto).
  assert (X : x = z).
  { specialize (M [z; 1 - z] eq_refl). rewrite !Hc in M by (destruct Ez as [-> | ->]; lra). assert (Le : (3 + IZR c * x) / 6 <= (3 + IZR c * z) / 6).
    { apply M; [|cbn; lra|exact I]. split; (constructor; [unfold above, below; lra|constructor; [unfold above, below; lra|constructor]]). }
    unfold z in *. destruct Hcc as [-> | ->]; cbn [Z.eqb Pos.eqb] in *; lra. }
  destruct q as [|q1 [|q2 [|]]]; try (inversion F as [|? ? ? ? F1 F2]; inversion F2 as [|? ? ? ? F3 F4]; inversion F4; fail).
  inversion F as [|? ? ? ? F1 F2]; subst. rewrite Et. change (Some q1 = Some z). f_equal. clear - Ez F1. destruct Ez as [Ez|Ez]; rewrite Ez in *; apply (rounded_int _ _ F1).
Qed.
Theorem order_of_days_matters : forall sv, exact_solver sv -> complete_solver sv ->
  exists s rows rows' w1 o1 d1 x1 y1 r1 w2 o2 d2 x2 y2 r2, Permutation rows rows' /\
    cdar_init (MIn (MuSeries s)) (RTable 2 rows) 0 (BPair (Some 0) (Some 1)) (mkWorld [] (fun _ => None) [] 0) = (w1, Ok (o1, d1)) /\
    cdar_init (MIn (MuSeries s)) (RTable 2 rows') 0 (BPair (Some 0) (Some 1)) (mkWorld [] (fun _ => None) [] 0) = (w2, Ok (o2, d2)) /\
    min_cdar sv d1 false w1 o1 = (x1, y1, Ok r1) /\ min_cdar sv d2 false w2 o2 = (x2, y2, Ok r2) /\
    dget tA r1 = Some 1 /\ dget tA r2 = Some 0.
Proof.
  intros sv Hex Hco.
  destruct (dd_answer sv [day1; day2; day3] (-1) Hex Hco (dd_good _ _ (or_introl eq_refl) (or_intror (or_introl eq_refl)))) as (w1 & o1 & d1 & x1 & y1 & r1 & I1 & E1 & G1).
  { intros x y Hx Hy Hs. rewrite (proj1 (dd_cdar x y Hx Hy Hs)). lra. } { auto. }
  destruct (dd_answer sv [day1; day3; day2] 1 Hex Hco (dd_good _ _ (or_intror (or_introl eq_refl)) (or_introl eq_refl))) as (w2 & o2 & d2 & x2 & y2 & r2 & I2 & E2 & G2).
  { intros x y Hx Hy Hs. rewrite (proj2 (dd_cdar x y Hx Hy Hs)). lra. } { auto. }
  exists dd_mu, [day1; day2; day3], [day1; day3; day2], w1, o1, d1, x1, y1, r1, w2, o2, d2, x2, y2, r2.
  split; [apply perm_skip, perm_swap|]. split; [exact I1|]. split; [exact I2|]. split; [exact E1|]. split; [exact E2|]. auto.
Qed.
