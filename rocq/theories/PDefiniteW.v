(** * Two assets that never differ: sample covariance leaves the answer to the solver (C135) *)
From Coq Require Import ZArith List String Bool Reals Lra Lia.
From Verif Require Import Num Py RBase PyLemmas MBase MFrame MRisk MConvex MEF SLin SBase SHRP SReturns SRisk SConvex SObj SCurve SUnique Sums Mat PBase PConvex PEF PEF2 PEF3 PEF4 PEFW PRisk PDown PDown2 PDown4 PDown5 PDownW PFrame PReturns PCov1 PCov2 PCov3 PCov4 PGaps3 PUnique PUniqueW PDefinite PDefinite2.
Import ListNotations.
Local Open Scope R_scope.
Local Notation len := List.length.

Definition twins : list label := [LStr "A"; LStr "B"].
Definition twin_days : list label := [LInt 0; LInt 1].
Definition twin_returns (t : label) : list R := [1/10; 3/10].
Definition twin_rows : list (list R) := [[126/25; 126/25]; [126/25; 126/25]].
Lemma twin_variance : sample_covariance [1/10; 3/10] [1/10; 3/10] = 1/50.
Proof. unfold sample_covariance, average. cbn. lra. Qed.
Lemma twin_sample : forall eigh log fm, sample_cov eigh (history 2 twin_days twins twin_returns) true 252 log fm = Ok (mkFrame twins twins twin_rows).
Proof.
  intros eigh log fm. rewrite (sample_cov_complete eigh 2 twin_days twins twin_returns 252 log fm) by (try lia; try lra; intros; reflexivity).
  unfold labelled, twins, twin_returns. cbn [map]. rewrite twin_variance. unfold twin_rows. replace (1 / 50 * 252) with (126/25) by lra. reflexivity.
Qed.
Definition twin_ef : ef :=
  mkEF (mkBase twins None) None 0 None []
    [(0%nat, lower_con [Some 0; Some 0] 0); (1%nat, upper_con [Some 1; Some 1] 0)]
    [Some 0; Some 0] [Some 1; Some 1] None twin_rows None None None.
Lemma twin_ok : ef_init (MIn MuNone) (CIn (CovFrame twins twin_rows)) (BPair (Some 0) (Some 1)) empty_world = (two_world, Ok twin_ef).
Proof. reflexivity. Qed.
Lemma twin_open : open_ef two_world twin_ef [].
Proof.
  unfold open_ef, e_n. cbn [twin_ef e_opt e_cons e_lb e_ub e_w e_base b_tickers e_cov e_mu e_add two_world w_sizes w_params].
  split; [reflexivity|]. split; [eexists; eexists; reflexivity|]. split; [reflexivity|]. split; [reflexivity|].
  split; [reflexivity|]. split; [split; [reflexivity|repeat constructor]|]. split; [intros m E; inversion E; reflexivity|].
  repeat constructor.
Qed.
Lemma twin_qform : forall x y, qform twin_rows [x; y] = 126/25 * ((x + y) * (x + y)).
Proof. intros. cbn. field. Qed.
Lemma twin_minvol : forall s0 x y, s0 0%nat = [x; y] -> 0 <= x -> 0 <= y -> x + y = 1 ->
  exists w' o', min_volatility (prefer s0) two_world twin_ef = (w', o', Ok (dict_of_pairs (combine twins (map round16 [x; y])))).
Proof.
  intros s0 x y E0 Hx Hy Hxy. destruct (minvol_first (prefer s0) two_world twin_ef [] twin_open) as [w' [o' E]].
  change (map snd (e_cons twin_ef) ++ [CEq (ESum (EVar (e_w twin_ef))) (EScalar 1)]) with (lower_con [Some 0; Some 0] 0 :: upper_con [Some 1; Some 1] 0 :: [CEq (ESum (EVar 0)) (EScalar 1)]) in E.
  change (w_sizes two_world) with [2%nat] in E. change (add_all (EQuad (e_cov twin_ef) (EVar (e_w twin_ef))) (e_add twin_ef)) with (EQuad twin_rows (EVar 0)) in E.
  assert (Hq : forall s a b, s 0%nat = [a; b] -> evals s (par_values two_world) (EQuad twin_rows (EVar 0)) = 126/25 * ((a + b) * (a + b))).
  { intros s a b Es. unfold evals. cbn [eval]. rewrite Es, quad_qform. rewrite <- twin_qform. reflexivity. }
  rewrite prefer_answers in E.
  - cbn [outcome] in E. change (e_w twin_ef) with 0%nat in E. rewrite E0 in E. exists w', o'. exact E.
  - split.
    + apply two_feasible. exists x, y. split; [exact E0|]. split; [lra|]. split; [lra|]. constructor; [apply sum_is_sat; rewrite E0; cbn; lra|constructor].
    + intros s H. apply two_feasible in H. destruct H as [a [b [Es [Ha [Hc Hs]]]]]. rewrite !Forall_cons_iff', sum_is_sat, Es in Hs. destruct Hs as [Hs _].
      rewrite (Hq s a b Es), (Hq s0 x y E0). cbn in Hs. replace (a + b) with 1 by lra. rewrite Hxy. lra.
Qed.
Lemma sample_depends : exists sv sv' dates names x rows o w1 o1 d1 w2 o2 d2, exact_solver sv /\ complete_solver sv /\ exact_solver sv' /\ complete_solver sv' /\
  (forall t, In t names -> 0 < sample_covariance (x t) (x t)) /\
  (forall eigh log fm, sample_cov eigh (history 2 dates names x) true 252 log fm = Ok (mkFrame names names rows)) /\
  ef_init (MIn MuNone) (CIn (CovFrame names rows)) (BPair (Some 0) (Some 1)) empty_world = (two_world, Ok o) /\
  min_volatility sv two_world o = (w1, o1, Ok d1) /\ min_volatility sv' two_world o = (w2, o2, Ok d2) /\ d1 <> d2.
Proof.
  destruct (twin_minvol all_first 1 0 eq_refl ltac:(lra) ltac:(lra) ltac:(lra)) as [w1 [o1 E1]].
  destruct (twin_minvol all_second 0 1 eq_refl ltac:(lra) ltac:(lra) ltac:(lra)) as [w2 [o2 E2]].
  rewrite (proj1 round16_01) in E1. rewrite (proj2 round16_01) in E2.
  eexists (prefer all_first), (prefer all_second), twin_days, twins, twin_returns, twin_rows, twin_ef, w1, o1, _, w2, o2, _.
  split; [apply prefer_exact|]. split; [apply prefer_complete|]. split; [apply prefer_exact|]. split; [apply prefer_complete|].
  split; [intros t _; unfold twin_returns; rewrite twin_variance; lra|].
  split; [exact twin_sample|]. split; [exact twin_ok|]. split; [exact E1|]. split; [exact E2|].
  intros E. cbn in E. injection E as E _. lra.
Qed.
