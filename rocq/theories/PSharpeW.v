(** * max_sharpe with a transaction cost leaves the best portfolio although staying is free (C126) *)
From Coq Require Import ZArith List String Bool Reals Lra Lia.
From Verif Require Import Num Py RBase PyLemmas MBase MConvex MEF SLin SBase SConvex Sums Mat PBase PConvex PEF PEF2 PEF3 PEF4 PEF6 PEFW PDownW SSharpe PSharpe.
Import ListNotations.
Local Open Scope R_scope.

Definition cost_ef : ef := set_add [transaction_cost_e (EVar 0) [1/3; 2/3] 1] (two_ef [1; 2] 0 1).
Lemma cost_open : open_ef two_world cost_ef [].
Proof.
  unfold open_ef, e_n. cbn [cost_ef set_add two_ef e_opt e_cons e_lb e_ub e_w e_base b_tickers e_cov e_mu e_add two_world w_sizes w_params].
  split; [reflexivity|]. split; [eexists; eexists; reflexivity|]. split; [reflexivity|]. split; [reflexivity|].
  split; [reflexivity|]. split; [split; [reflexivity|repeat constructor]|]. split; [intros m E; inversion E; reflexivity|].
  repeat constructor.
Qed.
Lemma cost_least : forall a b, a + 2 * b = 1 ->
  5/9 <= a * a + b * b + (Rabs (a - 1/3) + Rabs (b - 2/3)) /\
  (a * a + b * b + (Rabs (a - 1/3) + Rabs (b - 2/3)) <= 5/9 -> a = 1/3).
Proof.
  intros a b H. assert (Eb : b = (1 - a) / 2) by lra. subst b. unfold Rabs.
  destruct (Rcase_abs (a - 1/3)) as [H1|H1], (Rcase_abs ((1 - a) / 2 - 2/3)) as [H2|H2]; split; intros; try nra.
Qed.
Lemma cost_evals : forall s x y, s 0%nat = [x; y] ->
  evals s [] (transaction_cost_e (EVar 0) [1/3; 2/3] 1) = Rabs (x - 1/3) + Rabs (y - 2/3).
Proof.
  intros s x y E. unfold evals, transaction_cost_e, ESub. cbn [eval EScalar]. rewrite E. cbn [map bop map2 scalar hd].
  rewrite vsum_total. cbn [bop map map2 scalar hd total]. unfold Rminus. ring.
Qed.
Lemma cost_per_excess : forall s x y, s 0%nat = [x; y] -> 0 < x + 2 * y ->
  per_excess two_world cost_ef [1; 2] 0 s =
    (x / (x + 2 * y)) * (x / (x + 2 * y)) + (y / (x + 2 * y)) * (y / (x + 2 * y)) + (Rabs (x / (x + 2 * y) - 1/3) + Rabs (y / (x + 2 * y) - 2/3)).
Proof.
  intros s x y E H. unfold per_excess. cbn [cost_ef set_add two_ef e_w e_cov e_add]. destruct id2_psd as [_ [_ Hq]].
  assert (Hg : excess [1; 2] 0 (s 0%nat) = x + 2 * y) by (rewrite E; unfold excess; rewrite qret_two; ring). rewrite Hg, E, Hq.
  unfold penalty. cbn [map total]. change (par_values two_world) with (@nil R).
  rewrite (cost_evals _ (/ (x + 2 * y) * x) (/ (x + 2 * y) * y)).
  2:{ unfold scaled. cbn [Nat.eqb]. rewrite E. reflexivity. }
  replace (/ (x + 2 * y) * x) with (x / (x + 2 * y)) by (unfold Rdiv; ring). replace (/ (x + 2 * y) * y) with (y / (x + 2 * y)) by (unfold Rdiv; ring).
  rewrite Rplus_0_r. f_equal. field. lra.
Qed.
Lemma cost_admissible : forall s, admissible two_world cost_ef [] (e_lb cost_ef) (e_ub cost_ef) 1 s <->
  exists x y, s 0%nat = [x; y] /\ 0 <= x <= 1 /\ 0 <= y <= 1 /\ x + y = 1.
Proof. intros s. apply (two_admissible 1 2 0 1 1 s). Qed.

Lemma cost_example : forall sv, exact_solver sv -> complete_solver sv -> exists o w' o' d x y,
  two [1; 2] 0 1 = (two_world, Ok (two_ef [1; 2] 0 1)) /\
  add_objective (fun v => transaction_cost_e (EVar v) [1/3; 2/3] 1) two_world (two_ef [1; 2] 0 1) = (two_world, o, Ok tt) /\
  (* the previous weights are admissible, free of cost and have the best Sharpe ratio *)
  (exists s0, s0 (e_w o) = [1/3; 2/3] /\ admissible two_world o [] (e_lb o) (e_ub o) 1 s0 /\ penalty s0 [] (e_add o) = 0 /\
    forall s, admissible two_world o [] (e_lb o) (e_ub o) 1 s ->
      excess [1; 2] 0 (s (e_w o)) * sqrt (qform (e_cov o) (s0 (e_w o))) <= excess [1; 2] 0 (s0 (e_w o)) * sqrt (qform (e_cov o) (s (e_w o)))) /\
  max_sharpe sv (NFloat 0) two_world o = (w', o', Ok d) /\
  e_weights o' = Some [x; y] /\ Rabs (1/2 - x) <= 1/1000000 /\ Rabs (1/2 - y) <= 1/1000000.
Proof.
  intros sv Hex Hc. exists cost_ef. destruct id2_psd as [Hp [_ Hq]].
  assert (Hkn : Forall (known_terms (List.length (w_sizes two_world))) (e_add cost_ef)) by (repeat constructor).
  set (sh := fun _ : nat => [1/2; 1/2]).
  assert (Ah : admissible two_world cost_ef [] (e_lb cost_ef) (e_ub cost_ef) 1 sh).
  { apply cost_admissible. exists (1/2), (1/2). split; [reflexivity|lra]. }
  assert (Vh : per_excess two_world cost_ef [1; 2] 0 sh = 5/9).
  { rewrite (cost_per_excess sh (1/2) (1/2) eq_refl ltac:(lra)). replace (1 / 2 / (1 / 2 + 2 * (1 / 2))) with (1/3) by field.
    rewrite (Rabs_right (1/3 - 1/3)), (Rabs_left (1/3 - 2/3)) by lra. lra. }
  assert (Gh : 0 < excess [1; 2] 0 (sh (e_w cost_ef))) by (unfold sh, excess; rewrite qret_two; lra).
  destruct (sharpe_added_found sv two_world cost_ef [] [1; 2] (NFloat 0) 0 sh Hex Hc cost_open Hkn) as [w' [o' [d Hrun]]];
    try solve [constructor]; try reflexivity; try exact Ah; try exact Gh.
  { repeat constructor; discriminate. }
  { repeat constructor; discriminate. }
  { apply Exists_cons_hd. lra. }
  { intros s' Ha Hpos. rewrite Vh. apply cost_admissible in Ha. destruct Ha as [x [y [E [H1 [H2 H3]]]]].
    rewrite (cost_per_excess s' x y E) by lra. apply cost_least. field. lra. }
  destruct (max_sharpe_added sv two_world cost_ef [] (NFloat 0) w' o' d Hex cost_open Hkn ltac:(constructor) ltac:(constructor) Hrun)
    as [m [r [Em [Er [s [rr [W1 [W2 [W3 [W4 [W5 W6]]]]]]]]]]].
  cbn in Em, Er. inversion Em; subst m. inversion Er; subst r.
  specialize (W6 sh Ah Gh). rewrite Vh in W6.
  apply cost_admissible in W4. destruct W4 as [x [y [E [H1 [H2 H3]]]]].
  rewrite (cost_per_excess s x y E) in W6 by lra.
  destruct (cost_least (x / (x + 2 * y)) (y / (x + 2 * y)) ltac:(field; lra)) as [_ Hx]. specialize (Hx W6).
  assert (Hx2 : x = 1/2).
  { assert (x = 1/3 * (x + 2 * y)) by (rewrite <- Hx; field; lra). lra. }
  assert (Hy2 : y = 1/2) by lra. subst x y. change (e_w cost_ef) with 0%nat in W2. rewrite E in W2.
  inversion W2 as [|? x' ? l' R1 W2']; subst. inversion W2' as [|? y' ? l2 R2 W2'']; subst. inversion W2''; subst.
  exists w', o', (dict_of_pairs (combine (b_tickers (e_base cost_ef)) [x'; y'])), x', y'.
  split; [apply two_ok|]. split; [reflexivity|]. split.
  - exists (fun _ => [1/3; 2/3]). split; [reflexivity|]. split; [apply cost_admissible; exists (1/3), (2/3); split; [reflexivity|lra]|]. split.
    + cbn [cost_ef set_add e_add]. unfold penalty. cbn [map total]. rewrite (cost_evals _ (1/3) (2/3) eq_refl).
      replace (1/3 - 1/3) with 0 by lra. replace (2/3 - 2/3) with 0 by lra. rewrite Rabs_R0. lra.
    + intros s1 Ha. apply cost_admissible in Ha. destruct Ha as [a [b [Ea [G1 [G2 G3]]]]].
      change (e_cov cost_ef) with [[1; 0]; [0; 1]]. change (e_w cost_ef) with 0%nat. rewrite Ea. unfold excess. rewrite !qret_two, !Hq.
      replace (1/3 * (1/3) + 2/3 * (2/3)) with (5/9) by field.
      pose proof (sqrt_pos (5/9)). pose proof (sqrt_pos (a * a + b * b)). pose proof (sqrt_sqrt (5/9) ltac:(lra)). pose proof (sqrt_sqrt (a * a + b * b) ltac:(nra)).
      apply Rsqr_incr_0_var; [|apply Rmult_le_pos; lra]. unfold Rsqr.
      replace ((1 * a + 2 * b - 0) * sqrt (5/9) * ((1 * a + 2 * b - 0) * sqrt (5/9))) with ((a + 2 * b) * (a + 2 * b) * (sqrt (5/9) * sqrt (5/9))) by ring.
      replace ((1 * (1/3) + 2 * (2/3) - 0) * sqrt (a * a + b * b) * ((1 * (1/3) + 2 * (2/3) - 0) * sqrt (a * a + b * b))) with (25/9 * (sqrt (a * a + b * b) * sqrt (a * a + b * b))) by field.
      rewrite H0, H4 || rewrite H4. pose proof (Rle_0_sqr (2 * a - b)) as Sq. unfold Rsqr in Sq. nra.
  - split; [exact Hrun|]. split; [exact W1|]. split; apply rounded_close; assumption.
Qed.
