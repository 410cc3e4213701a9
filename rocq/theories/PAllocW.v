(** * Witnesses for the negative parts of the allocation properties *)
From Coq Require Import ZArith QArith Qreals List Bool Reals Lra Lia String Floats Permutation.
From Verif Require Import Num Py MAlloc SAlloc RBase PyLemmas QRBase PAlloc PAlloc2 PAlloc3 PAlloc4 PAllocQ.
Import ListNotations.
Local Open Scope R_scope.
Local Open Scope string_scope.

Definition L (s : string) : label := LStr s.

(** ** C04: six equal weights cleaned to five decimals sum to 1.00002 *)
Definition keys6 : list label := map LInt [0;1;2;3;4;5]%Z.
Definition clean6_q : @da Q :=
  mkDA (map (fun k => (k, 16667#100000)) keys6) (map (fun k => (k, 1#10)) keys6) false (10000#1) 0%Q None.
Definition clean6 : @da R := qda clean6_q.

Lemma clean6_assert : forall fuel r, snd (greedy_portfolio fuel clean6 r) = Err AssertionError.
Proof.
  intros fuel r. unfold clean6. rewrite greedy_QR; [reflexivity|]. reflexivity.
Qed.

Lemma qdict_In : forall t x d, In (t, x) (qdict d) -> exists q, In (t, q) d /\ x = Q2R q.
Proof.
  intros t x d H. unfold qdict in H. apply in_map_iff in H. destruct H as [[t' q] [E Hin]].
  simpl in E. inversion E; subst. eauto.
Qed.

Lemma clean6_ok : valid_da clean6 /\ long_only (da_weights clean6) /\ positive_prices (da_prices clean6) /\
  all_priced (da_weights clean6) (da_prices clean6) /\
  total_weight (da_weights clean6) = 100002 / 100000 /\
  (forall t x, In (t, x) (da_weights clean6) -> x = IZR (Rrint (1/6 * 100000)) / 100000).
Proof.
  assert (Hw : forall t x, In (t, x) (da_weights clean6) -> x = 16667 / 100000 /\ In t keys6).
  { intros t x H. apply qdict_In in H. destruct H as [q [Hin ->]]. simpl in Hin.
    repeat (destruct Hin as [E|Hin]; [inversion E; subst; split; [unfold Q2R; simpl; lra|simpl; tauto]|]).
    destruct Hin. }
  assert (Hp : forall t x, In (t, x) (da_prices clean6) -> x = 1 / 10).
  { intros t x H. apply qdict_In in H. destruct H as [q [Hin ->]]. simpl in Hin.
    repeat (destruct Hin as [E|Hin]; [inversion E; subst; unfold Q2R; simpl; lra|]). destruct Hin. }
  split.
  { repeat split; simpl.
    - repeat constructor; simpl; intuition discriminate.
    - unfold Q2R; simpl; lra.
    - unfold Q2R; simpl; lra. }
  split; [intros t x H; destruct (Hw _ _ H) as [-> _]; lra|].
  split; [intros t x H; rewrite (Hp _ _ H); lra|].
  split.
  { intros t x H. destruct (Hw _ _ H) as [_ Hk]. apply dget_Some_iff.
    change (In t keys6). exact Hk. }
  split; [unfold total_weight, clean6, qda, qdict; simpl; unfold Q2R; simpl; lra|].
  intros t x H. destruct (Hw _ _ H) as [-> _].
  rewrite (Rrint_unique (1/6*100000) 16667); [reflexivity|].
  rewrite Rabs_left; lra.
Qed.

(** ** C04: binary64, one asset of weight exactly one; price 141.21, total 26547.48 *)
Definition float1 : @da float :=
  mkDA [(L "A", 1%float)] [(L "A", 0x1.1a6b851eb851fp+7%float)] false 0x1.9ecdeb851eb85p+14%float 0%float None.
Lemma float1_assert : forall fuel r, snd (@greedy_portfolio float FNum fuel float1 r) = Err AssertionError.
Proof. intros fuel r. reflexivity. Qed.

(** ** C07: twelve assets *)
Definition skip12_q : @da Q :=
  mkDA ((L "A", 12#100) :: map (fun k => (LInt k, 8#100)) [0;1;2;3;4;5;6;7;8;9]%Z ++ [(L "K", 6#100)])
       ((L "A", 1#1) :: map (fun k => (LInt k, 100#1)) [0;1;2;3;4;5;6;7;8;9]%Z ++ [(L "K", 7#1)])
       false (100#1) 0%Q None.
Definition skip12 : @da R := qda skip12_q.

Lemma skip12_run : forall r, snd (greedy_portfolio 5 skip12 r) = Ok ([(L "A", 12%Z)], 88).
Proof.
  intros r. unfold skip12. rewrite greedy_QR; [|reflexivity].
  assert (E : snd (@greedy_portfolio Q QNum 5 skip12_q r) = Ok ([(L "A", 12%Z)], 88#1)) by (destruct r; vm_compute; reflexivity).
  rewrite E. simpl. do 2 f_equal. unfold Q2R; simpl; lra.
Qed.

Lemma skip12_ok : valid_da skip12 /\ long_only (da_weights skip12) /\ positive_prices (da_prices skip12) /\
  total_weight (da_weights skip12) <= 1 /\
  In (L "K", 6/100) (da_weights skip12) /\
  held_fraction (da_prices skip12) [(L "A", 12%Z)] (L "K") < 6/100 /\
  price_of (da_prices skip12) (L "K") <= 88.
Proof.
  split.
  { repeat split; simpl.
    - repeat constructor; simpl; intuition discriminate.
    - unfold Q2R; simpl; lra.
    - unfold Q2R; simpl; lra. }
  split.
  { intros t x H. apply qdict_In in H. destruct H as [q [Hin ->]]. simpl in Hin.
    repeat (destruct Hin as [E|Hin]; [inversion E; subst; unfold Q2R; simpl; lra|]). destruct Hin. }
  split.
  { intros t x H. apply qdict_In in H. destruct H as [q [Hin ->]]. simpl in Hin.
    repeat (destruct Hin as [E|Hin]; [inversion E; subst; unfold Q2R; simpl; lra|]). destruct Hin. }
  split; [unfold total_weight, skip12, qda, qdict; simpl; unfold Q2R; simpl; lra|].
  split.
  { replace (6/100) with (Q2R (6#100)) by (unfold Q2R; simpl; lra).
    change (L "K", Q2R (6 # 100)) with ((fun kv : label * Q => (fst kv, Q2R (snd kv))) (L "K", 6#100)).
    apply in_map. simpl. tauto. }
  split.
  - unfold held_fraction, price_of, alloc_value, skip12. cbn. unfold price_of. cbn. unfold Q2R; simpl. lra.
  - unfold price_of. cbn. unfold Q2R; simpl. lra.
Qed.

(** ** C10: order of labels *)
Definition lp_prices : dict R := [(L "B", 1); (L "A", 100)].
Definition lp_aligned : @da R := mkDA [(L "B", 0); (L "A", 1)] lp_prices false (201/2) 0 None.
Definition lp_misordered : @da R := mkDA [(L "A", 1); (L "B", 0)] lp_prices false (201/2) 0 None.
Definition lp_prog : @lp R := mkLP [1; 100] [1; 0] (201/2).

Lemma vsum2 : forall x y : R, vsum [x; y] = x + y.
Proof. intros. rewrite !vsum_cons, vsum_nil. lra. Qed.

Lemma lp_prog_bound : forall x u, lp_feasible lp_prog x u ->
  exists a b, x = [IZR a; IZR b] /\ (0 <= b)%Z /\ 201 - 2 * IZR a <= lp_objective lp_prog x u /\
              IZR a + 100 * IZR b <= 201/2.
Proof.
  intros x u [H1 [H2 [H3 [H4 [H5 [H6 H7]]]]]]. simpl in H1, H2.
  destruct x as [|xa [|xb [|? ?]]]; try discriminate.
  destruct u as [|ua [|ub [|? ?]]]; try discriminate.
  inversion H3 as [|? ? [a Ea] H3']; subst. inversion H3' as [|? ? [b Eb] _]; subst.
  exists a, b. split; [reflexivity|].
  inversion H6 as [|? ? Ha H6']; subst. inversion H6' as [|? ? Hb _]; subst.
  unfold lp_eta in *; simpl in *.
  inversion H4 as [|? ? ? ? Hu1 H4']; subst. inversion H4' as [|? ? ? ? Hu2 _]; subst.
  inversion H5 as [|? ? ? ? Hv1 H5']; subst. inversion H5' as [|? ? ? ? Hv2 _]; subst.
  unfold lp_objective, lp_r, dot in *. simpl in *. rewrite ?vsum2 in *.
  split; [apply le_IZR; lra|]. split; lra.
Qed.

Lemma lp_prog_feasible : lp_feasible lp_prog [IZR 100; IZR 0] [1/2; 0].
Proof.
  unfold lp_feasible, lp_eta, lp_r, dot; simpl. rewrite vsum2.
  split; [reflexivity|]. split; [reflexivity|].
  split; [constructor; [exists 100%Z; reflexivity|constructor; [exists 0%Z; reflexivity|constructor]]|].
  split; [repeat constructor; lra|]. split; [repeat constructor; lra|].
  split; [repeat constructor; lra|lra].
Qed.

Lemma lp_prog_answer : forall solver x u, exact_milp solver -> solver lp_prog = LPAnswer x u ->
  x = [IZR 100; IZR 0].
Proof.
  intros solver x u Hs E. destruct (Hs _ _ _ E) as [Hf Ho].
  specialize (Ho _ _ lp_prog_feasible).
  destruct (lp_prog_bound _ _ Hf) as [a [b [-> [Hb0 [Hobj Hbud]]]]].
  unfold lp_objective at 2 in Ho. unfold lp_r, dot in Ho. simpl in Ho. rewrite !vsum2 in Ho.
  assert (100 <= a)%Z by (apply le_IZR; lra).
  assert (Hb : IZR b < IZR 1) by (apply IZR_le in H; lra). apply lt_IZR in Hb.
  assert (b = 0)%Z by lia. subst b. assert (IZR a < IZR 101) by lra. apply lt_IZR in H0.
  assert (a = 100)%Z by lia. subst a. reflexivity.
Qed.

Definition lp_eqb (P P' : @lp R) : bool :=
  Reqb (lp_T P) (lp_T P') &&
  (if list_eq_dec Req_EM_T (lp_p P) (lp_p P') then true else false) &&
  (if list_eq_dec Req_EM_T (lp_w P) (lp_w P') then true else false).

Definition one_solver (P : @lp R) : @lp_outcome R :=
  if lp_eqb P lp_prog then LPAnswer [IZR 100; IZR 0] [1/2; 0] else LPBadStatus.

Lemma one_solver_exact : exact_milp one_solver.
Proof.
  intros P x u E. unfold one_solver in E. destruct (lp_eqb P lp_prog) eqn:EP; [|discriminate].
  assert (P = lp_prog).
  { unfold lp_eqb in EP. apply andb_true_iff in EP. destruct EP as [EP E3].
    apply andb_true_iff in EP. destruct EP as [E1 E2]. rprop.
    destruct (list_eq_dec Req_EM_T (lp_p P) (lp_p lp_prog)); [|discriminate].
    destruct (list_eq_dec Req_EM_T (lp_w P) (lp_w lp_prog)); [|discriminate].
    destruct P; unfold lp_prog in *; simpl in *; subst; reflexivity. }
  subst P. inversion E; subst. split; [apply lp_prog_feasible|].
  intros x' u' Hf. destruct (lp_prog_bound _ _ Hf) as [a [b [-> [Hb0 [Hobj Hbud]]]]].
  unfold lp_objective at 1. unfold lp_r, dot. simpl. rewrite !vsum2.
  assert (IZR a < IZR 101) by (apply IZR_le in Hb0; lra). apply lt_IZR in H.
  assert (IZR a <= 100) by (apply IZR_le; lia). lra.
Qed.

Lemma one_solver_answers : exists x u, one_solver lp_prog = LPAnswer x u.
Proof.
  unfold one_solver, lp_eqb. assert (Reqb (lp_T lp_prog) (lp_T lp_prog) = true) as -> by (rprop; reflexivity).
  destruct (list_eq_dec Req_EM_T (lp_p lp_prog) (lp_p lp_prog)); [|congruence].
  destruct (list_eq_dec Req_EM_T (lp_w lp_prog) (lp_w lp_prog)); [|congruence]. simpl. eauto.
Qed.

(** a long-only object with these weights hands [lp_prog] to the solver *)
Lemma lp_misordered_run : forall solver d r, exact_milp solver -> (exists x u, solver lp_prog = LPAnswer x u) ->
  da_weights d = [(L "A", 1); (L "B", 0)] -> da_prices d = lp_prices -> da_total d = 201/2 ->
  snd (lp_portfolio solver d r) = Ok ([(L "A", 100%Z)], 1/2).
Proof.
  intros solver d r Hs [x [u E]] Hw Hp HT. unfold lp_portfolio. rewrite lp_long_only.
  2:{ rewrite Hw. intros t y [E'|[E'|[]]]; inversion E'; subst; lra. }
  unfold lp_long. rewrite Hw, Hp, HT. cbn [map snd fst lp_prices]. fold lp_prog. cbn [lp_p lp_w lp_prog length Nat.eqb negb].
  rewrite E. rewrite (lp_prog_answer _ _ _ Hs E). cbn [map]. runfold. rewrite !Rrint_IZR.
  unfold lp_r, dot. simpl. rewrite vsum2. do 2 f_equal. lra.
Qed.

Lemma lp_values : alloc_value lp_prices [(L "A", 100%Z)] = 10000.
Proof. cbn. unfold price_of. cbn. lra. Qed.

Lemma sort_aligned : sort_weights (da_weights lp_aligned) = [(L "A", 1); (L "B", 0)].
Proof.
  unfold sort_weights. simpl. destruct (Rleb 1 0) eqn:E; rprop; [lra|reflexivity].
Qed.

Lemma lp_after_greedy : forall solver fuel r r', exact_milp solver ->
  (exists x u, solver lp_prog = LPAnswer x u) ->
  snd (lp_portfolio solver (fst (greedy_portfolio fuel lp_aligned r)) r') = Ok ([(L "A", 100%Z)], 1/2).
Proof.
  intros solver fuel r r' Hs Ha.
  destruct (greedy_at_fst 1 fuel lp_aligned r) as [H1 [_ [H3 [_ H5]]]].
  apply lp_misordered_run; auto. unfold greedy_portfolio. rewrite H5. apply sort_aligned.
Qed.

Lemma cleaned_weights_fail : exists d,
  valid_da d /\ long_only (da_weights d) /\ positive_prices (da_prices d) /\
  all_priced (da_weights d) (da_prices d) /\
  total_weight (da_weights d) = 100002 / 100000 /\
  (forall t x, In (t, x) (da_weights d) -> x = IZR (Rrint (1/6 * 100000)) / 100000) /\
  forall fuel r, snd (greedy_portfolio fuel d r) = Err AssertionError.
Proof.
  exists clean6. destruct clean6_ok as [a [b [c [d [e f]]]]].
  repeat (split; [assumption|]). exact clean6_assert.
Qed.

Lemma stopping_fails : exists d al lo t w,
  valid_da d /\ long_only (da_weights d) /\ positive_prices (da_prices d) /\
  total_weight (da_weights d) <= 1 /\
  (forall r, snd (greedy_portfolio 5 d r) = Ok (al, lo)) /\ al <> [] /\
  In (t, w) (da_weights d) /\ held_fraction (da_prices d) al t < w /\
  price_of (da_prices d) t <= lo.
Proof.
  exists skip12, [(L "A", 12%Z)], 88, (L "K"), (6/100).
  destruct skip12_ok as [a [b [c [d [e [f g]]]]]].
  repeat (split; [assumption|]). split; [exact skip12_run|]. split; [discriminate|].
  repeat (split; [assumption|]). assumption.
Qed.

Lemma order_matters : exists solver dm da al lo,
  exact_milp solver /\ valid_da dm /\ valid_da da /\ long_only (da_weights dm) /\ long_only (da_weights da) /\
  Permutation (map fst (da_weights dm)) (map fst (da_prices dm)) /\
  map fst (da_weights da) = map fst (da_prices da) /\
  (forall r, snd (lp_portfolio solver dm r) = Ok (al, lo)) /\
  (forall fuel r r', snd (lp_portfolio solver (fst (greedy_portfolio fuel da r)) r') = Ok (al, lo)) /\
  0 < lo /\ da_total dm < alloc_value (da_prices dm) al /\ da_total da < alloc_value (da_prices da) al.
Proof.
  exists one_solver, lp_misordered, lp_aligned, [(L "A", 100%Z)], (1/2).
  split; [apply one_solver_exact|].
  split; [repeat split; simpl; try lra; repeat constructor; simpl; intuition discriminate|].
  split; [repeat split; simpl; try lra; repeat constructor; simpl; intuition discriminate|].
  split; [intros t y [E'|[E'|[]]]; inversion E'; subst; lra|].
  split; [intros t y [E'|[E'|[]]]; inversion E'; subst; lra|].
  split; [apply perm_swap|]. split; [reflexivity|].
  split.
  { intros r. apply lp_misordered_run; try reflexivity; [apply one_solver_exact|apply one_solver_answers]. }
  split.
  { intros fuel r r'. apply lp_after_greedy; [apply one_solver_exact|apply one_solver_answers]. }
  cbn [lp_misordered lp_aligned da_prices da_total]. rewrite lp_values. split; [lra|split; lra].
Qed.
