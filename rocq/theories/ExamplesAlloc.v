(** * Concrete cases meeting the hypotheses of the theorems in PropertiesAlloc.v *)
From Coq Require Import ZArith QArith Qreals List Bool Reals Lra Lia String Permutation.
From Verif Require Import Num Py MAlloc SAlloc RBase PyLemmas QRBase PAlloc PAlloc2 PAlloc3 PAlloc4
  PAllocQ PAllocW PropertiesAlloc.
Import ListNotations.
Local Open Scope R_scope.
Local Open Scope string_scope.

(** three assets, 100 units of money *)
Definition ex3_q : @da Q :=
  mkDA [(L "A", 1#2); (L "B", 3#10); (L "C", 1#5)] [(L "C", 11#1); (L "A", 3#1); (L "B", 7#1)] false
       (100#1) 0%Q None.
Definition ex3 : @da R := qda ex3_q.

Ltac qcases H := apply qdict_In in H; let q := fresh "q" in let Hin := fresh "Hin" in
  destruct H as [q [Hin ->]]; simpl in Hin;
  repeat (destruct Hin as [Hin|Hin]; [inversion Hin; subst; unfold Q2R; simpl; lra|]); destruct Hin.

Example ex3_valid : valid_da ex3.
Proof. repeat split; simpl; [repeat constructor; simpl; intuition discriminate| |]; unfold Q2R; simpl; lra. Qed.
Example ex3_long : long_only (da_weights ex3).
Proof. intros t x H. qcases H. Qed.
Example ex3_prices : positive_prices (da_prices ex3).
Proof. intros t x H. qcases H. Qed.
Example ex3_priced : all_priced (da_weights ex3) (da_prices ex3).
Proof.
  intros t x H. apply dget_Some_iff. apply qdict_In in H. destruct H as [q [Hin _]]. simpl in Hin.
  repeat (destruct Hin as [E|Hin]; [inversion E; subst; simpl; tauto|]). destruct Hin.
Qed.
Example ex3_total : total_weight (da_weights ex3) <= 1.
Proof. unfold total_weight, ex3, qda, qdict; simpl; unfold Q2R; simpl; lra. Qed.

(** 16 A + 4 B + 2 C = 48 + 28 + 22 = 98 *)
Example ex3_run : exists d', greedy_portfolio 10 ex3 false =
  (d', Ok ([(L "A", 16%Z); (L "B", 4%Z); (L "C", 2%Z)], 2)).
Proof.
  assert (H : snd (greedy_portfolio 10 ex3 false) = Ok ([(L "A", 16%Z); (L "B", 4%Z); (L "C", 2%Z)], 2)).
  { unfold ex3. rewrite greedy_QR by reflexivity.
    assert (E : snd (@greedy_portfolio Q QNum 10 ex3_q false) =
                Ok ([(L "A", 16%Z); (L "B", 4%Z); (L "C", 2%Z)], 2#1)) by (vm_compute; reflexivity).
    rewrite E. simpl. do 2 f_equal. unfold Q2R; simpl; lra. }
  destruct (greedy_portfolio 10 ex3 false) as [d' r]. simpl in H. subst r. eauto.
Qed.

(** hypotheses of c01, c02, c07 hold together, with an under-weight asset *)
Example ex3_meets_c07 : exists d' al lo, greedy_portfolio 10 ex3 false = (d', Ok (al, lo)) /\
  al <> [] /\ 0 < lo /\ (List.length (da_weights ex3) <= 10)%nat /\
  exists t w, In (t, w) (da_weights ex3) /\ held_fraction (da_prices ex3) al t < w.
Proof.
  destruct ex3_run as [d' E]. exists d', [(L "A", 16%Z); (L "B", 4%Z); (L "C", 2%Z)], 2.
  split; [exact E|]. split; [discriminate|]. split; [lra|]. split; [simpl; lia|].
  exists (L "B"), (Q2R (3#10)). split; [simpl; auto|].
  unfold held_fraction, alloc_value, price_of. cbn. unfold price_of. cbn. unfold Q2R; simpl. lra.
Qed.

(** total correctness applies to it *)
Example ex3_meets_c04 : exists al lo f0, forall fuel, (f0 <= fuel)%nat ->
  snd (greedy_portfolio fuel ex3 true) = Ok (al, lo).
Proof.
  apply c04_greedy_succeeds; try reflexivity.
  - apply ex3_valid. - apply ex3_long. - discriminate. - apply ex3_priced. - apply ex3_prices. - apply ex3_total.
Qed.

(** long/short: 130/30 *)
Definition exls : @da R :=
  mkDA [(L "A", 13/10); (L "B", - (2/10)); (L "C", - (1/10))] [(L "A", 3); (L "B", 7); (L "C", 11)] false
       100 (3/10) None.
Definition exls0 : @da R :=
  mkDA [(L "A", 13/10); (L "B", - (2/10)); (L "C", - (1/10))] [(L "A", 3); (L "B", 7); (L "C", 11)] false
       100 0 None.
Ltac lcases H := simpl in H; repeat (destruct H as [H|H]; [inversion H; subst; lra|]); destruct H.
Example exls_hyps : forall d, d = exls \/ d = exls0 ->
  valid_da d /\ has_short (da_weights d) /\ (exists t x, In (t, x) (da_weights d) /\ 0 < x) /\
  all_priced (da_weights d) (da_prices d) /\ positive_prices (da_prices d) /\ da_int d = false.
Proof.
  intros d [-> | ->];
  (split; [repeat split; simpl; try lra; repeat constructor; simpl; intuition discriminate|];
   split; [exists (L "B"), (- (2/10)); split; [simpl; auto|lra]|];
   split; [exists (L "A"), (13/10); split; [simpl; auto|lra]|];
   split; [intros t x H; apply dget_Some_iff; simpl in *; intuition congruence|];
   split; [intros t x H; lcases H|reflexivity]).
Qed.
Example exls_meets_c05 : exists fuel d' al lo, greedy_portfolio fuel exls true = (d', Ok (al, lo)).
Proof.
  destruct (exls_hyps exls (or_introl eq_refl)) as [H1 [H2 [H3 [H4 [H5 H6]]]]].
  destruct (c06_short_ratio_zero exls true H1 H2 H3 H4 H5 H6) as [H _].
  destruct H as [al [lo [f0 H]]]; [simpl; lra|]. exists f0.
  destruct (greedy_portfolio f0 exls true) as [d' r] eqn:E.
  exists d', al, lo. specialize (H f0 (le_n _)). rewrite E in H. simpl in H. congruence.
Qed.

(** shorts only; zero longs *)
Example ex_only_shorts : valid_da (mkDA [(L "A", -1/2); (L "B", -1/2)] [(L "A", 3); (L "B", 4)] false 10 1 None).
Proof. repeat split; simpl; try lra; repeat constructor; simpl; intuition discriminate. Qed.
Example ex_zero_longs : has_short [(L "A", 0); (L "B", -1)] /\ (exists t, In (t, 0) [(L "A", 0); (L "B", -1)]) /\
  forall t x, In (t, x) [(L "A", 0); (L "B", -1)] -> x <= 0.
Proof.
  split; [exists (L "B"), (-1); split; [simpl; auto|lra]|]. split; [exists (L "A"); simpl; auto|].
  intros t x H; lcases H.
Qed.

(** integer prices: 10 units, price 4: two shares, 2 left -> TypeError; price 5: nothing left *)
Example ex_int_left : whole_share_cost [(L "A", 1)] [(L "A", 4)] 10 < 10.
Proof.
  unfold whole_share_cost, price_of. simpl. rewrite (Int_part_unique (1 * 10 / 4) 2); lra.
Qed.
Example ex_int_exact : whole_share_cost [(L "A", 1)] [(L "A", 5)] 10 = 10.
Proof.
  unfold whole_share_cost, price_of. simpl. rewrite (Int_part_unique (1 * 10 / 5) 2); lra.
Qed.

(** LP: an aligned object on which an exact solver answers *)
Definition exlp : @da R := mkDA [(L "A", 1); (L "B", 0)] [(L "A", 1); (L "B", 100)] false (201/2) 0 None.
Example exlp_meets_c09 : exact_milp one_solver /\ valid_da exlp /\ long_only (da_weights exlp) /\
  map fst (da_weights exlp) = map fst (da_prices exlp) /\
  exists d' al lo, lp_portfolio one_solver exlp false = (d', Ok (al, lo)).
Proof.
  split; [apply one_solver_exact|].
  split; [repeat split; simpl; try lra; repeat constructor; simpl; intuition discriminate|].
  assert (Hl : long_only (da_weights exlp)) by (intros t x H; lcases H).
  split; [exact Hl|]. split; [reflexivity|].
  destruct (lp_portfolio one_solver exlp false) as [d' r] eqn:E.
  assert (Er : r = lp_long one_solver exlp).
  { unfold lp_portfolio in E. rewrite <- (lp_long_only 1 one_solver exlp false Hl), E. reflexivity. }
  destruct one_solver_answers as [x [u Ea]].
  unfold lp_long in Er. cbn [exlp da_prices da_weights da_total map snd] in Er. fold lp_prog in Er.
  cbn [lp_p lp_w lp_prog List.length Nat.eqb negb] in Er. rewrite Ea in Er. subst r. eauto.
Qed.

(** latest prices: a missing last quote *)
Example ex_latest : get_latest_prices (A:=R) (Some ([L "A"; L "B"; L "C"],
   [[Some 1; None; None]; [None; Some 2; None]; [Some 3; None; None]])) =
   Ok [(L "A", Some 3); (L "B", Some 2); (L "C", None)].
Proof. reflexivity. Qed.

(** constructor: default short ratio of a 130/30 portfolio *)
Example ex_default_ratio : short_total (da_weights exls) = 3/10.
Proof.
  unfold short_total. simpl. rewrite Rmax_left by lra. rewrite !Rmax_right by lra. lra.
Qed.
