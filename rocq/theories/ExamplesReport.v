(** * Concrete cases meeting the hypotheses of the theorems in PropertiesReport.v *)
From Coq Require Import ZArith QArith Qreals List Bool Reals Lra Lia String Permutation.
From Verif Require Import Num Py MAlloc SAlloc RBase PyLemmas QRBase PAlloc PAlloc2 PAlloc3 PAlloc4
  PAllocQ PAllocW ExamplesAlloc MReport SReport PAlloc5 PReport PropertiesReport.
Import ListNotations.
Local Open Scope R_scope.
Local Open Scope string_scope.

(** the three-asset allocation of ExamplesAlloc.v has a bounded error *)
Example ex3_rmse : exists d' e, snd (greedy_portfolio 10 ex3 false) = snd (greedy_portfolio 10 ex3 true) /\
  fst (greedy_portfolio 10 ex3 false) = d' /\ allocation_rmse d' = Ok (Some e) /\ 0 <= e <= sqrt (2 / 3).
Proof.
  destruct ex3_run as [d' E].
  destruct (c92_greedy_rmse_bounded 10 ex3 false d' _ _ ex3_valid ex3_long ex3_prices ex3_total E)
    as [e [H1 [_ H2]]].
  exists d', e. split.
  - unfold greedy_portfolio. rewrite !greedy_long_only; try (intros C; discriminate C); try apply ex3_long. reflexivity.
  - rewrite E. split; [reflexivity|]. split; [exact H1|].
    cbn [ex3 qda da_weights ex3_q qdict map List.length INR] in H2.
    replace (1 + 1 + 1) with 3 in H2 by lra. exact H2.
Qed.

(** money that divides evenly: the error is zero *)
Definition even : da (A:=R) :=
  mkDA [(L "A", 1/2); (L "B", 1/2)] [(L "A", 10); (L "B", 25)] false 100 0
       (Some [(L "A", 5%Z); (L "B", 2%Z)]).
Example even_rmse : allocation_rmse even = Ok (Some 0).
Proof.
  assert (alloc_value (da_prices even) [(L "A", 5%Z); (L "B", 2%Z)] = 100) as V.
  { cbn. unfold price_of. cbn. lra. }
  apply (c92_rmse_zero_iff_exact even [(L "A", 5%Z); (L "B", 2%Z)]).
  - reflexivity.
  - discriminate.
  - intros t n [E|[E|[]]]; inversion E; subst; cbn; eauto.
  - intros _. rewrite V. lra.
  - intros t x H. unfold held_fraction. rewrite V.
    destruct H as [E|[E|[]]]; inversion E; subst; cbn; unfold price_of; cbn; lra.
Qed.

(** an exact solver for programs with one asset of weight 1 whose price divides the money *)
Definition unit_solver (P : lp (A:=R)) : lp_outcome (A:=R) :=
  match lp_p P, lp_w P with
  | [p], [w] =>
      let k := Int_part (lp_T P / p) in
      if andb (Reqb w 1) (andb (Reqb (p * IZR k) (lp_T P)) (Z.leb 0 k))
      then LPAnswer [IZR k] [0] else LPBadStatus
  | _, _ => LPBadStatus
  end.
Example unit_solver_exact : exact_milp unit_solver.
Proof.
  intros [p w T] x u E. unfold unit_solver in E. cbn [lp_p lp_w lp_T] in E.
  destruct p as [|p [|]]; try discriminate E. destruct w as [|w [|]]; try discriminate E.
  set (k := Int_part (T / p)) in *.
  destruct (Reqb w 1) eqn:E1; [|discriminate E].
  destruct (Reqb (p * IZR k) T) eqn:E2; [|discriminate E].
  destruct (Z.leb_spec 0 k) as [E3|]; [|discriminate E]. cbn in E. rprop. inversion E; subst w x u. clear E. clearbody k.
  apply IZR_le in E3. split.
  - unfold lp_feasible, lp_eta, lp_r, dot. cbn. rewrite vsum1.
    split; [reflexivity|]. split; [reflexivity|].
    split; [constructor; [exists k; reflexivity|constructor]|].
    split; [repeat apply Forall2_cons; try apply Forall2_nil; lra|].
    split; [repeat apply Forall2_cons; try apply Forall2_nil; lra|].
    split; [repeat apply Forall_cons; try apply Forall_nil; lra|lra].
  - intros x' u' Hf. destruct Hf as [L1 [L2 [_ [F1 [F2 [F3 F4]]]]]].
    cbn in L1, L2. destruct x' as [|a [|]]; try discriminate L1. destruct u' as [|b [|]]; try discriminate L2.
    unfold lp_objective, lp_eta, lp_r, dot in *. cbn in *. rewrite ?vsum1 in *.
    inversion F1; subst. inversion F2; subst. lra.
Qed.

(** a 100/50 portfolio whose price series lists the tickers in the other order *)
Definition exlps : da (A:=R) :=
  mkDA [(L "A", 1); (L "B", -(1/2))] [(L "B", 10); (L "A", 5)] false 100 (1/2) None.

Lemma unit_answer : forall p T k, T / p = IZR k -> p * IZR k = T -> (0 <= k)%Z ->
  unit_solver (mkLP [p] [1] T) = LPAnswer [IZR k] [0].
Proof.
  intros p T k E1 E2 E3. unfold unit_solver. cbn [lp_p lp_w lp_T].
  assert (Int_part (T / p) = k) as ->.
  { rewrite E1. apply Int_part_unique. lra. }
  destruct (Reqb 1 1) eqn:B1; rprop; [|congruence].
  destruct (Reqb (p * IZR k) T) eqn:B2; rprop; [|congruence].
  destruct (Z.leb_spec 0 k); [reflexivity|lia].
Qed.

Example exlps_meets_c93 : exact_milp unit_solver /\ valid_da exlps /\ has_short (da_weights exlps) /\
  exists d', lp_portfolio unit_solver exlps true = (d', Ok ([(L "A", 30%Z); (L "B", (-5)%Z)], 0)).
Proof.
  split; [exact unit_solver_exact|].
  split; [repeat split; cbn; try lra; repeat constructor; cbn; intuition discriminate|].
  split; [exists (L "B"), (-(1/2)); split; [right; left; reflexivity|lra]|].
  assert (snd (lp_portfolio unit_solver exlps true) = Ok ([(L "A", 30%Z); (L "B", (-5)%Z)], 0)) as S.
  2:{ destruct (lp_portfolio unit_solver exlps true) as [d' o]. cbn in S. subst o. exists d'. reflexivity. }
  rewrite lp_short_unfold by (exists (L "B"), (-(1/2)); split; [right; left; reflexivity|lra]).
  cbv zeta. cbn [exlps da_weights da_total da_short_ratio].
  assert (longs_of [(L "A", 1); (L "B", -(1/2))] = [(L "A", 1)]) as ->.
  { unfold longs_of. cbn. runfold. destruct (Rleb 0 1) eqn:E; rprop; [|lra].
    destruct (Rleb 0 (-(1/2))) eqn:E'; rprop; [lra|reflexivity]. }
  assert (shorts_of [(L "A", 1); (L "B", -(1/2))] = [(L "B", 1/2)]) as ->.
  { unfold shorts_of. cbn. runfold. destruct (Rltb 1 0) eqn:E; rprop; [lra|].
    destruct (Rltb (-(1/2)) 0) eqn:E'; rprop; [|lra]. cbn. do 2 f_equal. lra. }
  assert (forall t x, x <> 0 -> normalise (A:=R) [(t, x)] = Ok [(t, 1)]) as Nm.
  { intros t x Hx. unfold normalise. cbn [map snd]. rewrite vsum1. runfold.
    destruct (Reqb x 0) eqn:E; rprop; [contradiction|]. cbn. do 3 f_equal. field. exact Hx. }
  rewrite !Nm by lra. cbn [rbind].
  assert (sub_da (A:=R) exlps [(L "A", 1)] (100 + 100 * (1/2)) =
          Ok (mkDA [(L "A", 1)] [(L "A", 5)] false (100 + 100 * (1/2)) 0 None)) as E1.
  { unfold sub_da, select_prices. cbn. runfold.
    destruct (Rleb (100 + 100 * (1/2)) 0) eqn:E; rprop; [lra|]. unfold default_short_ratio. cbn. runfold.
    destruct (Rltb 1 0) eqn:E'; rprop; [lra|]. cbn. rewrite vsum_nil. reflexivity. }
  assert (sub_da (A:=R) exlps [(L "B", 1)] (100 * (1/2)) =
          Ok (mkDA [(L "B", 1)] [(L "B", 10)] false (100 * (1/2)) 0 None)) as E2.
  { unfold sub_da, select_prices. cbn. runfold.
    destruct (Rleb (100 * (1/2)) 0) eqn:E; rprop; [lra|]. unfold default_short_ratio. cbn. runfold.
    destruct (Rltb 1 0) eqn:E'; rprop; [lra|]. cbn. rewrite vsum_nil. reflexivity. }
  fold exlps. rewrite E1. cbn [rbind]. rewrite lp_long_only by (intros t x [E|[]]; inversion E; lra).
  unfold lp_long at 1. cbn [da_prices da_weights da_total map snd lp_p lp_w List.length Nat.eqb negb].
  rewrite (unit_answer 5 (100 + 100 * (1/2)) 30) by (try lra; lia).
  cbn [rbind fst map combine]. rewrite E2. cbn [rbind]. rewrite lp_long_only by (intros t x [E|[]]; inversion E; lra).
  unfold lp_long at 1. cbn [da_prices da_weights da_total map snd lp_p lp_w List.length Nat.eqb negb].
  rewrite (unit_answer 10 (100 * (1/2)) 5) by (try lra; lia).
  cbn [rbind fst snd map combine]. runfold. rewrite !Rrint_IZR.
  unfold lp_r, dot. cbn. rewrite !vsum1. do 2 f_equal. lra.
Qed.

(** bars of a long/short portfolio *)
Example bars3 : weight_bars (A:=R) [(L "A", 1/5); (L "B", -(1/10)); (L "C", 9/10)] =
  ([L "C"; L "A"; L "B"], [9/10; 1/5; -(1/10)]).
Proof.
  unfold weight_bars. cbn. runfold.
  repeat (match goal with |- context [Rleb ?a ?b] => destruct (Rleb a b) eqn:?; rprop; try lra end; cbn).
  reflexivity.
Qed.
