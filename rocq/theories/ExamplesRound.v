(** * Concrete cases for C118: runs in arithmetic with 53 binary digits *)
From Coq Require Import ZArith List String Bool Reals Lra Lia.
From Verif Require Import Num Py RBase MAlloc SAlloc SLin MBase MFrame MHRP SHRP MRound SRound PRound1 PRound2 PRoundW PropertiesRound.
Import ListNotations.
Local Open Scope R_scope.

Local Transparent vsum.
Local Opaque b53.

Definition rA : label := LStr "A". Definition rB : label := LStr "B".
Definition rcov : frame R := mkFrame [rA; rB] [rA; rB] [[1; 0]; [0; 3]].

Lemma rAB_nodup : NoDup [rA; rB].
Proof. constructor; [intros [H|[]]; discriminate|]. constructor; [intros []|constructor]. Qed.

Lemma b53_third : b53 (1 / 3) <> 0.
Proof.
  intros H. pose proof (b53_accurate (1 / 3)) as A. rewrite H in A. rewrite (Rabs_left (0 - 1 / 3)), (Rabs_pos_eq (1 / 3)) in A by lra. 
  assert (/ 2 ^ 53 < 1) by (rewrite <- Rinv_1; apply Rinv_lt_contravar; [rewrite Rmult_1_l; apply pow_lt; lra|apply Rlt_pow_R1; [lra|lia]]). lra.
Qed.

Lemma single_var : forall t v, @loc R rcov t t = Ok v -> v <> 0 -> b53 (1 / v) <> 0 -> b53 v = v -> @cluster_var R (RndNum b53) rcov [t] = Ok v.
Proof.
  intros t v L Hv Hi Hf. unfold cluster_var. cbn [mapM rbind]. rewrite L. cbn [rbind mapM].
  change (@neqb R (RndNum b53) v (@n0 R (RndNum b53))) with (Reqb v 0). rewrite (proj2 (Reqb_false v 0) Hv). cbn [rbind].
  change (@ndiv R (RndNum b53) (@n1 R (RndNum b53)) v) with (b53 (1 / v)). set (i := b53 (1 / v)) in *.
  change (@vsum R (RndNum b53) [i]) with (b53 (0 + i)).
  assert (Ei : b53 (0 + i) = i) by (rewrite Rplus_0_l; unfold i; apply (rnd_idem b53 b53_rounding)). rewrite Ei.
  change (@neqb R (RndNum b53) i (@n0 R (RndNum b53))) with (Reqb i 0). rewrite (proj2 (Reqb_false i 0) Hi).
  cbn [map]. change (@ndiv R (RndNum b53) i i) with (b53 (i / i)). replace (i / i) with 1 by (field; exact Hi). rewrite (rnd_1 b53 b53_rounding).
  change (@quad R (RndNum b53) [[v]] [1]) with (b53 (0 + b53 (1 * b53 (0 + b53 (v * 1))))).
  rewrite Rmult_1_r, Hf, !Rplus_0_l, Hf, Rmult_1_l, !Hf. reflexivity.
Qed.

Example ex_c118_hrp : @raw_hrp_allocation R (RndNum b53) rcov [rA; rB] = Ok [(rA, 3 / 4); (rB, 1 / 4)].
Proof.
  assert (F1 : b53 1 = 1) by (apply (b53_int 1); reflexivity). assert (F3 : b53 3 = 3) by (apply (b53_int 3); reflexivity).
  assert (F4 : b53 4 = 4) by (apply (b53_int 4); reflexivity).
  assert (Q1 : b53 (1 / 4) = 1 / 4) by (apply (b53_quarter 1); reflexivity). assert (Q3 : b53 (3 / 4) = 3 / 4) by (apply (b53_quarter 3); reflexivity).
  assert (V1 : @cluster_var R (RndNum b53) rcov [rA] = Ok 1).
  { apply single_var; [reflexivity|lra| |exact F1]. replace (1 / 1) with 1 by field. rewrite F1. lra. }
  assert (V2 : @cluster_var R (RndNum b53) rcov [rB] = Ok 3) by (apply single_var; [reflexivity|lra|exact b53_third|exact F3]).
  assert (S : @split_share R (RndNum b53) rcov [rA] [rB] = Ok (3 / 4)).
  { unfold split_share. rewrite V1, V2. cbn [rbind]. change (@nadd R (RndNum b53) 1 3) with (b53 (1 + 3)). replace (1 + 3) with 4 by ring. rewrite F4.
    change (@neqb R (RndNum b53) 4 (@n0 R (RndNum b53))) with (Reqb 4 0). rewrite (proj2 (Reqb_false 4 0)) by lra.
    change (Ok (b53 (1 - b53 (1 / 4))) = Ok (3 / 4)). rewrite Q1. replace (1 - 1 / 4) with (3 / 4) by field. rewrite Q3. reflexivity. }
  unfold raw_hrp_allocation. cbn [List.length Nat.add hrp_loop]. change (bisect [[rA; rB]]) with [[rA]; [rB]]. cbn [pair_steps]. rewrite S. cbn [rbind].
  change (bisect [[rA]; [rB]]) with (@nil (list label)). cbn [pair_steps rbind].
  change (Ok [(rA, b53 (1 * (3 / 4))); (rB, b53 (1 * b53 (1 - 3 / 4)))] = Ok [(rA, 3 / 4); (rB, 1 / 4)]).
  replace (1 - 3 / 4) with (1 / 4) by field. rewrite Q1, !Rmult_1_l, Q1, Q3. reflexivity.
Qed.
(** the hypotheses of the theorem hold, and it bounds the weights *)
Example ex_c118_hrp_bound : Rabs (total [3 / 4; 1 / 4] - 1) <= 3 * / 2 ^ 53.
Proof.
  assert (H53 : 0 < / 2 ^ 53 <= 1).
  { split; [apply Rinv_0_lt_compat, pow_lt; lra|]. rewrite <- Rinv_1. apply Rinv_le_contravar; [lra|apply pow_R1_Rle; lra]. }
  destruct (c118_hrp_nonnegative_covariances b53 (/ 2 ^ 53) rcov [rA; rB] [(rA, 3 / 4); (rB, 1 / 4)] b53_rounding b53_accurate ltac:(lra)) as (_ & _ & B); [| |exact ex_c118_hrp|].
  - exact rAB_nodup.
  - intros t s x [<-|[<-|[]]] [<-|[<-|[]]] E; cbn in E; inversion E; lra.
  - specialize (B 1%nat ltac:(discriminate) ltac:(cbn; lia)). cbn [map snd] in B. lra.
Qed.

Definition rda : da (A := R) := mkDA [(rA, 2 / 4); (rB, 2 / 4)] [(rA, 2); (rB, 4)] false 10 0 None.
Lemma rtrunc_at : forall x z, (0 <= z)%Z -> IZR z <= x < IZR z + 1 -> Rtrunc x = z.
Proof.
  intros x z Hz H. assert (Hx : 0 <= x) by (apply IZR_le in Hz; lra). destruct (Rtrunc_nonneg x Hx) as [_ [A B]].
  assert (Rtrunc x < z + 1)%Z by (apply lt_IZR; rewrite plus_IZR; lra). assert (z < Rtrunc x + 1)%Z by (apply lt_IZR; rewrite plus_IZR; lra). lia.
Qed.

Example ex_c118_greedy : snd (@greedy_portfolio R (RndNum b53) 3 rda false) = Ok ([(rA, 2%Z); (rB, 1%Z)], 2).
Proof.
  assert (F2 : b53 2 = 2) by (apply (b53_int 2); reflexivity). assert (F4 : b53 4 = 4) by (apply (b53_int 4); reflexivity).
  assert (F1 : b53 1 = 1) by (apply (b53_int 1); reflexivity). assert (F5 : b53 5 = 5) by (apply (b53_int 5); reflexivity).
  assert (F6 : b53 6 = 6) by (apply (b53_int 6); reflexivity). assert (F8 : b53 8 = 8) by (apply (b53_int 8); reflexivity).
  assert (F0 : b53 0 = 0) by (apply (b53_int 0); reflexivity).
  assert (Q10 : b53 (10 / 4) = 10 / 4) by (apply (b53_quarter 10); reflexivity). assert (Q5 : b53 (5 / 4) = 5 / 4) by (apply (b53_quarter 5); reflexivity).
  assert (Q2 : b53 (2 / 4) = 2 / 4) by (apply (b53_quarter 2); reflexivity).
  assert (FR : @first_round R (RndNum b53) [(rA, 2); (rB, 4)] 10 [(rA, 2 / 4); (rB, 2 / 4)] 10 = Ok (2, [2%Z; 1%Z], [2; 4])).
  { cbn [first_round]. change (dgetE rA [(rA, 2); (rB, 4)]) with (Ok 2). change (dgetE rB [(rA, 2); (rB, 4)]) with (Ok 4). cbn [rbind].
    change (@neqb R (RndNum b53)) with Reqb. change (@n0 R (RndNum b53)) with 0. change (@nleb R (RndNum b53)) with Rleb. change (@ntrunc R (RndNum b53)) with Rtrunc.
    rewrite (proj2 (Reqb_false 2 0)), (proj2 (Reqb_false 4 0)) by lra.
    change (@ndiv R (RndNum b53) (@nmul R (RndNum b53) (2 / 4) 10) 2) with (b53 (b53 (2 / 4 * 10) / 2)).
    change (@ndiv R (RndNum b53) (@nmul R (RndNum b53) (2 / 4) 10) 4) with (b53 (b53 (2 / 4 * 10) / 4)).
    replace (2 / 4 * 10) with 5 by field. rewrite F5. replace (5 / 2) with (10 / 4) by field. rewrite Q10, Q5.
    rewrite (rtrunc_at (10 / 4) 2), (rtrunc_at (5 / 4) 1) by (lia || lra).
    change (@nmul R (RndNum b53) (@nofZ R (RndNum b53) 2) 2) with (b53 (b53 2 * 2)). change (@nmul R (RndNum b53) (@nofZ R (RndNum b53) 1) 4) with (b53 (b53 1 * 4)).
    rewrite F2, F1. replace (2 * 2) with 4 by ring. replace (1 * 4) with 4 by ring. rewrite F4.
    change (@nsub R (RndNum b53) 10 4) with (b53 (10 - 4)). replace (10 - 4) with 6 by ring. rewrite F6.
    change (@nsub R (RndNum b53) 6 4) with (b53 (6 - 4)). replace (6 - 4) with 2 by ring. rewrite F2.
    unfold Rleb. destruct (Rle_dec 4 10); [|lra]. destruct (Rle_dec 4 6); [|lra]. reflexivity. }
  assert (D : @deficits R (RndNum b53) [(rA, 2 / 4); (rB, 2 / 4)] [2; 4] [2%Z; 1%Z] = Ok [Some 0; Some 0]).
  { unfold deficits. cbn [map2]. change (@nmul R (RndNum b53) 2 (@nofZ R (RndNum b53) 2)) with (b53 (2 * b53 2)). change (@nmul R (RndNum b53) 4 (@nofZ R (RndNum b53) 1)) with (b53 (4 * b53 1)).
    rewrite F2, F1. replace (2 * 2) with 4 by ring. replace (4 * 1) with 4 by ring. rewrite F4.
    change (@vsum R (RndNum b53) [4; 4]) with (b53 (b53 (0 + 4) + 4)). rewrite Rplus_0_l, F4. replace (4 + 4) with 8 by ring. rewrite F8.
    change (@neqb R (RndNum b53)) with Reqb. change (@n0 R (RndNum b53)) with 0. rewrite (proj2 (Reqb_false 8 0)) by lra. cbn [snd].
    change (@ndiv R (RndNum b53) 4 8) with (b53 (4 / 8)). replace (4 / 8) with (2 / 4) by field. rewrite Q2.
    change (@nsub R (RndNum b53) (2 / 4) (2 / 4)) with (b53 (2 / 4 - 2 / 4)). replace (2 / 4 - 2 / 4) with 0 by ring. rewrite F0. reflexivity. }
  assert (SW : @sort_weights R (RndNum b53) (da_weights rda) = da_weights rda).
  { cbn. unfold Rleb. destruct (Rle_dec (2 / 4) (2 / 4)); [reflexivity|lra]. }
  unfold greedy_portfolio. cbn [greedy_at]. rewrite SW. change (set_weights_da rda (da_weights rda)) with rda.
  change (last_weight (da_weights rda)) with (Some (2 / 4)).
  assert (C1 : @nltb R (RndNum b53) (2 / 4) (@n0 R (RndNum b53)) = false) by (cbn; unfold Rltb; destruct (Rlt_dec (2 / 4) 0); [lra|reflexivity]).
  cbv iota beta zeta. rewrite C1. cbv iota. unfold greedy_long.
  change (da_prices rda) with [(rA, 2); (rB, 4)]. change (da_weights rda) with [(rA, 2 / 4); (rB, 2 / 4)]. change (da_total rda) with 10. rewrite FR. cbn [rbind second_round].
  assert (C2 : @nltb R (RndNum b53) (@n0 R (RndNum b53)) 2 = true) by (cbn; unfold Rltb; destruct (Rlt_dec 0 2); [reflexivity|lra]).
  rewrite C2. change (da_int rda) with false. cbv iota. rewrite D. cbn [rbind].
  assert (AM : @argmax R (RndNum b53) [Some 0; Some 0] = 0%nat) by (cbn; unfold Rleb; destruct (Rle_dec 0 0); [reflexivity|lra]). rewrite AM. cbn [nth_error].
  change (dgetE rA [(rA, 2); (rB, 4)]) with (Ok 2). cbn [rbind]. unfold inner_fuel. cbn [MAlloc.inner].
  assert (C3 : @nltb R (RndNum b53) 2 2 = false) by (cbn; unfold Rltb; destruct (Rlt_dec 2 2); [lra|reflexivity]).
  rewrite C3. cbn [rbind].
  assert (FN : @fnonpos R (RndNum b53) (@at_idx R (RndNum b53) [Some 0; Some 0] 0) = true) by (cbn; unfold Rleb; destruct (Rle_dec 0 0); [reflexivity|lra]).
  rewrite FN. cbn [orb rbind snd]. reflexivity.
Qed.
Example ex_c118_greedy_bound : exists d' : da (A := R), @greedy_portfolio R (RndNum b53) 3 rda false = (d', Ok ([(rA, 2%Z); (rB, 1%Z)], 2)) /\
  Rabs (alloc_value (da_prices rda) [(rA, 2%Z); (rB, 1%Z)] + 2 - 10) <= / 2 ^ 53 * 130.
Proof.
  assert (H53 : 0 < / 2 ^ 53 <= 1 / 4).
  { split; [apply Rinv_0_lt_compat, pow_lt; lra|]. replace (1 / 4) with (/ 2 ^ 2) by (cbn; lra). apply Rinv_le_contravar; [apply pow_lt; lra|]. apply Rle_pow; [lra|lia]. }
  pose proof ex_c118_greedy as E. destruct (@greedy_portfolio R (RndNum b53) 3 rda false) as [d' r] eqn:G. cbn [snd] in E. subst r. exists d'. split; [reflexivity|].
  assert (V : valid_da rda).
  { split; [exact rAB_nodup|]. cbn. lra. }
  assert (L : long_only (da_weights rda)) by (intros t x [H|[H|[]]]; inversion H; lra).
  assert (P : positive_prices (da_prices rda)) by (intros t x [H|[H|[]]]; inversion H; lra).
  assert (T : b53 (da_total rda) = da_total rda) by (apply (b53_int 10); reflexivity).
  destruct (c118_greedy b53 (/ 2 ^ 53) 3 rda false d' _ _ b53_rounding b53_accurate ltac:(lra) V L P T G) as (_ & _ & _ & B).
  eapply Rle_trans; [exact B|]. cbn [da_total rda da_weights List.length share_count fold_right snd INR]. lra.
Qed.
