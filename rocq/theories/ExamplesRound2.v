(** * Concrete cases for C127: runs in arithmetic with 53 binary digits *)
From Coq Require Import ZArith List String Bool Reals Lra Lia.
From Verif Require Import Num Py RBase PyLemmas MAlloc SAlloc SReport MBase MRound SRound SRound2 PRound1 PRound2 PRound3 PRoundW ExamplesRound PropertiesRound2.
Import ListNotations.
Local Open Scope R_scope.

Local Transparent vsum.
Local Opaque b53.

Lemma half53 : 0 < / 2 ^ 53 <= 1 / 4.
Proof.
  split; [apply Rinv_0_lt_compat, pow_lt; lra|]. replace (1 / 4) with (/ 2 ^ 2) by (cbn; lra). apply Rinv_le_contravar; [apply pow_lt; lra|]. apply Rle_pow; [lra|lia].
Qed.

(** one asset whose price divides the money *)
Lemma one_asset : forall t p k sr, (0 < k)%Z -> 0 < p -> b53 (IZR k) = IZR k -> b53 (IZR k * p) = IZR k * p ->
  snd (@greedy_at R (RndNum b53) 1 1 (mkDA [(t, 1)] [(t, p)] false (IZR k * p) sr None) false) = Ok ([(t, k)], 0).
Proof.
  intros t p k sr Hk Hp Fk Fkp. cbn [greedy_at set_weights_da da_weights]. unfold sort_weights, isort. cbn [fold_right insert].
  change (last_weight [(t, 1)]) with (Some 1).
  assert (C1 : @nltb R (RndNum b53) 1 (@n0 R (RndNum b53)) = false) by (cbn; unfold Rltb; destruct (Rlt_dec 1 0); [lra|reflexivity]).
  cbv iota beta zeta. rewrite C1. cbv iota. unfold greedy_long. cbn [da_prices da_total da_weights da_int set_weights_da].
  assert (Pk : 0 < IZR k) by (apply IZR_lt; exact Hk). assert (Pt : 0 < IZR k * p) by (apply Rmult_lt_0_compat; assumption).
  assert (FR : @first_round R (RndNum b53) [(t, p)] (IZR k * p) [(t, 1)] (IZR k * p) = Ok (0, [k], [p])).
  { cbn [first_round]. unfold dgetE. cbn [dget]. rewrite label_eqb_refl. cbn [rbind].
    change (@neqb R (RndNum b53) p (@n0 R (RndNum b53))) with (Reqb p 0). rewrite (proj2 (Reqb_false p 0)) by lra.
    change (@ntrunc R (RndNum b53) (@ndiv R (RndNum b53) (@nmul R (RndNum b53) 1 (IZR k * p)) p)) with (Rtrunc (b53 (b53 (1 * (IZR k * p)) / p))).
    rewrite Rmult_1_l, Fkp. replace (IZR k * p / p) with (IZR k) by (field; lra). rewrite Fk. rewrite (rtrunc_at (IZR k) k) by (lia || lra).
    change (@nmul R (RndNum b53) (@nofZ R (RndNum b53) k) p) with (b53 (b53 (IZR k) * p)). rewrite Fk, Fkp.
    change (@nleb R (RndNum b53) (IZR k * p) (IZR k * p)) with (Rleb (IZR k * p) (IZR k * p)). rewrite (proj2 (Rleb_true (IZR k * p) (IZR k * p))) by lra.
    change (@nsub R (RndNum b53) (IZR k * p) (IZR k * p)) with (b53 (IZR k * p - IZR k * p)). replace (IZR k * p - IZR k * p) with 0 by ring.
    rewrite (b53_int 0) by reflexivity. reflexivity. }
  rewrite FR. cbn [rbind second_round].
  assert (C2 : @nltb R (RndNum b53) (@n0 R (RndNum b53)) 0 = false) by (cbn; unfold Rltb; destruct (Rlt_dec 0 0); [lra|reflexivity]).
  rewrite C2. cbn [rbind snd map fst combine dict_of_pairs fold_left dset remove_zero_positions filter].
  destruct k; try lia. reflexivity.
Qed.

Definition lsda : da (A := R) := mkDA [(rA, 2 / 4); (rB, - (2 / 4))] [(rA, 5); (rB, 5)] false 10 (2 / 4) None.

Lemma lsda_short : has_short (da_weights lsda).
Proof. exists rB, (- (2 / 4)). split; [right; left; reflexivity|lra]. Qed.

Example ex_c127_long_short : snd (@greedy_portfolio R (RndNum b53) 1 lsda false) = Ok ([(rA, 2%Z); (rB, (-1)%Z)], 0).
Proof.
  assert (Q2 : b53 (2 / 4) = 2 / 4) by (apply (b53_quarter 2); reflexivity).
  assert (F1 : b53 1 = 1) by (apply (b53_int 1); reflexivity). assert (F5 : b53 5 = 5) by (apply (b53_int 5); reflexivity).
  assert (F2 : b53 2 = 2) by (apply (b53_int 2); reflexivity). assert (F10 : b53 10 = 10) by (apply (b53_int 10); reflexivity).
  rewrite (greedy_short_rounded_unfold b53 1 lsda false lsda_short). cbv zeta.
  assert (SW : sort_weights (da_weights lsda) = da_weights lsda).
  { cbn. unfold Rleb. destruct (Rle_dec (- (2 / 4)) (2 / 4)); [reflexivity|lra]. }
  rewrite SW. change (set_weights_da lsda (da_weights lsda)) with lsda.
  assert (L : longs_of (da_weights lsda) = [(rA, 2 / 4)]).
  { cbn. unfold Rleb. destruct (Rle_dec 0 (2 / 4)); [|lra]. destruct (Rle_dec 0 (- (2 / 4))); [lra|reflexivity]. }
  assert (S : shorts_of (da_weights lsda) = [(rB, 2 / 4)]).
  { cbn. unfold Rltb. destruct (Rlt_dec (2 / 4) 0); [lra|]. destruct (Rlt_dec (- (2 / 4)) 0); [|lra]. cbn. rewrite Ropp_involutive. reflexivity. }
  rewrite L, S.
  assert (NM : forall t, @normalise R (RndNum b53) [(t, 2 / 4)] = Ok [(t, 1)]).
  { intros t. unfold normalise. cbn [map snd]. change (@vsum R (RndNum b53) [2 / 4]) with (b53 (0 + 2 / 4)). rewrite Rplus_0_l, Q2.
    change (@neqb R (RndNum b53) (2 / 4) (@n0 R (RndNum b53))) with (Reqb (2 / 4) 0). rewrite (proj2 (Reqb_false (2 / 4) 0)) by lra.
    cbn [fst]. change (@ndiv R (RndNum b53) (2 / 4) (2 / 4)) with (b53 (2 / 4 / (2 / 4))). replace (2 / 4 / (2 / 4)) with 1 by field. rewrite F1. reflexivity. }
  rewrite !NM. cbn [rbind]. change (da_total lsda) with 10. change (da_short_ratio lsda) with (2 / 4). replace (10 * (2 / 4)) with 5 by field. rewrite F5.
  assert (SD : forall t T, dget t (da_prices lsda) = Some 5 -> 0 < T -> exists sr, @sub_da R (RndNum b53) lsda [(t, 1)] T = Ok (mkDA [(t, 1)] [(t, 5)] false T sr None)).
  { intros t T E HT. unfold sub_da, select_prices. cbn [map fst mapM]. unfold dgetE. rewrite E. cbn [rbind mapM some_dict map fst snd].
    unfold da_init. cbn [all_some]. change (@nleb R (RndNum b53) T (@n0 R (RndNum b53))) with (Rleb T 0). rewrite (proj2 (Rleb_false T 0)) by lra. eexists. reflexivity. }
  destruct (SD rA 10 eq_refl ltac:(lra)) as [sr1 E1]. destruct (SD rB 5 eq_refl ltac:(lra)) as [sr2 E2]. rewrite E1, E2. cbn [rbind].
  pose proof (one_asset rA 5 2 sr1 ltac:(lia) ltac:(lra) F2) as O1. replace (IZR 2 * 5) with 10 in O1 by ring. rewrite (O1 F10). cbn [rbind].
  pose proof (one_asset rB 5 1 sr2 ltac:(lia) ltac:(lra) F1) as O2. replace (IZR 1 * 5) with 5 in O2 by ring. rewrite (O2 F5). cbn [rbind fst snd].
  rewrite Rplus_0_l, (b53_int 0) by reflexivity. reflexivity.
Qed.

Example ex_c127_long_short_bound : exists d' : da (A := R), @greedy_portfolio R (RndNum b53) 1 lsda false = (d', Ok ([(rA, 2%Z); (rB, (-1)%Z)], 0)) /\
  Rabs (gross_value (da_prices lsda) [(rA, 2%Z); (rB, (-1)%Z)] + 0 - 15) <= / 2 ^ 53 * 390.
Proof.
  pose proof half53 as H53. pose proof ex_c127_long_short as E. destruct (@greedy_portfolio R (RndNum b53) 1 lsda false) as [d' r] eqn:G. cbn [snd] in E. subst r. exists d'. split; [reflexivity|].
  assert (V : valid_da lsda) by (split; [exact rAB_nodup|]; cbn; lra).
  assert (P : positive_prices (da_prices lsda)) by (intros t x [H|[H|[]]]; inversion H; lra).
  assert (T : b53 (da_total lsda) = da_total lsda) by (apply (b53_int 10); reflexivity).
  destruct (c127_long_short b53 (/ 2 ^ 53) 1 lsda false d' _ _ b53_rounding b53_accurate ltac:(lra) V lsda_short P T G) as (_ & _ & _ & B & _).
  cbv zeta in B. change (da_total lsda + da_total lsda * da_short_ratio lsda) with (10 + 10 * (2 / 4)) in B.
  replace (10 + 10 * (2 / 4)) with 15 in B by field. eapply Rle_trans; [exact B|].
  unfold gross_count. cbn [da_weights lsda List.length fold_right snd INR Z.abs]. lra.
Qed.

(** weights 0.75 and -0.00001 with one decimal: 0.8 (0.75 is a tie, to even) up to one rounding, and 0 *)
Definition cbase : base R := mkBase [rA; rB] (Some [3 / 4; - (1 / 100000)]).
Example ex_c127_clean : exists y, @clean_weights R (RndNum b53) cbase (1 / 10000) (RdInt 1) = (cbase, Ok [(rA, y); (rB, 0)]) /\ y = b53 (8 / 10).
Proof.
  assert (F10 : b53 10 = 10) by (apply (b53_int 10); reflexivity). assert (F8 : b53 8 = 8) by (apply (b53_int 8); reflexivity).
  assert (F0 : b53 0 = 0) by (apply (b53_int 0); reflexivity). assert (Q : b53 (30 / 4) = 30 / 4) by (apply (b53_quarter 30); reflexivity).
  unfold clean_weights. cbn [b_weights cbase map]. unfold nabs.
  change (@nltb R (RndNum b53)) with Rltb. change (@n0 R (RndNum b53)) with 0. change (@nopp R (RndNum b53)) with Ropp.
  unfold Rltb. destruct (Rlt_dec (3 / 4) 0); [lra|]. destruct (Rlt_dec (3 / 4) (1 / 10000)); [lra|].
  destruct (Rlt_dec (- (1 / 100000)) 0); [|lra]. destruct (Rlt_dec (- - (1 / 100000)) (1 / 10000)); [|lra].
  change (1 <? 1)%Z with false. cbv iota. unfold np_round.
  change (10 ^ 1)%Z with 10%Z. change (@nofZ R (RndNum b53)) with (fun z => b53 (IZR z)). change (@nrint R (RndNum b53)) with Rrint.
  change (@nmul R (RndNum b53)) with (fun x y => b53 (x * y)). change (@ndiv R (RndNum b53)) with (fun x y => b53 (x / y)). cbv beta. rewrite F10.
  replace (3 / 4 * 10) with (30 / 4) by field. rewrite Q, Rmult_0_l, F0, (Rrint_IZR 0).
  assert (R : Rrint (30 / 4) = 8%Z).
  { pose proof (Rrint_close (30 / 4)) as C. unfold Rabs in C.
    assert (A : (Rrint (30 / 4) = 7 \/ Rrint (30 / 4) = 8)%Z).
    { assert (7 <= IZR (Rrint (30 / 4)) <= 8) as [X Y] by (destruct (Rcase_abs (30 / 4 - IZR (Rrint (30 / 4)))); lra). apply le_IZR in X, Y. lia. }
    destruct A as [A|A]; [|exact A]. exfalso. pose proof (PBase.Rrint_tie (30 / 4)) as T. rewrite A in T. assert (Z.Even 7) as [k Hk] by (apply T; rewrite Rabs_pos_eq; lra). lia. }
  rewrite R, F8, F0. exists (b53 (8 / 10)). split; [|reflexivity].
  replace (0 / 10) with 0 by field. rewrite F0. reflexivity.
Qed.
Example ex_c127_clean_hypotheses : decimals b53 (Some 5%Z) /\ NoDup (b_tickers cbase) /\ 8 * / 2 ^ 53 * (2 * Rabs (3 / 4 * IZR (10 ^ 5)) + 1) < 1.
Proof.
  split; [split; [lia|apply (b53_int (10 ^ 5)); reflexivity]|]. split; [exact rAB_nodup|].
  change (10 ^ 5)%Z with 100000%Z. rewrite Rabs_pos_eq by lra. apply Rmult_lt_reg_l with (2 ^ 53); [apply pow_lt; lra|].
  replace (2 ^ 53 * (8 * / 2 ^ 53 * (2 * (3 / 4 * 100000) + 1))) with (8 * (2 * (3 / 4 * 100000) + 1)) by (field; apply pow_nonzero; lra).
  assert (2 ^ 30 <= 2 ^ 53) by (apply Rle_pow; [lra|lia]). assert (IZR (2 ^ 30) = 2 ^ 30) by (rewrite (pow_IZR 2 30); reflexivity).
  change (2 ^ 30)%Z with 1073741824%Z in H0. lra.
Qed.
