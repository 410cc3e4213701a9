(** * Non-vacuity for C119 and C120 *)
From Coq Require Import ZArith List String Bool Reals Lra Lia Arith.
From Verif Require Import Num Py RBase MBase MConvex MEF MFrame MHRP MReturns MRisk SLin SHRP SReturns SRisk SGaps PGaps1 PGaps2 PGaps3 PGaps4 PGapsW PShape PropertiesGaps.
Import ListNotations.
Local Open Scope R_scope.

Definition e_names : list label := [LStr "A"; LStr "B"].
Definition e_dates (n : nat) : list label := map (fun k => LInt (Z.of_nat k)) (seq 0 n).
Definition e_col (l : list (option R)) (k : nat) : option R := nth k l None.
Definition e_tab (a b : list (option R)) (t : label) : nat -> option R := e_col (if label_eqb t (LStr "A") then a else b).

(** prices 1, 2, missing, 4, 8 and 5, missing, missing, missing, missing: only the last period has a return, beside the first *)
Definition e_p := e_tab [Some 1; Some 2; None; Some 4; Some 8] [Some 5; None; None; None; None].
Example ex_c119_returns : returns_from_prices (gappy 5 (e_dates 5) e_names e_p) false =
  Ok (mkFrame [LInt 1; LInt 4] e_names [[Some 1; None]; [Some 1; None]]).
Proof.
  rewrite (c119_returns 4 (e_dates 5) e_names (LInt 0) e_p false); [|reflexivity|].
  - unfold kept. cbn. do 3 f_equal; repeat f_equal; lra.
  - intros t k v [<-|[<-|[]]]; do 5 (destruct k as [|k]; [cbn; intros H; try discriminate H; injection H as <-; cbn; lra|]); cbn; destruct k; discriminate.
Qed.
(** returns (any), 100%, missing, 100%: prices 1, 2, missing, 4 *)
Example ex_c119_prices : prices_from_returns (gappy 4 (e_dates 4) e_names (e_tab [Some 7; Some 1; None; Some 1] [None; Some 0; Some 1; Some (-1)])) false =
  Ok (mkFrame (e_dates 4) e_names [[Some 1; Some 1]; [Some 2; Some 1]; [None; Some 2]; [Some 4; Some 0]]).
Proof. rewrite c119_prices. unfold gappy. f_equal. f_equal. cbn. unfold value, gain. cbn. repeat (f_equal; try lra). Qed.

(** A: 1, missing, 3 (warned about); B: missing, missing, -1 *)
Definition e_x := e_tab [Some 1; None; Some 3] [None; None; Some (-1)].
Lemma e_interrupted : interrupted 3 (e_x (LStr "A")).
Proof. exists 0%nat, 1%nat, 1. repeat split; lia. Qed.
Example ex_c119_mean : mean_historical_return (gappy 3 (e_dates 3) e_names e_x) true false 10 false = Ok (true, [(LStr "A", Some 20); (LStr "B", Some (-10))]).
Proof.
  destruct (c119_mean 3 (e_dates 3) e_names e_x 10 false) as (w & E & W). rewrite E. rewrite (proj2 W) by (exists (LStr "A"); split; [left; reflexivity|exact e_interrupted]).
  unfold numbers, known. cbn. unfold average, value. cbn. repeat f_equal; field.
Qed.
Example ex_c119_mean_compounded : exists v, mean_historical_return (gappy 3 (e_dates 3) e_names e_x) true true 2 false = Ok (true, [(LStr "A", Some v); (LStr "B", Some (-1))]) /\ v = Rpower 8 1 - 1.
Proof.
  destruct (c119_mean_compounded 3 (e_dates 3) e_names e_x 2 false) as (w & v & E & V & W); [lra| |].
  - intros t [<-|[<-|[]]]; unfold numbers, known; cbn; unfold value; cbn; repeat constructor; lra.
  - exists (Rpower 8 1 - 1). split; [|reflexivity]. rewrite E. rewrite (proj2 W) by (exists (LStr "A"); split; [left; reflexivity|exact e_interrupted]).
    destruct (V (LStr "A")) as (_ & _ & VA); [left; reflexivity|]. destruct (V (LStr "B")) as (_ & VB & _); [right; left; reflexivity|]. cbn [map e_names].
    rewrite VA, VB.
    + unfold numbers, known. cbn. unfold value. cbn. replace ((1 + 1) * ((1 + 3) * 1)) with 8 by lra. replace (2 / (1 + 1)) with 1 by field. reflexivity.
    + unfold numbers, known. cbn. unfold value. cbn. left; reflexivity.
    + unfold numbers, known. cbn. discriminate.
    + unfold numbers, known. cbn. unfold value. cbn. repeat constructor; lra.
Qed.
(** span 3: a return loses half its weight per period *)
Example ex_c119_ema : ema_historical_return (gappy 3 (e_dates 3) e_names e_x) true false 3 5 false = Ok (true, [(LStr "A", Some 13); (LStr "B", Some (-5))]).
Proof.
  destruct (c119_ema 3 (e_dates 3) e_names e_x 3 5 false) as (w & E & W); [lia|lra|]. rewrite E. rewrite (proj2 W) by (exists (LStr "A"); split; [left; reflexivity|exact e_interrupted]).
  unfold numbers, known, aged_average, known. cbn. unfold value. cbn. repeat f_equal; field.
Qed.

(** assets on days 0..3; the market on days 3, 1, 0 (in this order) and 9: day 2 has no market return *)
Definition e_r := e_tab [Some 2; Some (-2); Some 5; Some 6] [Some 1; None; Some 1; Some 3].
Definition e_q := e_col [Some 3; Some (-1); Some 1; Some 100].
Definition e_mdates : list label := map LInt [3; 1; 0; 9]%Z.
Definition e_y := e_col [Some 1; Some (-1); None; Some 3].
Lemma e_dated : dated 4 (e_dates 4) e_mdates e_q e_y.
Proof.
  intros k d Hk Hd. split.
  - intros j Hj. do 4 (destruct k as [|k]; [cbn in Hd; injection Hd as <-; do 4 (destruct j as [|j]; [try discriminate Hj; try reflexivity|]); destruct j; discriminate Hj|]). lia.
  - intros N. do 4 (destruct k as [|k]; [cbn in Hd; injection Hd as <-; try reflexivity; exfalso; apply N; cbn; tauto|]). lia.
Qed.
(** the market moves by 1, -1, 3 with mean 1; A moves twice as much; B rises with it by 1 where both are known *)
Example ex_c119_capm : exists w, snd (capm_return (gappy 4 (e_dates 4) e_names e_r) (Some (gappy 4 e_mdates [LStr "SPY"] (fun _ => e_q))) true (1/2) false 1 false) =
  Ok (w, [(LStr "A", Some (3/2)); (LStr "B", Some (3/4))]) /\ w = true.
Proof.
  destruct (c119_capm_market 4 4 (e_dates 4) e_mdates e_names (LStr "SPY") e_r e_q e_y (1/2) false 1 false) as (w & m & E & M & W); try reflexivity.
  - intros [H|[H|[]]]; discriminate H.
  - unfold e_mdates. cbn. repeat constructor; cbn; intuition discriminate.
  - exact e_dated.
  - discriminate.
  - exists w. rewrite E. cbn [snd]. cbn [market_mean] in M. unfold numbers, known in M. cbn in M. unfold average, value in M. cbn in M. subst m. split.
    + unfold capm_value, common_covariance, common. cbn. unfold sample_covariance, average, value. cbn.
      repeat match goal with |- context [Req_EM_T ?a 0] => destruct (Req_EM_T a 0) as [Z|Z]; [exfalso; lra|] end. match goal with |- Ok (_, [(_, Some ?a); (_, Some ?b)]) = _ => replace a with (3/2) by (field; lra); replace b with (3/4) by (field; lra) end. reflexivity.
    + apply W. left. exists 0%nat, 2%nat, 1. repeat split; lia.
Qed.
(** the default market is 2 on the first day and -1 (A alone) on the second; B has one return only, so no estimate *)
Example ex_c119_default : exists m, snd (capm_return (gappy 2 (e_dates 2) e_names (e_tab [Some 2; Some (-1)] [Some 2; None])) None true 0 false 1 false) =
  Ok (true, [(LStr "A", Some m); (LStr "B", None)]) /\ m = 1 / 2.
Proof.
  destruct (c119_capm_default 2 (e_dates 2) e_names (e_tab [Some 2; Some (-1)] [Some 2; None]) 0 false 1 false) as (w & m & E & M & W).
  - intros [H|[H|[]]]; discriminate H.
  - discriminate.
  - exists (1 / 2). rewrite E. cbn [snd]. cbn [market_mean] in M. unfold numbers, known in M. cbn in M. unfold average, value, row_average in M. cbn in M. unfold average, value in M. cbn in M. subst m.
    rewrite (proj2 W) by (right; exists (LStr "B"); split; [right; left; reflexivity|]; exists 0%nat, 1%nat, 2; repeat split; lia). split; [|reflexivity].
    unfold capm_value, common_covariance, common. cbn. unfold sample_covariance, average, value, row_average. cbn. unfold average, value. cbn.
    match goal with |- context [Req_EM_T ?a 0] => destruct (Req_EM_T a 0) as [Z|Z]; [exfalso; lra|] end. match goal with |- Ok (_, [(_, Some ?a); _]) = _ => replace a with (1/2) by (field; lra) end. reflexivity.
Qed.
Example ex_c119_flat : Forall (fun v => v = 1) (numbers 3 (e_col [Some 1; None; Some 1])).
Proof. unfold numbers, known. cbn. unfold value. cbn. repeat constructor. Qed.
Example ex_c119_columns : snd (capm_return (gappy 3 (e_dates 3) e_names e_x) (Some (gappy 3 (e_dates 3) e_names e_x)) true 0 false 1 false) = Err ValueError.
Proof. apply c119_market_columns. discriminate. Qed.

(** prices of two assets on days 0..2 and of a market on days 0, 2: different dates and lengths *)
Example ex_c119_capm_prices : snd (capm_return (history 3 (e_dates 3) e_names (fun t => if label_eqb t (LStr "A") then [1; 2; 4] else [3; 3; 6])) (Some (history 2 [LInt 0; LInt 2] [LStr "SPY"] (fun _ => [1; 2]))) false 0 false 1 false) =
  snd (capm_return (history 2 [LInt 1; LInt 2] e_names (fun t => simple_returns (if label_eqb t (LStr "A") then [1; 2; 4] else [3; 3; 6]))) (Some (history 1 [LInt 2] [LStr "SPY"] (fun _ => simple_returns [1; 2]))) true 0 false 1 false).
Proof.
  apply (c119_capm_market_prices 2 1 (e_dates 3) [LInt 0; LInt 2] e_names (LStr "SPY")); try reflexivity; try discriminate.
  - intros t [<-|[<-|[]]]; reflexivity.
  - intros t [<-|[<-|[]]]; cbn; repeat constructor; lra.
  - repeat constructor; lra.
Qed.

(** A is known on three days, B on four *)
Example ex_c120_sample_cov : forall eigh, sample_cov eigh (gappy 4 (e_dates 4) e_names (e_tab [Some 0; Some 2; Some 4; None] [Some 1; Some 0; Some 1; Some 4])) true 1 false "spectral" =
  Ok (labelled e_names (fun t u => (if label_eqb t (LStr "A") then (if label_eqb u (LStr "A") then 4 else 0) else (if label_eqb u (LStr "A") then 0 else 3)) * 1)).
Proof.
  intros eigh. apply c120_sample_cov.
  - intros t u [<-|[<-|[]]] [<-|[<-|[]]]; unfold common_covariance, common; cbn; unfold sample_covariance, average, value; cbn; f_equal; field.
  - split; [split; [reflexivity|repeat constructor]|]. intros [|a [|b [|c w]]] HL; try discriminate HL. unfold labelled, qform, inner. cbn. nra.
Qed.
Example ex_c120_too_short : forall eigh, sample_cov eigh (gappy 3 (e_dates 3) e_names e_x) true 1 false "spectral" = Err FloatSpecial.
Proof. intros eigh. apply (c120_sample_cov_too_short eigh 3 (e_dates 3) e_names e_x 1 false "spectral" (LStr "A") (LStr "B")); [left; reflexivity|right; left; reflexivity|reflexivity]. Qed.
Example ex_c120_exp_cov : exists c, forall eigh, exp_cov eigh (gappy 3 (e_dates 3) e_names (e_tab [Some 0; Some 2; None] [None; Some 0; Some 0])) true 3 1 false "spectral" = Ok (labelled e_names c) /\ c (LStr "A") (LStr "A") = 1.
Proof.
  eexists. intros eigh. split.
  - apply (c120_exp_cov eigh 3 (e_dates 3) e_names _ 3 1 false "spectral"); [lra| |].
    + intros t u [<-|[<-|[]]] [<-|[<-|[]]]; unfold common; cbn; discriminate.
    + split; [split; [reflexivity|repeat constructor]|]. intros [|a [|b [|d w]]] HL; try discriminate HL. unfold labelled, qform, inner, common_ema, common, numbers, known, average, value. cbn.
      unfold value. cbn. match goal with |- 0 <= ?e => replace e with (a * a) by field end. nra.
  - unfold common_ema, common, numbers, known, average, value. cbn. unfold value. cbn. field.
Qed.
(** an estimator that returns the identity and the sum of what it sees: the missing return counts as 0 *)
Definition e_sk : shrink_oracle := fun X => ([[1; 0]; [0; 1]], entry X 0 0 + entry X 0 1 + entry X 1 0 + entry X 1 1).
Example ex_c120_zero : forall eigh, exists sh, shrinkage_init (gappy 3 (e_dates 3) e_names e_x) true 252 false = Ok sh /\
  oracle_approximating eigh e_sk sh = Ok (mkFrame e_names e_names [[1 * 252; 0 * 252]; [0 * 252; 1 * 252]], 1 + 0 + 3 + -1).
Proof.
  intros eigh. destruct (c120_missing_is_zero eigh e_sk 3 (e_dates 3) e_names e_x 252 false [[1; 0]; [0; 1]] (1 + 0 + 3 + -1)) as (sh & E & O & _); [reflexivity|lra| | | |].
  - unfold e_sk, zero_filled, kept. cbn. unfold value. cbn. reflexivity.
  - split; [split; [reflexivity|repeat constructor]|]. intros [|a [|b [|c w]]] HL; try discriminate HL. unfold qform, inner. cbn. nra.
  - intros [|[|i]] [|[|j]] Hi Hj; cbn in Hi, Hj; try lia; reflexivity.
  - exists sh. split; [exact E|exact O].
Qed.
(** no expected returns, and a covariance of two rows and one column *)
Example ex_c25_wrong_shape : exists w1 o, ef_init (MIn MuNone) (CIn (CovArray [[1]; [1]])) (BPair (Some 0) (Some 1)) (mkWorld [] (fun _ => None) [] 0) = (w1, Ok o) /\
  forall sv, min_volatility sv w1 o = (w1, o, Err ShapeError).
Proof.
  eexists. eexists. split; [reflexivity|]. intros sv. apply c25_wrong_shape. intros [_ S]. cbn in S. inversion S. discriminate.
Qed.
