(** * Concrete cases for the theorems in PropertiesReturns.v *)
From Coq Require Import ZArith List String Bool Reals Lra Lia.
From Verif Require Import Num Py RBase PyLemmas MFrame MReturns SLin SHRP SReturns PropertiesReturns.
Import ListNotations.
Local Open Scope R_scope.

Definition rA := LStr "A". Definition rB := LStr "B".
Definition days := [LInt 1; LInt 2; LInt 3].
Definition px (t : label) : list R := if label_eqb t rA then [100; 110; 121] else [50; 40; 60].
Lemma two_names : forall (P : label -> Prop), P rA -> P rB -> forall t, In t [rA; rB] -> P t.
Proof. intros P Ha Hb t [<-|[<-|[]]]; assumption. Qed.

(** C66, C67: the hypotheses hold for these prices *)
Example px_shape : List.length days = 3%nat /\ (forall t, In t [rA; rB] -> List.length (px t) = 3%nat) /\
  (forall t, In t [rA; rB] -> Forall (fun v => 0 < v) (px t)).
Proof. repeat split; apply two_names; cbn; try reflexivity; repeat (apply Forall_cons; [lra|]); apply Forall_nil. Qed.
Example ex_c66 : simple_returns (px rB) = [40/50 - 1; 60/40 - 1]. Proof. reflexivity. Qed.
Example ex_c67 : growth_rate 252 (px rB) = Rpower (60 / 50) (252 / 2) - 1.
Proof. unfold growth_rate, px. cbn [label_eqb rA rB String.eqb Ascii.eqb Bool.eqb last hd List.length Nat.sub INR]. repeat f_equal; lra. Qed.
Example ex_c67_log : tame (px rA) /\ Exists (fun x => x <> 0) (simple_returns (px rA)).
Proof.
  assert (He : exp (-1) < 1) by (rewrite <- exp_0; apply exp_increasing; lra).
  split.
  - unfold tame, px. cbn [label_eqb rA String.eqb Ascii.eqb Bool.eqb simple_returns]. repeat (apply Forall_cons; [lra|]). apply Forall_nil.
  - unfold px. cbn [label_eqb rA String.eqb Ascii.eqb Bool.eqb simple_returns]. apply Exists_cons_hd. lra.
Qed.
(** pseudo prices lose the first return: mean 1/2 of [1; 1/2; 1/2] instead of 2/3 *)
Example ex_c66_mean : average (tl [1; 1/2; 1/2]) <> average [1; 1/2; 1/2].
Proof. unfold average. cbn [tl total List.length INR]. lra. Qed.

(** C68: span 3 halves the weight per period *)
Example ex_c68 : ema_value 3 [0; 1] = 2/3.
Proof. unfold ema_value, decay_weight. cbn [List.length seq map total nth Nat.sub pow]. field. Qed.
Example ex_c68_nan : ewm_last (1/2) [Some 0; None; Some 1] = Some (4/5).
Proof. unfold ewm_last. cbn [fold_left ewm_step option_map fst]. f_equal. field. Qed.

(** C69 *)
Definition xr (t : label) : list R := if label_eqb t rA then [1/10; 2/10; 3/10] else [1/10; 0; 5/10].
Example ex_c69 : sample_covariance (market 3 [rA; rB] xr) (market 3 [rA; rB] xr) <> 0 /\ Forall (fun v => -1 < v) (market 3 [rA; rB] xr) /\ ~ In mkt [rA; rB].
Proof.
  assert (E : market 3 [rA; rB] xr = [1/10; 1/10; 4/10]).
  { unfold market, average, xr. cbn [seq map label_eqb rA rB String.eqb Ascii.eqb Bool.eqb nth total List.length INR]. repeat (f_equal; try lra). }
  rewrite E. repeat split.
  - unfold sample_covariance, average. cbn [List.length seq map total nth INR]. lra.
  - repeat (apply Forall_cons; [lra|]). apply Forall_nil.
  - cbn. intuition discriminate.
Qed.

(** C80: B has no data *)
Definition noB : frame (option R) := mkFrame days [rA; rB] [[Some (1/10); None]; [Some (1/10); None]; [Some (1/10); None]].
Example ex_c80 : nth_error (f_cols noB) 1 = Some rB /\ (forall x, In x (column (f_rows noB) 1) -> x = None) /\
  exists w s, mean_historical_return noB true true 252 false = Ok (w, s).
Proof.
  split; [reflexivity|]. split; [cbn; intuition|]. unfold mean_historical_return, columns, column, cagr, noB.
  cbn [rbind f_cols f_rows List.length seq map nth mapM present flat_map app count product]. unfold np_pow.
  rewrite (proj2 (Rltb_true 0 _)) by lra. cbn. eexists _, _. reflexivity.
Qed.

(** C81: with the default market and an asset called "mkt" the estimate succeeds without that asset *)
Definition withmkt : frame (option R) := mkFrame days [rA; mkt] [[Some 0; Some 0]; [Some 1; Some 0]; [Some 2; Some 2]].
Example ex_c81 : exists w v, snd (capm_return withmkt None true 0 false 252 false) = Ok (w, [(rA, v)]).
Proof.
  unfold capm_return, withmkt. cbn [snd rbind f_rows map]. unfold set_column.
  assert (P : position mkt (f_cols (mkFrame days [rA; mkt] [[Some 0; Some 0]; [Some 1; Some 0]; [Some 2; Some 2]])) = Some 1%nat) by reflexivity.
  rewrite P. cbn [f_index f_rows f_cols map2 list_set mean present flat_map app].
  unfold capm_estimate, frame_cov, pairwise, columns. cbn [f_index f_cols f_rows List.length seq map column nth].
  unfold loc. cbn [f_index f_cols f_rows position label_eqb rA mkt String.eqb Ascii.eqb Bool.eqb option_map nth_error].
  set (a := mean_of [0; 0]). set (b := mean_of [1; 0]). set (c := mean_of [2; 2]).
  assert (Ea : a = 0) by (unfold a, mean_of; rewrite !vsum_cons, vsum_nil; cbn; lra).
  assert (Eb : b = 1/2) by (unfold b, mean_of; rewrite !vsum_cons, vsum_nil; cbn; lra).
  assert (Ec : c = 2) by (unfold c, mean_of; rewrite !vsum_cons, vsum_nil; cbn; lra).
  unfold pair_cov. cbn [both List.length Nat.leb rbind mapM div_cell].
  assert (Hv : codev [(a, a); (b, b); (c, c)] / (INR 3 - 1) <> 0).
  { unfold codev, mean_of. cbn [map fst snd List.length]. rewrite !vsum_cons, vsum_nil, Ea, Eb, Ec. cbn [INR]. lra. }
  cbn [position label_eqb rA mkt String.eqb Ascii.eqb Bool.eqb option_map nth_error rbind div_cell].
  rewrite (proj2 (Reqb_false _ 0) Hv). cbn [rbind filter combine label_eqb fst rA mkt String.eqb Ascii.eqb Bool.eqb negb map].
  eexists _, _. reflexivity.
Qed.
