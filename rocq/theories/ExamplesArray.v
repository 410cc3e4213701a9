(** * Cases meeting the hypotheses of C111 and C112 *)
From Coq Require Import ZArith String List Bool Reals Lra Lia.
From Verif Require Import Num RBase Py PyLemmas MFrame MBase MHRP MReturns MRisk MRisk2 MArray SArray SConv PArray PArray2 PArray3.
Import ListNotations.
Local Open Scope R_scope.
Local Open Scope string_scope.

Definition aD := [LStr "d1"; LStr "d2"; LStr "d3"].
Definition aRows := [[Some 10; Some 50]; [Some 11; Some 40]; [Some 12; None]].
Definition aMkt := [[Some 1]; [Some 2]; [Some 3]].
Definition aF : frame (option R) := mkFrame aD [LStr "A"; LStr "B"] aRows.
Definition aM : frame (option R) := mkFrame aD [LStr "SPY"] aMkt.
Definition aG : frame (option R) := mkFrame [LInt 7; LInt 7; LInt 8] [LStr "X"; LStr "Y"] aRows.
Example ex_c111_same : same_table aF aG /\ f_cols aF <> f_cols aG.
Proof. split; [repeat split|discriminate]. Qed.
Example ex_c111_holds : holds 2 aRows aF /\ holds 1 aMkt aM.
Proof. repeat split. Qed.
Example ex_c111_counted : counted 2 [LInt 0; LInt 1].
Proof. split; [reflexivity|]. intros [|[|i]] H; [reflexivity|reflexivity|lia]. Qed.
Example ex_c111_mean : exists v, snd (mean_historical_return_any (TArray 2 aRows) true false 1 false) = Ok v /\ map fst (snd v) = [LInt 0; LInt 1].
Proof. eexists. split; reflexivity. Qed.
Lemma ad_distinct : NoDup aD.
Proof. repeat constructor; cbn; intuition discriminate. Qed.
Example ex_c111_names : NoDup (f_cols aF) /\ ~ In (LStr "mkt") (f_cols aF).
Proof. split; [repeat constructor; cbn; intuition discriminate|cbn; intuition discriminate]. Qed.
Example ex_c112_calendar : same_calendar aD (f_index aF) (f_index aM).
Proof. split; [exact ad_distinct|]. split; exists 3%nat; reflexivity. Qed.
Example ex_c111_aligned : aligned_alike (range_labels 3) (range_labels 3) (f_index aF) (f_index aM).
Proof. exact (calendar_alike aD _ _ 3 3 ex_c112_calendar). Qed.
Example ex_c112_returns : (exists x, returns_from_prices aF false = Ok x) /\ (exists y, returns_from_prices (frame_of (TArray 1 aMkt)) false = Ok y).
Proof.
  split; rewrite returns_rows; cbn [f_rows aF aRows frame_of aMkt rows_of pct_rows pct_row];
    unfold pct_cell; repeat match goal with |- context [Reqb ?a 0] => replace (Reqb a 0) with false by (symmetry; apply Reqb_false; lra) end; cbn [rbind]; eexists; reflexivity.
Qed.
Example ex_c112_dates : (forall i, ~ In (LInt i) (f_index aF)) /\ rectangular aF /\ disjoint_labels (f_index aF) (range_labels 3).
Proof.
  split; [intros i; cbn; intuition discriminate|]. split; [repeat constructor|].
  intros l H. cbn in H. cbn. intuition (subst; discriminate).
Qed.
Example ex_c112_series : Some (LStr "SPY") <> Some (LStr "mkt") /\ ~ In (LStr "mkt") (f_cols (frame_of (TFrame aF))).
Proof. split; [discriminate|exact (proj2 ex_c111_names)]. Qed.

(** C111: a Series with and one without a name *)
Example ex_c111_series : one_column aD (Some (LStr "SPY")) [Some 1; Some 2; None] (mkFrame aD [LStr "SPY"] [[Some 1]; [Some 2]; [None]]).
Proof. split; [reflexivity|]. split; [exists (LStr "SPY"); split; [reflexivity|left; reflexivity]|repeat constructor]. Qed.
Example ex_c111_nameless : one_column aD None [Some 1; Some 2; None] (mkFrame aD [LInt 0] [[Some 1]; [Some 2]; [None]]).
Proof. split; [reflexivity|]. split; [exists (LInt 0); split; [reflexivity|right; split; reflexivity]|repeat constructor]. Qed.
