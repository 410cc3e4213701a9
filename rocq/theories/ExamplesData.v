(** * Concrete cases for the theorems in PropertiesData.v *)
From Coq Require Import ZArith List String Bool Reals Lra Lia.
From Verif Require Import Num Py RBase PyLemmas MFrame MHRP MReturns MRisk MRisk2 MKwargs SLin SHRP SReturns SRisk SRisk2 SKwargs PropertiesReturns ExamplesReturns PropertiesData.
Import ListNotations.
Local Open Scope R_scope.

(** C66: prices 50, 40, 60: the pseudo prices after the round trip are 1 and 60/40 *)
Example ex_c66_log : exists f, returns_from_prices (history 3 days [rA; rB] px) true = Ok f /\
  exists g, prices_from_returns f true = Ok g /\ g = history 2 (tl days) [rA; rB] (fun t => map (fun v => v / nth 1 (px t) 0) (tl (px t))) /\
  map (fun v => v / nth 1 (px rB) 0) (tl (px rB)) = [40 / 40; 60 / 40].
Proof.
  destruct (c66_log_prices_roundtrip 1 days [rA; rB] px ltac:(discriminate) (proj1 px_shape) (proj1 (proj2 px_shape)) (proj2 (proj2 px_shape))) as [f [H1 H2]].
  exists f. split; [exact H1|]. eexists. split; [exact H2|]. split; reflexivity.
Qed.

(** C104: a gap in the second row; an estimator that answers the identity *)
Definition gap_rows : list (list (option R)) := [[Some 1; Some 2]; [None; Some 5]; [Some 3; Some 5]].
Example ex_c104_rows : complete_rows gap_rows [[1; 2]; [3; 5]].
Proof. apply (cr_keep [1; 2]). apply cr_drop; [left; reflexivity|]. apply (cr_keep [3; 5]). apply cr_nil. Qed.
Definition id2 : list (list R) := [[1; 0]; [0; 1]].
Lemma id2_psd : psd 2 id2.
Proof.
  split; [split; [reflexivity|repeat (apply Forall_cons; [reflexivity|]); apply Forall_nil]|].
  intros [|a [|b [|]]] Hw; try discriminate Hw. unfold qform. cbn.
  assert (0 <= a * a) by apply Rle_0_sqr. assert (0 <= b * b) by apply Rle_0_sqr. lra.
Qed.
Lemma id2_sym : symmetric 2 id2.
Proof. intros i j Hi Hj. destruct i as [|[|i]], j as [|[|j]]; try lia; reflexivity. Qed.
Example ex_c104 : forall eigh, exists M,
  min_cov_determinant eigh (fun _ => id2) (mkFrame (tl days) [rA; rB] gap_rows) true 252 false "spectral" = Ok (mkFrame [rA; rB] [rA; rB] M) /\
  psd 2 M /\ entry M 1 1 = 252 * 1.
Proof.
  intros eigh. destruct (c104_estimate eigh (fun _ => id2) (mkFrame (tl days) [rA; rB] gap_rows) 252 false "spectral" _ ex_c104_rows ltac:(lra) id2_psd id2_sym)
    as [M [H1 [H2 [_ H4]]]].
  exists M. split; [exact H1|]. split; [exact H2|]. apply H4; cbn; lia.
Qed.
Example ex_c104_shape : ~ square 3 id2.
Proof. intros [H _]. discriminate H. Qed.

(** C105 *)
Definition some_kw : kwargs := [("frequency"%string, KNum 12); ("log_returns"%string, KBool true)].
Lemma some_distinct : distinct some_kw.
Proof. apply NoDup_cons; [intros [H|[]]; discriminate H|]. apply NoDup_cons; [intros []|apply NoDup_nil]. Qed.
Example ex_c105 : forall eigh lw oas p, risk_matrix_kw eigh lw oas p "sample_cov" some_kw = sample_cov eigh p false 12 true "spectral".
Proof.
  intros. apply c105_sample_cov; [exact some_distinct|right; split; [intros [H|[H|[]]]; discriminate H|reflexivity]|left; left; reflexivity|left; right; left; reflexivity|].
  right. split; [intros [H|[H|[]]]; discriminate H|reflexivity].
Qed.
Example ex_c105_mean : forall p, return_model_kw p "mean_historical_return" some_kw = mean_historical_return p false true 12 true.
Proof.
  intros. apply c105_mean; [exact some_distinct|intros k [<-|[<-|[]]]; cbn; auto| | | |].
  - right. split; [intros [H|[H|[]]]; discriminate H|reflexivity].
  - right. split; [intros [H|[H|[]]]; discriminate H|reflexivity].
  - left. left. reflexivity.
  - left. right. left. reflexivity.
Qed.
(** a misspelt "frequency" changes nothing for "sample_cov" and is refused by "ledoit_wolf" *)
Example ex_c105_misspelt : forall eigh lw oas p,
  risk_matrix_kw eigh lw oas p "sample_cov" [("frequancy"%string, KNum 12)] = risk_matrix_kw eigh lw oas p "sample_cov" [] /\
  risk_matrix_kw eigh lw oas p "ledoit_wolf" [("frequancy"%string, KNum 12)] = Err TypeError /\
  return_model_kw p "ema_historical_return" [("frequancy"%string, KNum 12)] = Err TypeError.
Proof.
  intros. split; [|split].
  - apply (c105_misspelt_refuted eigh lw oas p "sample_cov" [] [] "frequancy"); [left; reflexivity|]. intros H. cbn in H. intuition discriminate.
  - apply (c105_misspelt eigh lw oas p "ledoit_wolf" _ "frequancy"); [left; reflexivity|left; reflexivity|]. intros H. cbn in H. intuition discriminate.
  - apply (c105_return_misspelt p "ema_historical_return" _ "frequancy"); [right; split; [right; left; reflexivity|]|left; reflexivity]. intros H. cbn in H. intuition discriminate.
Qed.
