(** * Concrete cases meeting the hypotheses of the theorems in PropertiesBase.v *)
From Coq Require Import ZArith List Reals String Lra Lia.
From Verif Require Import Num Py MBase RBase SLin SBase SLabels PBase PropertiesBase.
Import ListNotations.
Local Open Scope R_scope.
Local Open Scope string_scope.

Definition exb : base R := mkBase [LStr "A"; LTup "B" "x"] (Some [3/4; 1/4]).
Example exb_nodup : NoDup (b_tickers exb).
Proof. repeat constructor; simpl; intuition discriminate. Qed.
(** other order, one extra key *)
Example exb_c13 : exists b' out,
  set_weights exb [(LInt 7, 9); (LTup "B" "x", 2); (LStr "A", 5)] = (b', Ok tt) /\
  make_output_weights b' = Ok out /\ out = [(LStr "A", 5); (LTup "B" "x", 2)].
Proof. eexists; eexists. repeat split. Qed.
Example exb_c13_missing : set_weights exb [(LStr "A", 5)] = (exb, Err KeyError).
Proof. apply c13_missing_ticker. exists (LTup "B" "x"). split; [simpl; auto|reflexivity]. Qed.

(** rounding to one decimal: 0.75 -> 0.8 (tie to even), 0.25 -> 0.2 *)
Example exb_c14 : clean_weights exb (1/10) (RdInt 1) = (exb, Ok [(LStr "A", 8/10); (LTup "B" "x", 2/10)]).
Proof.
  rewrite (clean_weights_run exb [3/4; 1/4] _ _ eq_refl) by (right; exists 1%Z; split; [reflexivity|lia]).
  do 2 f_equal. cbn [map]. rewrite !cleaned_above by (rewrite Rabs_right; lra).
  assert (E1 : Rrint (3/4 * IZR (10 ^ 1)) = 8%Z).
  { unfold Rrint. rewrite (Int_part_unique (3/4 * IZR (10 ^ 1)) 7) by (simpl; lra).
    destruct (Rlt_dec _ _); [simpl in *; lra|]. destruct (Rlt_dec _ _); [simpl in *; lra|]. reflexivity. }
  assert (E2 : Rrint (1/4 * IZR (10 ^ 1)) = 2%Z).
  { unfold Rrint. rewrite (Int_part_unique (1/4 * IZR (10 ^ 1)) 2) by (simpl; lra).
    destruct (Rlt_dec _ _); [simpl in *; lra|]. destruct (Rlt_dec _ _); [simpl in *; lra|]. reflexivity. }
  unfold np_round. runfold. rewrite E1, E2. reflexivity.
Qed.

(** performance: two assets, dictionary in another order with an extra key *)
Example exb_c16 :
  let mu := MuSeries [(LStr "A", 1/10); (LStr "B", 2/10)] in
  let cov := CovFrame [LStr "A"; LStr "B"] [[4/100; 0]; [0; 9/100]] in
  let d := [(LStr "B", 1/2); (LStr "Z", 3); (LStr "A", 1/2)] in
  universe mu cov [LStr "A"; LStr "B"] /\
  Forall2 (fun t x => dget t d = Some x \/ dget t d = None /\ x = 0) [LStr "A"; LStr "B"] [1/2; 1/2] /\
  total [1/2; 1/2] <> 0 /\ mu_values mu = Some [1/10; 2/10] /\
  square 2 (cov_values cov) /\ 0 < qform (cov_values cov) [1/2; 1/2].
Proof.
  cbv zeta. split; [apply (u_series [(LStr "A", 1/10); (LStr "B", 2/10)])|]. split; [repeat constructor|].
  split; [simpl; lra|]. split; [reflexivity|]. split; [repeat constructor|].
  unfold qform; simpl. lra.
Qed.

(** file names *)
Example exb_c17_csv : has_ext "my.old.CSV" "csv".
Proof.
  exists "CSV". split; [simpl; repeat split; discriminate|].
  split; [|right; exists "my.old"; reflexivity].
  cbn [same_text]. repeat split; right; (split; [reflexivity|]); cbn; lia.
Qed.
Example exb_c17_json_broken : exists fs' c,
  save_weights_to_file (fun _ => Some (FOld "precious")) exb "w.json" = (fs', exb, Err TypeError) /\
  fs' "w.json" = Some (FJsonCut c).
Proof.
  destruct (clean_weights_ok exb [3/4; 1/4] (1/10000) (RdInt 5) exb_nodup eq_refl eq_refl) as [out [E [Ek _]]];
    [right; exists 5%Z; split; [reflexivity|lia]|].
  destruct (c17_save (fun _ => Some (FOld "precious")) exb [3/4; 1/4] "w.json" out eq_refl E) as [_ H].
  destruct H as [fs' [c [H1 [H2 _]]]].
  - exists "json". split; [simpl; repeat split; discriminate|]. split; [simpl; auto 10|]. right. exists "w". reflexivity.
  - destruct out as [|[k1 x1] [|[k2 x2] out]]; try discriminate Ek. injection Ek as E1 E2 _.
    exists k2, x2. split; [simpl; auto|]. subst k2. reflexivity.
  - eauto.
Qed.
