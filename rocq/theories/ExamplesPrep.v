(** * Concrete cases for the theorems in PropertiesPrep.v *)
From Coq Require Import ZArith List String Bool Reals Lra Lia.
From Verif Require Import Num Py RBase PBase MBase MConvex MEF SLin SBase SConvex SPrep PConvex PEF PEF2 PEF3 PEF4 PEFW PDownW PropertiesFound PropertiesPrep ExamplesFound.
Import ListNotations.
Local Open Scope R_scope.

(** C102: two uncorrelated assets; an L2 term, a limit of 2/5 for the first asset, at least 1/10 in its sector *)
Definition steps3 : list preparation :=
  [AddObjective (fun v => L2_reg_e (EVar v) 1); AddConstraint (fun v => CIneq (EIndex [0%nat] (EVar v)) (EConst [2/5]));
   AddSectors [(LInt 0, "tech"%string)] [("tech"%string, 1/10)] []].
Example ex_c102_sensible : Forall (sensible (e_w oF) (List.length (w_params two_world))) steps3.
Proof.
  constructor; [split; [intros s ps; reflexivity|constructor]|]. constructor; [constructor|]. constructor; [exact I|constructor].
Qed.
Example ex_c102_init : ef_init (MIn (MuArray [1/5; 1/10])) (CIn (CovArray [[1; 0]; [0; 1]])) (BPair (Some 0) (Some 1)) empty_world = (two_world, Ok oF).
Proof. apply two_ok. Qed.
(** the call succeeds *)
Example ex_c102 : exists w2 o2 w3 o3 d, forM steps3 prepare two_world oF = (w2, o2, Ok tt) /\ min_volatility best_solver w2 o2 = (w3, o3, Ok d).
Proof.
  destruct (c102_prepared steps3 two_world oF [] (two_open _ _ _ _) ex_c102_sensible) as (w2 & o2 & u2 & E & Ho & W1 & W2 & P1 & P2 & P3 & P4 & P5 & P6 & P7 & P8).
  destruct (c25_found best_solver w2 o2 u2 (fun _ => [2/5; 3/5]) best_solver_complete Ho) as (w3 & o3 & d & H); [|exists w2, o2, w3, o3, d; auto].
  assert (Hd : forall s x y ps, s 0%nat = [x; y] -> (Forall (demanded (b_tickers (e_base oF)) (e_w oF) s ps) steps3 <-> 1/10 <= x <= 2/5)).
  { intros s x y ps Es. unfold steps3. change (e_w oF) with 0%nat. change (b_tickers (e_base oF)) with [LInt 0; LInt 1].
    assert (E1 : sat s ps (CIneq (EIndex [0%nat] (EVar 0)) (EConst [2/5])) <-> x <= 2/5) by (apply sat_ineq1; cbn [eval map]; rewrite ?Es; reflexivity).
    assert (E2 : sector_weight [(LInt 0, "tech"%string)] "tech" [LInt 0; LInt 1] (s 0%nat) = x) by (rewrite Es; cbn; lra).
    split.
    - intros F. pose proof (Forall_inv (Forall_inv_tail F)) as A. pose proof (Forall_inv (Forall_inv_tail (Forall_inv_tail F))) as B. cbn [demanded] in *.
      destruct B as [_ B]. specialize (B "tech"%string (1/10) (or_introl eq_refl)). rewrite E2 in B. apply E1 in A. lra.
    - intros H. constructor; [exact I|]. constructor; [cbn [demanded]; apply E1; lra|]. constructor; [|constructor]. cbn [demanded]. split; [intros ? ? []|].
      intros sec l [El|[]]. injection El as <- <-. rewrite E2. lra. }
  assert (Hadm : forall s, admissible w2 o2 u2 (e_lb o2) (e_ub o2) 1 s <-> exists x y, s 0%nat = [x; y] /\ 0 <= x <= 1 /\ 0 <= y <= 1 /\ x + y = 1 /\ 1/10 <= x <= 2/5).
  { intros s. rewrite P2, P3. unfold admissible. rewrite W1, P1. pose proof (oF_adm 1 s) as A. unfold admissible in A. split.
    - intros (B1 & B2 & B3 & B4). destruct (proj1 A) as (x & y & Es & H); [repeat split; try assumption; try apply B2; constructor|].
      apply P8 in B4; [|change (e_w oF) with 0%nat; rewrite Es; reflexivity]. exists x, y. split; [exact Es|]. destruct H as (H1 & H2 & H3). repeat (split; [assumption|]). apply (Hd s x y (par_values w2) Es). apply B4.
    - intros (x & y & Es & H1 & H2 & H3 & H4). destruct (proj2 A) as (B1 & B2 & B3 & _); [exists x, y; auto|]. repeat (split; [assumption|]). apply P8; [change (e_w oF) with 0%nat; rewrite Es; reflexivity|].
      split; [constructor|]. apply (Hd s x y (par_values w2) Es). exact H4. }
  assert (Hpen : forall s x y, s 0%nat = [x; y] -> penalty s (par_values w2) (e_add o2) = x * x + y * y).
  { intros s x y Es. rewrite P7. change (e_add oF) with (@nil expr). change (e_w oF) with 0%nat. unfold penalty, steps3. cbn [map total extra_cost]. unfold evals, L2_reg_e. cbn [eval]. rewrite Es. cbn. rewrite vsum_total. cbn [total]. lra. }
  split; [apply Hadm; exists (2/5), (3/5); repeat split; lra|]. split; [exact I|].
  intros s' Ha _. apply Hadm in Ha. destruct Ha as (x & y & Es & H1 & H2 & H3 & H4). rewrite (Hpen s' x y Es), (Hpen _ (2/5) (3/5) eq_refl). rewrite P1, P4. change (e_w oF) with 0%nat. rewrite Es, !oF_q.
  assert (Ey : y = 1 - x) by lra. subst y. nra.
Qed.
(** C18: the lower bound of the first asset and the upper bound of the second are missing *)
Example ex_c18_missing : exists w1 o, ef_init (MIn (MuArray [1/5; 1/10; 0])) (CIn (CovArray [[1; 0; 0]; [0; 1; 0]; [0; 0; 1]]))
    (BSeq true [[None; Some (1/2)]; [Some (1/10); None]; [Some 0; Some 1]]) empty_world = (w1, Ok o) /\
  forall s params x y z, s (e_w o) = [x; y; z] -> (Forall (fun ic => sat s params (snd ic)) (e_cons o) <-> x <= 1/2 /\ 1/10 <= y /\ 0 <= z <= 1).
Proof.
  destruct (ef_init _ _ _ _) as [w1 [o|e]] eqn:E; [|discriminate E]. exists w1, o. split; [reflexivity|]. intros s params x y z Es.
  assert (En : e_n o = 3%nat) by (injection E as _ <-; reflexivity).
  rewrite (c18_missing_pairs (MIn (MuArray [1/5; 1/10; 0])) (CovArray [[1; 0; 0]; [0; 1; 0]; [0; 0; 1]]) empty_world _ _ true [(None, Some (1/2)); (Some (1/10), None); (Some 0, Some 1)] E)
    by (rewrite ?Es, En; reflexivity).
  clear E. rewrite Es. split.
  - intros F. inversion F as [|? ? ? ? A F1]; subst. inversion F1 as [|? ? ? ? B F2]; subst. inversion F2 as [|? ? ? ? C _]; subst. cbn in *. tauto.
  - intros (A & B & C). do 3 (apply Forall2_cons; [cbn; tauto|]). apply Forall2_nil.
Qed.
Example ex_c18_missing_arrays : exists w1 o, ef_init (MIn (MuArray [1/5; 1/10; 0])) (CIn (CovArray [[1; 0; 0]; [0; 1; 0]; [0; 0; 1]]))
    (BSeq true [[None; Some (1/10); Some 0]; [Some (1/2); None; Some 1]]) empty_world = (w1, Ok o) /\
  forall s params x y z, s (e_w o) = [x; y; z] -> (Forall (fun ic => sat s params (snd ic)) (e_cons o) <-> -1 <= x <= 1/2 /\ 1/10 <= y <= 1 /\ 0 <= z <= 1).
Proof.
  destruct (ef_init _ _ _ _) as [w1 [o|e]] eqn:E; [|discriminate E]. exists w1, o. split; [reflexivity|]. intros s params x y z Es.
  assert (En : e_n o = 3%nat) by (injection E as _ <-; reflexivity).
  rewrite (c18_missing_arrays (MIn (MuArray [1/5; 1/10; 0])) (CovArray [[1; 0; 0]; [0; 1; 0]; [0; 0; 1]]) empty_world _ _ [(None, Some (1/2)); (Some (1/10), None); (Some 0, Some 1)] E)
    by (rewrite ?Es, En; discriminate || reflexivity).
  clear E. rewrite Es. split.
  - intros F. inversion F as [|? ? ? ? A F1]; subst. inversion F1 as [|? ? ? ? B F2]; subst. inversion F2 as [|? ? ? ? C _]; subst. cbn in *. tauto.
  - intros (A & B & C). do 3 (apply Forall2_cons; [cbn; tauto|]). apply Forall2_nil.
Qed.
(** C21: a constraint of the user with a parameter called risk_aversion *)
Example ex_c21_clash : let w := mkWorld [2%nat] (fun _ => None) [mkParam "risk_aversion" true 1] 2 in
  let o := set_cons (e_cons oF ++ [(7%nat, CIneq (EPar 0) (ESum (EVar 0)))]) oF in clashes w o "risk_aversion".
Proof. right. split; [cbn; lia|reflexivity]. Qed.
