(** * Concrete cases for the theorems in PropertiesCalls.v *)
From Coq Require Import ZArith List String Bool Reals Lra Lia.
From Verif Require Import Num Py RBase PyLemmas MBase MConvex MEF MDown MCalls MFrame MHRP MBL MCLA SLin SBase SConvex SDown SCalls SLabels Sums PBase PConvex PEF PEF2 PEF3 PEF4 PEFW PDown PDown2 PDown3 PDownW PropertiesDown ExamplesDown PropertiesCalls.
Import ListNotations.
Local Open Scope R_scope.

Lemma unused_any : forall w name, unused_name w o2 name. Proof. intros w name p []. Qed.
(** C95: EfficientCVaR with two assets: after the targets 1/20, -1 and 1/5 the target 1/10 is answered, as on a new object *)
Example ex_c95 : exists w1 o1 w' o' dd, after (fun t => g_risk best_solver (DCVaR cv2) t false) [1/20; -1; 1/5] w_cv o2 = (w1, o1) /\
  g_risk best_solver (DCVaR cv2) (1/10) false w1 o1 = (w', o', Ok dd).
Proof.
  destruct (after (fun t => g_risk best_solver (DCVaR cv2) t false) [1/20; -1; 1/5] w_cv o2) as [w1 o1] eqn:Ea.
  destruct (g_risk best_solver (DCVaR cv2) (1/10) false w1 o1) as [[wh oh] rh] eqn:Eh.
  destruct ex_c37 as [wf [of [dd Ef]]].
  destruct (c95_efficient_risk best_solver (DCVaR cv2) w_cv o2 [] [1/5; 1/10] false (proj1 cv_ready) eq_refl (unused_any _ _)
     _ _ _ Ea (1/10) _ _ _ _ _ _ Ef Eh) as [E _].
  exists w1, o1, wh, oh, dd. rewrite <- E, Eh. split; reflexivity.
Qed.
Example ex_c95_semi : exists w1 o1 w' o' dd, after (fun t => g_risk best_solver (DSemi d34) t false) [1/5; 0] two_world o2 = (w1, o1) /\
  g_risk best_solver (DSemi d34) (1/50) false w1 o1 = (w', o', Ok dd).
Proof.
  destruct (after (fun t => g_risk best_solver (DSemi d34) t false) [1/5; 0] two_world o2) as [w1 o1] eqn:Ea.
  destruct (g_risk best_solver (DSemi d34) (1/50) false w1 o1) as [[wh oh] rh] eqn:Eh.
  destruct ex_c34_risk as [wf [of [dd Ef]]].
  destruct (c95_efficient_risk best_solver (DSemi d34) two_world o2 [] [1/5; 1/10] false (proj1 (semi2_ready (1/10) 0 1 (1/20, 1/10)))
     eq_refl (unused_any _ _) _ _ _ Ea (1/50) _ _ _ _ _ _ Ef Eh) as [E _].
  exists w1, o1, wh, oh, dd. rewrite <- E, Eh. split; reflexivity.
Qed.
(** the frozen state is reached, and a disabled method exists *)
Example ex_c95_frozen : exists w1 o1, g_run best_solver (fun _ => ([], true)) (DCVaR cv2) (GRisk (1/10) false) w_cv o2 = (w1, o1, Ok tt) /\
  g_attempts (DCVaR cv2) (GRisk (1/10) false) /\ forbidden (DCVaR cv2) (GSetWeights []) /\ e_opt o1 <> None.
Proof.
  destruct ex_c37 as [wf [of [dd Ef]]].
  assert (E : g_run best_solver (fun _ => ([], true)) (DCVaR cv2) (GRisk (1/10) false) w_cv o2 = (wf, of, Ok tt)).
  { cbn [g_run g_risk]. unfold drop, bind. rewrite Ef. reflexivity. }
  exists wf, of. split; [exact E|]. split; [exact I|]. split; [exact I|].
  destruct (c95_frozen best_solver (fun _ => ([], true)) (DCVaR cv2) (GRisk (1/10) false) w_cv o2 wf of (Ok tt) [] wf of [] E I
    (or_introl eq_refl) eq_refl) as [H _].
  intros Hn. specialize (H (fun _ => EScalar 0)). unfold add_objective, bind, get in H. rewrite Hn in H. discriminate H.
Qed.
(** a negative target *)
Example ex_c95_negative : exists w' o', g_return best_solver (DCDaR cd2) (-1/10) false w_cd o2 = (w', o', Err ValueError).
Proof.
  apply (c95_negative_return best_solver w_cd o2 [] [1/5; 1/10] false (proj1 cd_ready) eq_refl (DCDaR cd2) (-1/10));
    [discriminate|apply unused_any|lra].
Qed.

(** C96: labelled returns win over a labelled matrix; without labels the assets are 0 and 1 *)
Example ex_c96 : exists w1 o, ef_init (MIn (MuSeries [(LStr "A", 1/5); (LStr "B", 1/10)]))
    (CIn (CovFrame [LStr "X"; LStr "Y"] [[1; 0]; [0; 1]])) (BPair (Some 0) (Some 1)) empty_world = (w1, Ok o) /\
  b_tickers (e_base o) = [LStr "A"; LStr "B"].
Proof. eexists _, _. split; reflexivity. Qed.
Example ex_c96_positions : exists o : cla R, cla_init (Some (None, [1/5; 1/10])) [[1; 0]; [0; 1]] (CPair (PFloat 0) (PFloat 1)) = Ok o /\
  b_tickers (c_base o) = [LInt 0; LInt 1].
Proof. eexists. split; reflexivity. Qed.
