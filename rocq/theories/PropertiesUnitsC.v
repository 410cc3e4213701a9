(** * Property theorems: the critical line algorithm in other units of measurement (C137) *)
From Coq Require Import ZArith List Bool Reals.
From Verif Require Import Num Py MBase MCLA SLin SCLA SUnits SUnitsC PUnitsC2.
Import ListNotations.
Local Open Scope R_scope.

(** the data are accepted in both units or in neither *)
Theorem c137_accepted : forall a k labels mean cov b,
  (exists o, cla_init (Some (labels, mean)) cov b = Ok o) <-> (exists o, cla_init (Some (labels, map (Rmult a) mean)) (cov_times k cov) b = Ok o).
Proof. exact cla_units_accepted. Qed.
Print Assumptions c137_accepted.
(** the run takes the same course: the same error or none, the same turning points *)
Theorem c137_turning_points : forall a k labels mean cov b o1 o2 fuel inv ord, measured_cla a k labels mean cov b o1 o2 ->
  sound_inverse inv -> complete_inverse inv -> singular_only inv ->
  snd (solve fuel inv ord o2) = snd (solve fuel inv ord o1) /\
  Forall2 (same_point a k) (c_tp (fst (solve fuel inv ord o1))) (c_tp (fst (solve fuel inv ord o2))).
Proof. exact cla_units_points. Qed.
Print Assumptions c137_turning_points.
(** whatever calls are made, one after the other, they hand out the same portfolios or the same errors *)
Theorem c137_calls : forall a k labels mean cov b o1 o2 fuel inv ord, measured_cla a k labels mean cov b o1 o2 ->
  sound_inverse inv -> complete_inverse inv -> singular_only inv ->
  forall cs, snd (do_calls fuel inv ord cs o2) = snd (do_calls fuel inv ord cs o1).
Proof. exact cla_units_calls. Qed.
Print Assumptions c137_calls.
(** with the same labels, after any calls *)
Theorem c137_min_volatility : forall a k labels mean cov b o1 o2 fuel inv ord, measured_cla a k labels mean cov b o1 o2 ->
  sound_inverse inv -> complete_inverse inv -> singular_only inv ->
  forall cs, snd (cla_min_volatility fuel inv ord (fst (do_calls fuel inv ord cs o2))) = snd (cla_min_volatility fuel inv ord (fst (do_calls fuel inv ord cs o1))).
Proof. exact cla_units_min. Qed.
Print Assumptions c137_min_volatility.
Theorem c137_max_sharpe : forall a k labels mean cov b o1 o2 fuel inv ord, measured_cla a k labels mean cov b o1 o2 ->
  sound_inverse inv -> complete_inverse inv -> singular_only inv ->
  forall cs, snd (cla_max_sharpe fuel inv ord (fst (do_calls fuel inv ord cs o2))) = snd (cla_max_sharpe fuel inv ord (fst (do_calls fuel inv ord cs o1))).
Proof. exact cla_units_sharpe. Qed.
Print Assumptions c137_max_sharpe.
(** the frontier is the same curve: the same portfolios, returns and deviations in the new unit *)
Theorem c137_frontier : forall a k labels mean cov b o1 o2 fuel inv ord, measured_cla a k labels mean cov b o1 o2 ->
  sound_inverse inv -> complete_inverse inv -> singular_only inv ->
  forall cs points, same_frontier a k (snd (cla_frontier fuel inv ord points (fst (do_calls fuel inv ord cs o1))))
    (snd (cla_frontier fuel inv ord points (fst (do_calls fuel inv ord cs o2)))).
Proof. exact cla_units_frontier. Qed.
Print Assumptions c137_frontier.
(** the reported figures, with the risk-free rate in the new unit *)
Theorem c137_performance : forall a k labels mean cov b o1 o2 fuel inv ord, measured_cla a k labels mean cov b o1 o2 ->
  sound_inverse inv -> complete_inverse inv -> singular_only inv ->
  forall cs rf, same_figures a k (cla_performance rf (fst (do_calls fuel inv ord cs o1))) (cla_performance (a * rf) (fst (do_calls fuel inv ord cs o2))).
Proof. exact cla_units_performance. Qed.
Print Assumptions c137_performance.
