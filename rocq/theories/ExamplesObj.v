(** * Concrete cases for the theorems in PropertiesObj.v *)
From Coq Require Import ZArith String List Bool Reals Lra Lia.
From Verif Require Import Num Py RBase PyLemmas MBase MConvex MEF MPlot SLin SHRP SObj SPlot Sums PBase PEF PEF2 PEF3 PEF4 PEFW PObj PPlot PropertiesObj.
Import ListNotations.
Local Open Scope R_scope.

Definition id2 : list (list R) := [[1; 0]; [0; 1]].
Lemma id2_psd : psd 2 id2.
Proof.
  split; [split; [reflexivity|repeat constructor]|]. intros [|a [|b [|]]] H; try discriminate H. unfold qform. cbn.
  assert (0 <= a * a) by apply Rle_0_sqr. assert (0 <= b * b) by apply Rle_0_sqr. lra.
Qed.
(** C76: strictly below the chord in the middle *)
Example ex_c76_variance : as_function [] (fun w => portfolio_variance_e w id2) (blend (1/2) [1; 0] [0; 1]) = 1/2 /\
  as_function [] (fun w => portfolio_variance_e w id2) [1; 0] = 1.
Proof. unfold as_function. rewrite !(variance_value _ _ _ _ eq_refl). unfold qform. cbn. split; lra. Qed.
Example ex_c76_cost : as_function [] (fun w => transaction_cost_e w [1/2; 1/2] (1/100)) [1; 0] = 1/100.
Proof. unfold as_function. rewrite (cost_value _ _ _ _ eq_refl) by reflexivity. cbn. rewrite (Rabs_pos_eq (1 - 1/2)), (Rabs_left (0 - 1/2)) by lra. lra. Qed.
Example ex_c76_utility : concave_on 2 (as_function [3] (fun w => quadratic_utility_e w [1/10; 1/5] id2 0 false)).
Proof. apply c76_utility; [apply id2_psd|cbn; lra]. Qed.
(** C77: two periods, excess returns 0 and 2: variance 1, result 2 *)
Example ex_c77 : as_function [] (fun x => ex_post_tracking_error_e x [[1; 0]; [3; 0]] [1; 1]) [1; 0] = 2 /\
  variance_of (excess_series [[1; 0]; [3; 0]] [1; 1] [1; 0]) = 1.
Proof.
  assert (E : variance_of (excess_series [[1; 0]; [3; 0]] [1; 1] [1; 0]) = 1) by (unfold variance_of, average; cbn; field).
  split; [|exact E]. rewrite c77_periods_times_variance by (cbn; lia). rewrite E. cbn. ring.
Qed.

(** C78: an optimizer that stores each parameter, fails to solve for 0 and rejects negative ones *)
Definition toy (name : string) : option (R -> M R unit) :=
  if String.eqb name "risk" then Some (fun v w s => if Reqb v 0 then (w, s, Err OptimizationError) else if Rltb v 0 then (w, s, Err ValueError) else (w, v, Ok tt)) else None.
Example ex_c78_points : plot_loop toy (fun s => Ok (Some s, s)) "risk" [1; 0; -1; 2] two_world 5 =
  (two_world, 2, Ok [(Some 1, 1); (Some 1, 1); (Some 2, 2)]).
Proof.
  cbn. rewrite (proj2 (Reqb_false 1 0)) by lra. rewrite (proj2 (Rltb_false 1 0)) by lra. rewrite (proj2 (Reqb_true 0 0)) by lra.
  rewrite (proj2 (Reqb_false (-1) 0)) by lra. rewrite (proj2 (Rltb_true (-1) 0)) by lra.
  rewrite (proj2 (Reqb_false 2 0)) by lra. rewrite (proj2 (Rltb_false 2 0)) by lra. reflexivity.
Qed.
Example ex_c78_unknown : toy "volatility" = None. Proof. reflexivity. Qed.
(** EfficientFrontier with weights one half each; the risk aversions -1 and -2 are rejected *)
Definition o_plot : ef := put_weights [1/2; 1/2] (two_ef [1/5; 1/10] 0 1).
Definition the_point : option R * R := (Some (3/20), sqrt (1/2)).
Lemma plot_point : ef_point o_plot = Ok the_point.
Proof.
  unfold ef_point, ef_performance, portfolio_performance, sharpe_ratio, portfolio_variance, portfolio_return, o_plot. cbn [e_rf put_weights set_base two_ef e_weights e_base b_weights e_mu e_cov].
  cbn [rbind mu_values cov_values List.length forallb Nat.eqb andb]. rewrite !quad_qform, !dot_inner.
  replace (qform [[1; 0]; [0; 1]] [1/2; 1/2]) with (1/2) by (unfold qform; cbn; field).
  rewrite (proj2 (Rltb_false _ 0)) by lra. cbn [rbind]. rewrite (proj2 (Rleb_false _ 0)) by lra. cbn [rbind fst snd].
  unfold the_point. f_equal. f_equal. f_equal. cbn. field.
Qed.
Lemma plot_rejects : forall sv v, v <= 0 -> attempt (ef_methods sv (fun m => m)) "utility" v two_world o_plot = (two_world, o_plot, Err ValueError).
Proof. intros sv v Hv. unfold attempt, ef_methods. cbn [String.eqb Ascii.eqb eqb]. unfold drop, bind. rewrite utility_bad_aversion by exact Hv. reflexivity. Qed.
Example ex_c78_stale : forall sv, plot_ef sv (fun m => m) "utility" [-1; -2] two_world o_plot = (two_world, o_plot, Ok [the_point; the_point]).
Proof. intros sv. unfold plot_ef. cbn [plot_loop]. rewrite !plot_rejects by lra. rewrite !plot_point. reflexivity. Qed.
(** a solver that never finds an optimum makes the plot skip everything; nothing solved and a rejected
    parameter stops it *)
Example ex_c78_first_failure : forall sv, plot_ef sv (fun m => m) "utility" [-1] two_world (two_ef [1/5; 1/10] 0 1) =
  (two_world, two_ef [1/5; 1/10] 0 1, Err ValueError).
Proof.
  intros sv. apply c78_first_failure; [reflexivity|]. unfold attempt, ef_methods. cbn [String.eqb Ascii.eqb eqb]. unfold drop, bind. rewrite utility_bad_aversion by lra. reflexivity.
Qed.
Definition never_solves : solver_t := fun _ _ _ _ => ABad (fun _ => None).
Example ex_c78_skip : exists w1 o1, attempt (ef_methods never_solves (fun m => m)) "utility" 1 two_world (two_ef [1/5; 1/10] 0 1) = (w1, o1, Err OptimizationError).
Proof.
  destruct (util_first never_solves two_world (two_ef [1/5; 1/10] 0 1) [] [1/5; 1/10] (two_open _ _ _ _) eq_refl false 1 (two_unused _ _ _ _ _) ltac:(lra)) as [w' [o' E]].
  eexists _, _. unfold attempt, ef_methods. cbn [String.eqb Ascii.eqb eqb]. unfold drop, bind. rewrite E. reflexivity.
Qed.
(** the default range with a solver that always answers one half each *)
Definition half : solver_t := fun _ _ _ _ => AOptimal (fun _ => [1/2; 1/2]) (-3/20).
Example ex_c78_range : evenly_spaced (1/10) (1/5) (linspace (1/10) (1/5) 3) /\ linspace (1/10) (1/5) 3 = [1/10; 3/20; 1/5].
Proof.
  split; [apply (linspace_spaced (1/10) (1/5) 3); lia|]. cbn. f_equal; [field|]. f_equal; [field|]. f_equal. field.
Qed.

(** C88 *)
Example ex_c88 : sharpe_ratio [1; 0] [1/5; 1/10] id2 0 false = Ok (1/5) /\
  sharpe_ratio [1; 0] (vscale 4 [1/5; 1/10]) (map (vscale 4) id2) (4 * 0) false = Ok (2 * (1/5)).
Proof.
  assert (E : sharpe_ratio [1; 0] [1/5; 1/10] id2 0 false = Ok (1/5)).
  { unfold sharpe_ratio, portfolio_variance. cbn [List.length Nat.eqb forallb andb id2 rbind]. rewrite quad_qform, dot_inner.
    replace (qform id2 [1; 0]) with 1 by (unfold qform; cbn; field). rewrite (proj2 (Rleb_false 1 0)) by lra. rewrite sqrt_1. cbn. f_equal. field. }
  split; [exact E|]. rewrite (c88_horizon _ _ _ _ _ 4 _ ltac:(lra) E). f_equal. f_equal. replace 4 with (2 * 2) by ring. apply sqrt_square. lra.
Qed.
