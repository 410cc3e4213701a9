(** * A frontier without any point, and without any warning *)
From Coq Require Import ZArith List String Bool Reals Lia Lra ClassicalEpsilon.
From Verif Require Import Num RBase Py PyLemmas MBase MConvex MEF MPlot MWarn SLin SBase SConvex SPlot Sums PBase PConvex PEF PEF2 PEF3 PEF4 PEFW PWarn4.
Import ListNotations.
Local Open Scope R_scope.

(** two assets, none of which may take more than 3/10 of the portfolio *)
Definition tight : ef := two_ef [1/5; 1/10] 0 (3/10).
Lemma tight_infeasible : forall ps obj, best_solver [2%nat] ps obj (wsum_cons false [Some 0; Some 0] [Some (3/10); Some (3/10)] 2 0 []) = ABad (fun _ => None).
Proof.
  intros ps obj. unfold best_solver. destruct (excluded_middle_informative _) as [H|N]; [|reflexivity]. exfalso. destruct H as [s [[Hs F] _]].
  destruct (two_pairs s Hs) as [x [y E]].
  assert (A : admissible two_world tight [] [Some 0; Some 0] [Some (3/10); Some (3/10)] 1 s).
  { apply admissible_iff; [reflexivity|reflexivity|reflexivity|exact Hs|]. cbn [wsum_cons andb app] in F. rewrite !Forall_cons_iff' in F. destruct F as (F1 & F2 & F3 & _).
    split; [|split; [|split; [|constructor]]].
    - cbn in F1 |- *. exact F1.
    - cbn in F2 |- *. exact F2.
    - cbn in F3 |- *. exact F3. }
  apply two_admissible in A. destruct A as (a & b & _ & Ha & Hb & Hab). lra.
Qed.
Theorem plot_nothing : exact_solver best_solver /\ exists w' o',
  plot_loop_w (ef_methods best_solver (fun m => m)) ef_point "utility" [1] two_world tight = ([], (w', o', Ok [])).
Proof.
  split; [apply best_solver_exact|]. apply plot_silent. cbn [history]. constructor; [|constructor]. cbn [v_outcome]. unfold try_once. cbn [fst snd].
  destruct (util_first best_solver two_world tight [] [1/5; 1/10] (two_open _ _ _ _) eq_refl false 1 (two_unused _ _ _ _ _) ltac:(lra)) as [w' [o' E]].
  unfold attempt, ef_methods. cbn [String.eqb Ascii.eqb eqb]. unfold drop, bind. rewrite E. unfold util_cs.
  assert (T : forall ps ob, outcome (b_tickers (e_base tight)) (e_w tight) (best_solver (w_sizes two_world) ps ob (wsum_cons false (e_lb tight) (e_ub tight) (e_n tight) (e_w tight) (map snd (@nil (nat * con))))) = Err OptimizationError).
  { intros ps ob. cbn [map two_world w_sizes tight two_ef e_lb e_ub e_w e_base b_tickers]. change (e_n (two_ef [1/5; 1/10] 0 (3/10))) with 2%nat. rewrite tight_infeasible. reflexivity. }
  rewrite T. reflexivity.
Qed.
