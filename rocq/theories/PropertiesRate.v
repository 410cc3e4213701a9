(** * Property theorems: the rate that portfolio_performance uses *)
From Coq Require Import List String Bool Reals.
From Verif Require Import Num Py MBase MConvex MEF SLin SBase SConvex SRate PRate.
Import ListNotations.
Local Open Scope R_scope.

(** C107: after any calls, successful or not, the stored rate is that of the last acceptable max_sharpe *)
Theorem c107_rate : forall sv ns pinv cs w o w' o', run_all sv ns pinv cs w o = (w', o') ->
  e_rf o' = last_rate (e_mu o) cs (e_rf o) /\ e_mu o' = e_mu o /\ e_cov o' = e_cov o.
Proof. exact rate_run_all. Qed.
Print Assumptions c107_rate.

(** C107: from the constructor through any calls, what portfolio_performance reports about the weights held *)
Theorem c107_performance : forall m mu c b w0 w1 o sv ns pinv cs w' o' rf x, ef_init (MIn m) (CIn c) b w0 = (w1, Ok o) -> mu_values m = Some mu ->
  run_all sv ns pinv cs w1 o = (w', o') -> e_weights o' = Some x -> List.length x = List.length mu ->
  square (List.length mu) (cov_values c) -> 0 < qform (cov_values c) x ->
  exists p, ef_performance rf o' = Ok p /\
    reported mu (cov_values c) (match last_rate (Some mu) cs None with Some r => r | None => rf end) x p.
Proof. exact rate_performance. Qed.
Print Assumptions c107_performance.

(** C31: a constraint that is neither an equality nor an inequality makes max_sharpe fail with a TypeError,
    whatever the solver; weights, constraints and a problem defined before are unchanged *)
Theorem c31_other_constraints : forall sv w o m rf r P a, square (e_n o) (e_cov o) -> e_mu o = Some m -> target_of rf = Some r -> Exists (fun x => r < x) m ->
  (exists i, In (i, COther P a) (e_cons o)) ->
  exists w' o', max_sharpe sv rf w o = (w', o', Err TypeError) /\ e_weights o' = e_weights o /\ e_cons o' = e_cons o /\ e_opt o' = e_opt o.
Proof. exact sharpe_other. Qed.
Print Assumptions c31_other_constraints.

(** C107: the rate of a max_sharpe that failed is used too, against the one asked for *)
Theorem c107_failed_call_refuted : forall sv ns pinv, exists w1 o w2 o2 w3 o3 p,
  ef_init (MIn (MuArray [1/10; 1/5])) (CIn (CovArray [[1; 0]; [0; 1]])) (BPair (Some 0) (Some 1)) (mkWorld [] (fun _ => None) [] 0) = (w1, Ok o) /\
  run_all sv ns pinv (firstn 2 stale_calls) w1 o = (w2, o2) /\ e_weights o2 = Some [1/2; 1/2] /\
  run sv ns pinv (KMaxSharpe (NFloat (1/100))) w2 o2 = (w3, o3, Err TypeError) /\ e_weights o3 = Some [1/2; 1/2] /\
  ef_performance (1/50) o3 = Ok p /\ reported [1/10; 1/5] [[1; 0]; [0; 1]] (1/100) [1/2; 1/2] p /\
  ~ reported [1/10; 1/5] [[1; 0]; [0; 1]] (1/50) [1/2; 1/2] p.
Proof. exact stale. Qed.
Print Assumptions c107_failed_call_refuted.
