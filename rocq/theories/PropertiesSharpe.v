(** * What max_sharpe makes of added objectives (C126) *)
From Coq Require Import ZArith List String Bool Reals.
From Verif Require Import Num Py RBase MBase MConvex MEF SLin SBase SConvex PEFW SSharpe PSharpe PSharpeW.
Import ListNotations.
Local Open Scope R_scope.

(** the answer minimises the squared risk over the squared excess return, plus the added objectives of the weights
    divided by their excess return *)
Theorem c126_added : forall sv w o u rf w' o' d, exact_solver sv -> open_ef w o u ->
  Forall (known_terms (List.length (w_sizes w))) (e_add o) ->
  Forall (fun ic => constant_on_one_side (e_w o) (snd ic)) u ->
  Forall (fun ic => known_vars (List.length (w_sizes w)) (snd ic)) u ->
  max_sharpe sv rf w o = (w', o', Ok d) ->
  exists m r, e_mu o = Some m /\ target_of rf = Some r /\
  exists s rr, e_weights o' = Some rr /\ Forall2 (rounded 16) (s (e_w o)) rr /\
    d = dict_of_pairs (combine (b_tickers (e_base o)) rr) /\
    admissible w o u (e_lb o) (e_ub o) 1 s /\
    0 < excess m r (s (e_w o)) /\
    forall s', admissible w o u (e_lb o) (e_ub o) 1 s' -> 0 < excess m r (s' (e_w o)) ->
      per_excess w o m r s <= per_excess w o m r s'.
Proof. exact max_sharpe_added. Qed.
Print Assumptions c126_added.

(** such a portfolio is found if there is one *)
Theorem c126_added_found : forall sv w o u m rf r s, exact_solver sv -> complete_solver sv -> open_ef w o u ->
  Forall (known_terms (List.length (w_sizes w))) (e_add o) ->
  Forall (fun ic => constant_on_one_side (e_w o) (snd ic)) u ->
  Forall (fun ic => known_vars (List.length (w_sizes w)) (snd ic)) u ->
  Forall (fun b => b <> None) (e_lb o) -> Forall (fun b => b <> None) (e_ub o) ->
  e_mu o = Some m -> target_of rf = Some r -> Exists (fun a => r < a) m ->
  admissible w o u (e_lb o) (e_ub o) 1 s -> 0 < excess m r (s (e_w o)) ->
  (forall s', admissible w o u (e_lb o) (e_ub o) 1 s' -> 0 < excess m r (s' (e_w o)) ->
      per_excess w o m r s <= per_excess w o m r s') ->
  exists w' o' d, max_sharpe sv rf w o = (w', o', Ok d).
Proof. exact sharpe_added_found. Qed.
Print Assumptions c126_added_found.

(** objectives that behave like a variance are counted as risk: the answer has the best Sharpe ratio for the
    total risk *)
Theorem c126_regularised : forall sv w o u rf w' o' d, exact_solver sv -> open_ef w o u ->
  Forall (known_terms (List.length (w_sizes w))) (e_add o) -> Forall (variance_like (e_w o)) (e_add o) ->
  psd (e_n o) (e_cov o) ->
  Forall (fun ic => constant_on_one_side (e_w o) (snd ic)) u ->
  Forall (fun ic => known_vars (List.length (w_sizes w)) (snd ic)) u ->
  max_sharpe sv rf w o = (w', o', Ok d) ->
  exists m r, e_mu o = Some m /\ target_of rf = Some r /\
  exists s rr, e_weights o' = Some rr /\ Forall2 (rounded 16) (s (e_w o)) rr /\
    d = dict_of_pairs (combine (b_tickers (e_base o)) rr) /\
    admissible w o u (e_lb o) (e_ub o) 1 s /\
    0 < excess m r (s (e_w o)) /\
    forall s', admissible w o u (e_lb o) (e_ub o) 1 s' ->
      excess m r (s' (e_w o)) * sqrt (total_risk w o s) <= excess m r (s (e_w o)) * sqrt (total_risk w o s').
Proof. exact max_sharpe_regularised. Qed.
Print Assumptions c126_regularised.

(** and is found if there is one *)
Theorem c126_regularised_found : forall sv w o u m rf r s, exact_solver sv -> complete_solver sv -> open_ef w o u ->
  Forall (known_terms (List.length (w_sizes w))) (e_add o) -> Forall (variance_like (e_w o)) (e_add o) ->
  psd (e_n o) (e_cov o) ->
  Forall (fun ic => constant_on_one_side (e_w o) (snd ic)) u ->
  Forall (fun ic => known_vars (List.length (w_sizes w)) (snd ic)) u ->
  Forall (fun b => b <> None) (e_lb o) -> Forall (fun b => b <> None) (e_ub o) ->
  e_mu o = Some m -> target_of rf = Some r -> Exists (fun a => r < a) m ->
  admissible w o u (e_lb o) (e_ub o) 1 s -> 0 < excess m r (s (e_w o)) ->
  (forall s', admissible w o u (e_lb o) (e_ub o) 1 s' ->
      excess m r (s' (e_w o)) * sqrt (total_risk w o s) <= excess m r (s (e_w o)) * sqrt (total_risk w o s')) ->
  exists w' o' d, max_sharpe sv rf w o = (w', o', Ok d).
Proof. exact sharpe_regularised_found. Qed.
Print Assumptions c126_regularised_found.

(** with L2 penalties: the best Sharpe ratio for the covariance matrix plus the penalty on its diagonal *)
Theorem c126_l2 : forall sv w o u gs rf w' o' d, exact_solver sv -> open_ef w o u ->
  e_add o = map (fun g => L2_reg_e (EVar (e_w o)) g) gs -> Forall (fun g => 0 <= g) gs ->
  psd (e_n o) (e_cov o) ->
  Forall (fun ic => constant_on_one_side (e_w o) (snd ic)) u ->
  Forall (fun ic => known_vars (List.length (w_sizes w)) (snd ic)) u ->
  max_sharpe sv rf w o = (w', o', Ok d) ->
  exists m r, e_mu o = Some m /\ target_of rf = Some r /\
  exists s rr, e_weights o' = Some rr /\ Forall2 (rounded 16) (s (e_w o)) rr /\
    d = dict_of_pairs (combine (b_tickers (e_base o)) rr) /\
    admissible w o u (e_lb o) (e_ub o) 1 s /\
    0 < excess m r (s (e_w o)) /\
    forall s', admissible w o u (e_lb o) (e_ub o) 1 s' ->
      excess m r (s' (e_w o)) * sqrt (qform (e_cov o) (s (e_w o)) + total gs * inner (s (e_w o)) (s (e_w o)))
      <= excess m r (s (e_w o)) * sqrt (qform (e_cov o) (s' (e_w o)) + total gs * inner (s' (e_w o)) (s' (e_w o))).
Proof. exact max_sharpe_l2. Qed.
Print Assumptions c126_l2.

(** a transaction cost is not: the previous weights cost nothing and have the best Sharpe ratio, and are abandoned *)
Theorem c126_cost_refuted : forall sv, exact_solver sv -> complete_solver sv -> exists o w' o' d x y,
  ef_init (MIn (MuArray [1; 2])) (CIn (CovArray [[1; 0]; [0; 1]])) (BPair (Some 0) (Some 1)) empty_world
    = (two_world, Ok (two_ef [1; 2] 0 1)) /\
  add_objective (fun v => transaction_cost_e (EVar v) [1/3; 2/3] 1) two_world (two_ef [1; 2] 0 1) = (two_world, o, Ok tt) /\
  (* the previous weights are admissible, free of cost and have the best Sharpe ratio *)
  (exists s0, s0 (e_w o) = [1/3; 2/3] /\ admissible two_world o [] (e_lb o) (e_ub o) 1 s0 /\ penalty s0 [] (e_add o) = 0 /\
    forall s, admissible two_world o [] (e_lb o) (e_ub o) 1 s ->
      excess [1; 2] 0 (s (e_w o)) * sqrt (qform (e_cov o) (s0 (e_w o))) <= excess [1; 2] 0 (s0 (e_w o)) * sqrt (qform (e_cov o) (s (e_w o)))) /\
  max_sharpe sv (NFloat 0) two_world o = (w', o', Ok d) /\
  e_weights o' = Some [x; y] /\ Rabs (1/2 - x) <= 1/1000000 /\ Rabs (1/2 - y) <= 1/1000000.
Proof. exact cost_example. Qed.
Print Assumptions c126_cost_refuted.

