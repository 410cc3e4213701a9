(** * Property theorems: which covariance estimates are positive definite *)
From Coq Require Import ZArith List String Bool Reals.
From Verif Require Import Num Py MBase MFrame MRisk MConvex MEF SLin SBase SHRP SReturns SRisk SConvex SUnique PEFW PDefinite PDefinite2 PDefiniteW.
Import ListNotations.
Local Open Scope R_scope.

(** C135: with no more days than assets the sample covariance gives some position no risk at all, with fewer days even one that costs nothing *)
Theorem c135_sample_singular : forall eigh T dates names x fr log fm, (2 <= T)%nat -> 0 <= fr -> (forall t, In t names -> List.length (x t) = T) ->
  exists C, sample_cov eigh (history T dates names x) true fr log fm = Ok (mkFrame names names C) /\
    ((T <= List.length names)%nat -> exists y, List.length y = List.length names /\ (exists a, In a y /\ a <> 0) /\ qform C y = 0) /\
    ((T < List.length names)%nat -> exists y, List.length y = List.length names /\ (exists a, In a y /\ a <> 0) /\ total y = 0 /\ qform C y = 0).
Proof. exact sample_singular. Qed.
Print Assumptions c135_sample_singular.

(** however few the days, any shrinkage towards the average variance gives every position some risk *)
Theorem c135_shrunk : forall eigh T dates names x fr log d, (2 <= T)%nat -> List.length dates = T -> (forall t, In t names -> List.length (x t) = T) -> 0 < fr -> 0 < d <= 1 ->
  (exists t, In t names /\ 0 < sample_covariance (x t) (x t)) ->
  exists sh rows, shrinkage_init (history T dates names x) true fr log = Ok sh /\ shrunk_covariance eigh sh d = Ok (mkFrame names names rows) /\ definite (List.length names) rows.
Proof. exact shrunk_definite. Qed.
Print Assumptions c135_shrunk.

(** so does Ledoit-Wolf shrinkage towards the constant correlation model, if that correlation is not extreme, *)
Theorem c135_constant_correlation : forall eigh sk T dates names x fr log, (2 <= T)%nat -> (2 <= List.length names)%nat -> List.length dates = T -> (forall t, In t names -> List.length (x t) = T) -> 0 < fr ->
  (forall t, In t names -> 0 < sample_covariance (x t) (x t)) ->
  exists sh rows d, shrinkage_init (history T dates names x) true fr log = Ok sh /\ ledoit_wolf eigh sk sh "constant_correlation" = Ok (mkFrame names names rows, d) /\
    (0 < d -> -1 < (INR (List.length names) - 1) * mean_correlation (List.length names) (sample_matrix names x) ->
     mean_correlation (List.length names) (sample_matrix names x) < 1 -> definite (List.length names) rows).
Proof. exact constant_correlation_definite. Qed.
Print Assumptions c135_constant_correlation.

(** and towards the single factor model, if no asset moves exactly with the market *)
Theorem c135_single_factor : forall eigh sk T dates names x fr log, (2 <= T)%nat -> names <> [] -> List.length dates = T -> (forall t, In t names -> List.length (x t) = T) -> 0 < fr ->
  let m := market T names x in sample_covariance m m <> 0 ->
  exists sh rows d, shrinkage_init (history T dates names x) true fr log = Ok sh /\ ledoit_wolf eigh sk sh "single_factor" = Ok (mkFrame names names rows, d) /\
    (0 < d -> (forall t, In t names -> sample_covariance (x t) m * sample_covariance (x t) m < sample_covariance (x t) (x t) * sample_covariance m m) ->
     definite (List.length names) rows).
Proof. exact single_factor_definite. Qed.
Print Assumptions c135_single_factor.

(** an optimizer built from a positive definite table answers the same whichever exact solver is used, *)
Theorem c135_one_answer : forall names rows mi b w0 w1 o sv sv', definite (List.length names) rows -> ef_init mi (CIn (CovFrame names rows)) b w0 = (w1, Ok o) -> exact_solver sv -> exact_solver sv' ->
  same_answer (min_volatility sv w1 o) (min_volatility sv' w1 o) /\
  (forall rf, same_answer (max_sharpe sv rf w1 o) (max_sharpe sv' rf w1 o)) /\
  (forall m ra mn, e_mu o = Some m -> same_answer (max_quadratic_utility sv ra mn w1 o) (max_quadratic_utility sv' ra mn w1 o)) /\
  (forall m t mn, e_mu o = Some m -> same_answer (efficient_return sv t mn w1 o) (efficient_return sv' t mn w1 o)).
Proof. exact definite_one_answer. Qed.
Print Assumptions c135_one_answer.

(** so from the table of returns to the weights, *)
Theorem c135_shrunk_one_answer : forall eigh T dates names x fr log d, (2 <= T)%nat -> List.length dates = T -> (forall t, In t names -> List.length (x t) = T) -> 0 < fr -> 0 < d <= 1 ->
  (exists t, In t names /\ 0 < sample_covariance (x t) (x t)) ->
  exists sh rows, shrinkage_init (history T dates names x) true fr log = Ok sh /\ shrunk_covariance eigh sh d = Ok (mkFrame names names rows) /\
  forall mi b w0 w1 o sv sv', ef_init mi (CIn (CovFrame names rows)) b w0 = (w1, Ok o) -> exact_solver sv -> exact_solver sv' ->
    same_answer (min_volatility sv w1 o) (min_volatility sv' w1 o) /\ (forall rf, same_answer (max_sharpe sv rf w1 o) (max_sharpe sv' rf w1 o)).
Proof. exact shrunk_one_answer. Qed.
Print Assumptions c135_shrunk_one_answer.

(** but not with the sample covariance: two assets with the same returns *)
Theorem c135_sample_refuted : exists sv sv' dates names x rows o w1 o1 d1 w2 o2 d2, exact_solver sv /\ complete_solver sv /\ exact_solver sv' /\ complete_solver sv' /\
  (forall t, In t names -> 0 < sample_covariance (x t) (x t)) /\
  (forall eigh log fm, sample_cov eigh (history 2 dates names x) true 252 log fm = Ok (mkFrame names names rows)) /\
  ef_init (MIn MuNone) (CIn (CovFrame names rows)) (BPair (Some 0) (Some 1)) empty_world = (two_world, Ok o) /\
  min_volatility sv two_world o = (w1, o1, Ok d1) /\ min_volatility sv' two_world o = (w2, o2, Ok d2) /\ d1 <> d2.
Proof. exact sample_depends. Qed.
Print Assumptions c135_sample_refuted.
