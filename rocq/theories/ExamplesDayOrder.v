(** * Concrete cases for the theorems in PropertiesDayOrder.v *)
From Coq Require Import ZArith List String Bool Reals Lra Lia Permutation.
From Verif Require Import Num Py RBase PBase MBase MFrame MHRP MReturns MRisk SDayOrder PDayOrder PDayOrder2 PropertiesDayOrder.
Import ListNotations.
Local Open Scope R_scope.

(** two assets, three days; one entry is missing in the second pair of tables *)
Definition ab : list label := [LStr "A"; LStr "B"].
Definition up (x : option R) : frame (option R) := mkFrame [day 0; day 1; day 2] ab [[Some 1; x]; [Some 2; Some (-1)]; [Some 4; Some 3]].
Definition down (x : option R) : frame (option R) := mkFrame [day 2; day 0; day 1] ab [[Some 4; Some 3]; [Some 1; x]; [Some 2; Some (-1)]].
Definition index : frame (option R) := mkFrame [day 0; day 1; day 2] [LStr "SPX"] [[Some 1]; [Some 2]; [Some 5]].
Definition index' : frame (option R) := mkFrame [day 1; day 0; day 2] [LStr "SPX"] [[Some 2]; [Some 1]; [Some 5]].
Lemma up_down : forall x, same_days (up x) (down x).
Proof.
  intros x. split; try reflexivity. apply Permutation_sym. apply (Permutation_cons_append [(day 0, [Some 1; x]); (day 1, [Some 2; Some (-1)])]).
Qed.
Lemma index_index' : same_days index index'.
Proof. split; try reflexivity. apply perm_swap. Qed.

(** the estimates exist and are the same *)
Example ex_c131_mean : exists b v, mean_historical_return (up None) true false 1 false = Ok (b, v) /\
  exists c, mean_historical_return (down None) true false 1 false = Ok (c, v).
Proof.
  pose proof (c131_mean_historical _ _ (up_down None) false 1 false) as H.
  destruct (mean_historical_return (up None) true false 1 false) as [[b v]|e] eqn:E; [|discriminate E].
  destruct (mean_historical_return (down None) true false 1 false) as [[c u]|e] eqn:E'; [|discriminate E'].
  unfold same_estimates in H. cbn [snd] in H. subst u. exists b, v. split; [reflexivity|]. now exists c.
Qed.
Example ex_c131_complete : mean_historical_return (up (Some 7)) true true 252 false = mean_historical_return (down (Some 7)) true true 252 false.
Proof.
  apply c131_mean_historical_complete; [apply up_down|repeat constructor; discriminate|repeat constructor].
Qed.
Example ex_c131_capm : same_estimates (snd (capm_return (up None) None true 0 true 252 false)) (snd (capm_return (down None) None true 0 true 252 false)) /\
  same_estimates (snd (capm_return (up None) (Some index) true 0 true 252 false)) (snd (capm_return (down None) (Some index') true 0 true 252 false)).
Proof. split; [apply c131_capm, up_down|apply c131_capm_market; [apply up_down|apply index_index']]. Qed.
(** the two series have a covariance, so the covariance matrix exists *)
Example ex_c131_sample_cov : forall eigh, sample_cov eigh (up (Some 7)) true 252 false "spectral" = sample_cov eigh (down (Some 7)) true 252 false "spectral" /\
  (exists C, whole (f_rows (frame_cov (up (Some 7)))) = Ok C) /\
  semicovariance eigh (up None) true 0 252 false "diag" = semicovariance eigh (down None) true 0 252 false "diag".
Proof.
  intros eigh. split; [apply c131_sample_cov, up_down|]. split; [eexists; reflexivity|apply c131_semicovariance, up_down].
Qed.
(** an estimator that does not look at the order of the days: the mean square *)
Definition power (X : list (list R)) : list (list R) * R := ([[vsum (map (fun row => vsum (map (fun x => x * x) row)) X)]], 0).
Example ex_c131_shrinkage : exists a b, shrinkage_init (up None) true 252 false = Ok a /\ shrinkage_init (down None) true 252 false = Ok b /\
  single_factor a = single_factor b /\ constant_correlation a = constant_correlation b /\
  (forall eigh, oracle_approximating eigh power a = oracle_approximating eigh power b).
Proof.
  destruct (c131_shrinkage _ _ (up_down None) 252 false) as (a & b & A & B & _ & S & C & _ & O).
  exists a, b. repeat split; auto. intros eigh. apply O. intros x y H. unfold power. do 3 f_equal. apply vsum_perm, Permutation_map, H.
Qed.
Example ex_c131_hrp : forall lk, exists h h', hrp_init (HRetFrame (up (Some 7))) HCovNone = Ok h /\ hrp_init (HRetFrame (down (Some 7))) HCovNone = Ok h' /\
  snd (hrp_optimize lk "single" h) = snd (hrp_optimize lk "single" h').
Proof.
  intros lk. do 2 eexists. split; [reflexivity|]. split; [reflexivity|].
  apply (c131_hrp (up (Some 7)) (down (Some 7)) HCovNone lk "single" 0 252); [apply up_down|reflexivity|reflexivity].
Qed.
