(** * Concrete cases for PropertiesRate.v *)
From Coq Require Import List String Bool Reals Lra ZArith.
From Verif Require Import Num Py MBase MConvex MEF SLin SBase SConvex SRate PRate.
Import ListNotations.
Local Open Scope R_scope.

(** the last acceptable rate, not the last rate: 30% is above every expected return, a string is no number *)
Example rate_of_calls : last_rate (Some [1/10; 1/5]) [KMaxSharpe (NFloat (1/100)); KMinVol; KMaxSharpe (NInt 0); KMaxSharpe (NFloat (3/10)); KMaxSharpe NOther] None = Some 0.
Proof.
  cbn [last_rate target_of].
  destruct (Exists_dec (fun a => 3/10 < a) [1/10; 1/5] (Rlt_dec (3/10))) as [He|_];
    [exfalso; repeat match goal with H : Exists _ _ |- _ => inversion H; clear H; subst end; lra|].
  destruct (Exists_dec (fun a => 0 < a) [1/10; 1/5] (Rlt_dec 0)) as [_|He]; [reflexivity|].
  exfalso. apply He. constructor. lra.
Qed.
Example rate_without_calls : last_rate (Some [1/10; 1/5]) [KMinVol; KSetWeights []] None = None.
Proof. reflexivity. Qed.
(** c107_performance without max_sharpe: half and half at the rate that was given *)
Example rate_given : forall sv ns pinv, exists w1 o w' o' p,
  ef_init (MIn (MuArray [1/10; 1/5])) (CIn (CovArray [[1; 0]; [0; 1]])) (BPair (Some 0) (Some 1)) (mkWorld [] (fun _ => None) [] 0) = (w1, Ok o) /\
  run_all sv ns pinv [KSetWeights [(LInt 0, 1/2); (LInt 1, 1/2)]] w1 o = (w', o') /\
  ef_performance (1/50) o' = Ok p /\ reported [1/10; 1/5] [[1; 0]; [0; 1]] (1/50) [1/2; 1/2] p.
Proof.
  intros sv ns pinv.
  destruct (ef_init (MIn (MuArray [1/10; 1/5])) (CIn (CovArray [[1; 0]; [0; 1]])) (BPair (Some 0) (Some 1)) (mkWorld [] (fun _ => None) [] 0)) as [w1 [o|e]] eqn:Ei; [|discriminate Ei].
  destruct (run_all sv ns pinv [KSetWeights [(LInt 0, 1/2); (LInt 1, 1/2)]] w1 o) as [w' o'] eqn:E.
  destruct (rate_performance (MuArray [1/10; 1/5]) [1/10; 1/5] (CovArray [[1; 0]; [0; 1]]) _ _ _ _ sv ns pinv [KSetWeights [(LInt 0, 1/2); (LInt 1, 1/2)]] w' o' (1/50) [1/2; 1/2] Ei) as [p [Hp Hrep]];
    [reflexivity|exact E| |reflexivity|split; repeat constructor|cbn; lra|].
  - inversion Ei; subst w1 o. clear Ei. cbn in E. inversion E; subst. reflexivity.
  - exists w1, o, w', o', p. split; [reflexivity|]. split; [exact E|]. split; [exact Hp|exact Hrep].
Qed.
(** the theorem on other constraints applies in the case of c107_failed_call_refuted *)
