(** * Concrete cases for the theorems in PropertiesInit.v *)
From Coq Require Import ZArith List String Bool Reals Lra Lia.
From Verif Require Import Num Py MBase MConvex MEF MDown MCLA MHRP MFrame SLin SBase SConvex SLabels SInit PEFW PInit PInit2 PropertiesInit.
Import ListNotations.
Local Open Scope R_scope.

Definition m3 : mu_arg := MuArray [1/5; 1/10; 1/20].
Definition c3 : cov_arg := CovArray [[1; 0; 0]; [0; 1; 0]; [0; 0; 1]].
(** the three ways to write bounds; a missing entry means no bound in the first, -1 in the second *)
Example ex_c125_pairs : bounds_given 3 (BSeq false [[Some 0; Some 1]; [None; Some 1]; [Some 0; None]]) [Some 0; None; Some 0] [Some 1; Some 1; None].
Proof. apply (given_pairs 3 false _ 2); [reflexivity|discriminate|lia| | |]; repeat constructor. Qed.
Example ex_c125_arrays : bounds_given 3 (BSeq true [[Some 0; None; Some 0]; [Some 1; Some 1; None]]) [Some 0; Some (-1); Some 0] [Some 1; Some 1; Some 1].
Proof. apply (given_arrays 3 [Some 0; None; Some 0] [Some 1; Some 1; None]); [lia|reflexivity|reflexivity]. Qed.
Example ex_c125_scalars : bounds_given 3 (BPair None (Some 1)) [Some (-1); Some (-1); Some (-1)] [Some 1; Some 1; Some 1].
Proof. apply (given_scalars 3 None (Some 1)). left. lia. Qed.
Example ex_c125_ef : exists w1 o, ef_init (MIn m3) (CIn c3) (BPair None (Some 1)) empty_world = (w1, Ok o).
Proof.
  apply c125_efficient_frontier. exists m3, c3, [LInt 0; LInt 1; LInt 2], [Some (-1); Some (-1); Some (-1)], [Some 1; Some 1; Some 1].
  split; [reflexivity|]. split; [reflexivity|]. split; [intros l H; injection H as <-; split; reflexivity|]. split; [|exact ex_c125_scalars].
  apply u_array. split; [reflexivity|]. intros [|[|[|i]]] Hi; cbn [List.length] in Hi; try lia; reflexivity.
Qed.
(** a table of the wrong size *)
Example ex_c125_size : ~ same_size [1/5; 1/10; 1/20] [[1; 0]; [0; 1]].
Proof. intros [H _]. discriminate H. Qed.
Example ex_c125_shape : ~ square 2 [[1; 0; 0]; [0; 1; 0]].
Proof. intros [_ H]. inversion H as [|? ? H1 H2]. discriminate H1. Qed.
Definition table3 : returns_arg := RTable 3 [[Some (1/10); Some 0; None]; [Some 0; Some (1/20); Some (-1/20)]].
Lemma table3_ok : table_ok m3 3 (BPair (Some 0) (Some 1)).
Proof. split; [intros l H; injection H as <-; reflexivity|]. do 2 eexists. apply given_scalars. left. lia. Qed.
Example ex_c125_semi : exists w1 o d, semi_init (MIn m3) table3 252 0 (BPair (Some 0) (Some 1)) empty_world = (w1, Ok (o, d)).
Proof. apply c125_semivariance. do 3 eexists. split; [reflexivity|]. split; [reflexivity|]. exact table3_ok. Qed.
Example ex_c125_cvar : exists w1 o d, cvar_init (MIn m3) table3 (19/20) (BPair (Some 0) (Some 1)) empty_world = (w1, Ok (o, d)).
Proof. apply c125_cvar. do 3 eexists. split; [reflexivity|]. split; [reflexivity|]. split; [exact table3_ok|lra]. Qed.
Example ex_c125_cdar : exists w1 o d, cdar_init (MIn m3) table3 (19/20) (BPair (Some 0) (Some 1)) empty_world = (w1, Ok (o, d)).
Proof. apply c125_cdar. do 3 eexists. split; [reflexivity|]. split; [discriminate|]. split; [reflexivity|]. split; [exact table3_ok|lra]. Qed.
Example ex_c125_gaps : without_gaps [[Some (1/10); Some 0; None]; [Some 0; Some (1/20); Some (-1/20)]] [[0; 1/20; -1/20]].
Proof. apply wg_drop; [right; right; left; reflexivity|]. apply (wg_keep [0; 1/20; -1/20]). constructor. Qed.
Example ex_c125_cla : exists o : cla R, cla_init (Some (None, [1/5; 1/10])) [] (CSeq [[PInt 0; PInt 1]; [PInt 0; PFloat (1/2)]]) = Ok o.
Proof.
  apply c125_cla. exists None, [1/5; 1/10], [PInt 0; PInt 0], [PInt 1; PFloat (1/2)]. split; [reflexivity|].
  apply cla_pairs; [reflexivity|discriminate|repeat constructor|repeat constructor].
Qed.
Example ex_c125_hrp : exists h, hrp_init HRetNone (HCovFrame (mkFrame [LStr "A"] [LStr "A"] [[1]])) = Ok h.
Proof. apply c125_hrp. right. split; [reflexivity|]. eauto. Qed.
