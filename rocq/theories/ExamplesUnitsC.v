(** * Units of measurement and the critical line algorithm: concrete cases (C137) *)
From Coq Require Import ZArith QArith Qreals List Bool Reals Lra Lia Classical ClassicalEpsilon.
From Verif Require Import Num Py MBase MCLA SLin SBL SCLA SUnits SUnitsC RBase PyLemmas QRBase PCLAW PCLAI ExamplesCLA ExamplesGold PropertiesUnitsC.
Import ListNotations.
Local Open Scope R_scope.

(** an inverse as assumed exists *)
Example ex_unit_contracts : exists inv, sound_inverse inv /\ complete_inverse inv /\ singular_only inv.
Proof.
  exists (fun M => if excluded_middle_informative (exists P, right_inverse (length M) M P)
                   then Ok (epsilon (inhabits (@nil (list R))) (fun P => right_inverse (length M) M P)) else Err LinAlgError).
  split; [|split].
  - intros k M P [Hl _] E. destruct (excluded_middle_informative _) as [H|H]; [|discriminate]. injection E as <-. rewrite <- Hl.
    apply (epsilon_spec (inhabits (@nil (list R))) (fun P => right_inverse (length M) M P)), H.
  - intros k M P [Hl _] H. destruct (excluded_middle_informative _) as [H'|H']; [eexists; reflexivity|]. exfalso. apply H'. exists P. rewrite Hl. exact H.
  - intros M e E. destruct (excluded_middle_informative _); [discriminate|]. injection E as <-. reflexivity.
Qed.
(** the two uncorrelated assets of the other examples, in per cent: returns 200 and 100, variances 10000 *)
Definition duo_percent : cla R := mkCLA (mkBase [LInt 0; LInt 1] None) (map (Rmult 100) [2; 1]) (cov_times 10000 [[1; 0]; [0; 1]]) [0; 0] [1; 1] false [] None.
Lemma duo_measured : measured_cla 100 10000 None [2; 1] [[1; 0]; [0; 1]] (CPair (PFloat 0) (PFloat 1)) duo duo_percent.
Proof.
  split; [lra|]. split; [lra|]. split; [repeat constructor|]. split; [|split; reflexivity].
  intros [|[|i]] [|[|j]] Hi Hj; cbn in Hi, Hj; try lia; reflexivity.
Qed.
(** the turning points in per cent: lambda is 100 times, gamma 10000 times as large *)
Example ex_points : forall inv, sound_inverse inv -> complete_inverse inv -> singular_only inv ->
  map (@t_w R) (c_tp (fst (solve 10 inv idord duo_percent))) = [[1; 0]; [1; 0]; [1 / 2; 1 / 2]] /\
  map (@t_l R) (c_tp (fst (solve 10 inv idord duo_percent))) = [None; Some (10000 / 100 * 1); Some (10000 / 100 * 0)].
Proof.
  intros inv Hs Hc He. destruct (c137_turning_points _ _ _ _ _ _ _ _ 10 inv idord duo_measured Hs Hc He) as [_ F].
  rewrite (ex_run 0 inv Hs Hc : solve 10 inv idord duo = _) in F. cbn [fst c_tp set_tp duo_points] in F.
  remember (c_tp (fst (solve 10 inv idord duo_percent))) as l eqn:El. clear El.
  inversion F as [|? p ? l1 (W1 & _ & L1 & _) F1]; subst. inversion F1 as [|? q ? l2 (W2 & _ & L2 & _) F2]; subst. inversion F2 as [|? r ? l3 (W3 & _ & L3 & _) F3]; subst. inversion F3; subst.
  cbn [map]. rewrite W1, W2, W3, L1, L2, L3. split; reflexivity.
Qed.
Example ex_calls : forall inv, sound_inverse inv -> complete_inverse inv -> singular_only inv ->
  snd (do_calls 10 inv idord [CallMinVol] duo_percent) = [Ok [[1 / 2; 1 / 2]]].
Proof.
  intros inv Hs Hc He. rewrite (c137_calls _ _ _ _ _ _ _ _ 10 inv idord duo_measured Hs Hc He). cbn [do_calls].
  pose proof (ex_min_vol 0 inv Hs Hc : snd (do_call 10 inv idord CallMinVol duo) = _) as E. destruct (do_call 10 inv idord CallMinVol duo) as [o r]. cbn [snd] in E |- *. rewrite E. reflexivity.
Qed.
(** the figures in per cent *)
Example ex_figures : forall inv, sound_inverse inv -> complete_inverse inv -> singular_only inv ->
  exists sr, cla_performance (100 * 0) (fst (do_calls 10 inv idord [CallMinVol] duo_percent)) = Ok (Some (100 * (3 / 2)), sqrt 10000 * sqrt (1 / 2), Some sr).
Proof.
  intros inv Hs Hc He. destruct (ex_performance inv Hs Hc) as (o' & E & F).
  pose proof (c137_performance _ _ _ _ _ _ _ _ 10 inv idord duo_measured Hs Hc He [CallMinVol] 0) as K. cbn [do_calls] in K. rewrite E in K. cbn [fst] in K. rewrite F in K.
  cbn [do_calls] in *. destruct (cla_performance (100 * 0) _) as [[[mu sg] sr]|e]; [|contradiction]. destruct K as (-> & -> & ->). cbn [option_map]. eexists. reflexivity.
Qed.
