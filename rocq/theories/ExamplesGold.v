(** * CLA.max_sharpe: concrete cases meeting the hypotheses of the theorems *)
From Coq Require Import ZArith QArith List Bool Reals Lra Lia.
From Verif Require Import Num Py MBase MCLA SLin SBL SCLA SGold RBase PyLemmas Sums Mat PBase PCLA2 PCLA3 PCLA9 PCLAQ PCLAW PGold PGold3 PGold4 PropertiesCLA ExamplesCLA PropertiesGold.
Import ListNotations.
Local Open Scope R_scope.

(** a function with one peak *)
Example ex_peaked : peaked 0 1 (fun t => - ((t - 1 / 3) * (t - 1 / 3))).
Proof.
  intros x z y H1 H2 H3 H4. unfold Rmin. destruct (Rle_dec _ _) as [L|L].
  - split; [|intros _]; destruct (Rle_lt_dec z (1 / 3)); nra.
  - split; [|intros _]; destruct (Rle_lt_dec z (1 / 3)); nra.
Qed.
Example ex_line_search : exists x v, golden_section (fun t => Ok (- ((t - 1 / 3) * (t - 1 / 3)))) 0 1 = Ok (x, v) /\ Rabs (x - 1 / 3) <= acc8.
Proof.
  destruct (golden_section_total (fun t => Ok (- ((t - 1 / 3) * (t - 1 / 3)))) 0 1 ltac:(lra) ltac:(eauto)) as [[x v] E]. exists x, v. split; [exact E|].
  destruct (c109_line_search _ (fun t => - ((t - 1 / 3) * (t - 1 / 3))) x v (fun _ _ => eq_refl) ex_peaked E) as [_ [l [u [H1 [H2 [H3 [H4 [H5 H6]]]]]]]].
  destruct (Rlt_le_dec (1 / 3) l) as [L|L]; [specialize (H6 (1 / 3) ltac:(lra) ltac:(lra)); exfalso; nra|].
  destruct (Rlt_le_dec u (1 / 3)) as [U|U]; [specialize (H6 (1 / 3) ltac:(lra) ltac:(lra)); exfalso; nra|].
  apply Rabs_between; lra.
Qed.

(** the two assets: the conditions of the theorems hold, and the call succeeds *)
Lemma duo_success : forall inv, sound_inverse inv -> complete_inverse inv -> exists o' d, cla_max_sharpe 10 inv idord duo = (o', Ok d) /\ c_tp o' = duo_points.
Proof.
  intros inv Hs Hc. pose proof (ex_run 0 inv Hs Hc) as Er. destruct ex_well_posed as [Hp _]. pose proof Hp as [Ht [_ [Hb [_ [_ [Hpd _]]]]]].
  destruct (c91_max_sharpe_succeeds 10 inv idord duo _ (proj1 Hb) (proj1 (proj2 Hb)) Ht Hpd Er) as [o' [d E]]. exists o', d. split; [exact E|].
  destruct (sharpe_run _ _ _ _ _ _ Ht E) as [o1 [Es [Etp _]]]. change (10 + 0)%nat with 10%nat in Er. rewrite Er in Es. injection Es as <-. exact Etp.
Qed.
Lemma duo_sums : Forall (fun p => total (t_w p) = 1) duo_points.
Proof. repeat constructor; cbn; lra. Qed.
Lemma duo_unbroken : unbroken duo_points.
Proof.
  intros p q [l1 [l2 H]]. destruct l1 as [|a [|b [|c l1]]]; cbn in H.
  - injection H as <- <- _. reflexivity.
  - injection H as _ <- <- _. cbn [t_l t_f t_w]. split; [apply incl_refl|]. split; [reflexivity|].
    intros i Hi. destruct i as [|[|i]]; [destruct Hi; cbn; auto|destruct Hi; cbn; auto|]. destruct i; reflexivity.
  - injection H as _ _ _ H. discriminate.
  - injection H as _ _ _ H. destruct l1; discriminate.
Qed.
Lemma duo_nonneg : exists u, feasible (c_lb duo) (c_ub duo) u /\ 0 <= inner u (c_mean duo).
Proof. exists [1; 0]. split; [cbn; feas|cbn; lra]. Qed.
(** the best portfolio is (2/3, 1/3): its ratio is matched up to a hair *)
Example ex_max_sharpe : forall inv, sound_inverse inv -> complete_inverse inv ->
  exists o' d u u', cla_max_sharpe 10 inv idord duo = (o', Ok d) /\ feasible [0; 0] [1; 1] u /\ feasible [0; 0] [1; 1] u' /\
    ratio [2; 1] [[1; 0]; [0; 1]] [2 / 3; 1 / 3] <= ratio [2; 1] [[1; 0]; [0; 1]] u /\ nearly_same [0; 0] [1; 1] u u' /\
    ratio [2; 1] [[1; 0]; [0; 1]] u' <= ratio [2; 1] [[1; 0]; [0; 1]] (dvalues d).
Proof.
  intros inv Hs Hc. destruct (duo_success inv Hs Hc) as [o' [d [E Etp]]]. destruct ex_well_posed as [Hp Hl]. destruct ex_general_position as [Hu [He _]].
  destruct (c109_all_portfolios 10 inv idord duo o' d Hs idord_ok Hp Hl Hu He E) as [_ K].
  - rewrite Etp. exact duo_sums.
  - rewrite Etp. exact duo_unbroken.
  - exact duo_nonneg.
  - destruct (K [2 / 3; 1 / 3]) as [u [u' K']]; [cbn; feas|]. exists o', d, u, u'. split; [exact E|]. exact K'.
Qed.
(** C109, second and third theorem: the same object *)
Example ex_segments : forall inv, sound_inverse inv -> complete_inverse inv -> exists o' d, cla_max_sharpe 10 inv idord duo = (o', Ok d) /\
  Forall (fun p => length (t_w p) = 2%nat /\ 1 / 2 <= total (t_w p)) (c_tp o') /\
  (forall p q, consecutive p q (c_tp o') -> rising (c_mean o') (c_cov o') (t_w p) (t_w q)) /\ pos_def 2 (c_cov o') /\ symmetric 2 (c_cov o').
Proof.
  intros inv Hs Hc. destruct (duo_success inv Hs Hc) as [o' [d [E Etp]]]. exists o', d. split; [exact E|].
  destruct ex_well_posed as [Hp _]. pose proof Hp as [Ht [_ [_ [_ [_ [Hpd Hsy]]]]]]. destruct (sharpe_run _ _ _ _ _ _ Ht E) as [o1 [Es [_ [Em [Ec _]]]]].
  rewrite Etp, Em, Ec. split; [repeat constructor; cbn; lra|]. split; [|split; [exact Hpd|exact Hsy]].
  intros p q Hpq. left. destruct (consecutive_in _ _ _ Hpq) as [Ip Iq].
  assert (K : forall z, In z duo_points -> 0 <= inner (t_w z) (c_mean duo)) by (intros z [<-|[<-|[<-|[]]]]; cbn; lra). auto.
Qed.
(** C110: the figures after min_volatility; expected return 3/2, variance 1/2 *)
Example ex_performance : forall inv, sound_inverse inv -> complete_inverse inv -> exists o', do_call 10 inv idord CallMinVol duo = (o', Ok [[1 / 2; 1 / 2]]) /\
  cla_performance 0 o' = Ok (Some (3 / 2), sqrt (1 / 2), Some (3 / 2 / sqrt (1 / 2))).
Proof.
  intros inv Hs Hc. pose proof (ex_min_vol 0 inv Hs Hc) as E. change (10 + 0)%nat with 10%nat in E.
  destruct (do_call 10 inv idord CallMinVol duo) as [o' r] eqn:Ed. cbn [snd] in E. subst r. exists o'. split; [reflexivity|].
  destruct ex_well_posed as [Hp Hl]. pose proof Hp as [Ht [_ [Hb [_ [_ [Hpd _]]]]]].
  destruct (c110_performance 10 inv idord CallMinVol duo o' _ 0 Ed (or_introl eq_refl) Hl (proj1 Hb) (proj1 (proj2 Hb)) (or_introl Ht) Hpd) as [_ K].
  rewrite K. replace (inner [1 / 2; 1 / 2] (c_mean duo)) with (3 / 2) by (cbn; lra). replace (qform (c_cov duo) [1 / 2; 1 / 2]) with (1 / 2) by (unfold qform; cbn; lra).
  replace (3 / 2 - 0) with (3 / 2) by ring. reflexivity.
Qed.
