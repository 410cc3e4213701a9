(** * Black-Litterman: concrete cases meeting the hypotheses of the theorems *)
From Coq Require Import List String Reals Lra Lia Arith Bool ZArith.
From Verif Require Import Num Py RBase PyLemmas MBase SLin SHRP SReturns SBL Sums Mat MRisk MBL PCov1 PBL3 PBL4 PBL6 PBL8 PBL9 PBLW PBL10 PropertiesBL.
Import ListNotations.
Local Open Scope R_scope.

(** solvers as assumed exist *)
Example ex_contract : exists la, exact_linalg la.
Proof. exact exact_linalg_exists. Qed.

Definition tA := LStr "A".
Definition tB := LStr "B".
Definition sg : matrix := [[2;1];[1;2]].
Definition cf := CovFrame [tA; tB] sg.
Lemma sg_pos : pos_def 2 sg.
Proof.
  split; [shape|]. intros [|a [|b [|]]] Hw Hn; try discriminate Hw. unfold qform, sg. cbn.
  assert (H : a <> 0 \/ b <> 0). { destruct (Req_dec a 0) as [->|]; [|auto]. right. intros ->. apply Hn. reflexivity. }
  assert (H1 := Rle_0_sqr (a + b)). assert (H2 := Rle_0_sqr a). assert (H3 := Rle_0_sqr b). unfold Rsqr in *.
  destruct H as [H|H]; apply Rsqr_pos_lt in H; unfold Rsqr in H; lra.
Qed.
Lemma sg_sym : symmetric 2 sg.
Proof. intros i j Hi Hj. destruct i as [|[|]]; try lia; destruct j as [|[|]]; try lia; reflexivity. Qed.
Lemma one_pos : forall c, 0 < c -> pos_def 1 [[c]].
Proof.
  intros c Hc. split; [shape|]. intros [|a [|]] Hw Hn; try discriminate Hw. unfold qform. cbn. assert (a <> 0) by (intros ->; apply Hn; reflexivity).
  assert (0 < a * a) by (apply Rsqr_pos_lt; assumption). nra.
Qed.
Lemma one_psd : forall c, 0 <= c -> psd 1 [[c]].
Proof. intros c Hc. split; [shape|]. intros [|a [|]] Hw; try discriminate Hw. unfold qform. cbn. assert (0 <= a * a) by apply Rle_0_sqr. nra. Qed.
Lemma one_sym : forall c, symmetric 1 [[c]].
Proof. intros c i j Hi Hj. destruct i; [|lia]. destruct j; [|lia]. reflexivity. Qed.

(** a view of 3 on asset A with prior (1, 2) *)
Definition ex_args (Q : list R) (om : omega_arg) (conf : conf_arg) (t : R) : bl_args :=
  mkArgs cf (PiArr [1;2]) VNone (Some Q) (Some [[1;0]]) om conf t 1 None 0.
Definition ex_obj (Q : list R) (Om : matrix) (t : R) : bl := mkBL (base_init 2 (Some [tA; tB])) sg 2 Q [[1;0]] [1;2] Om t 1 None None None None.
Lemma ex_init : forall q om conf t Om, 0 < t <= 1 -> set_omega 2 sg [q] [[1;0]] t om conf = Ok Om -> bl_init (ex_args [q] om conf t) = Ok (ex_obj [q] Om t).
Proof. intros. apply (init_arrays cf); [shape|reflexivity|shape|assumption|lra|assumption]. Qed.
Lemma ex_init_arr : forall q c t, 0 < t <= 1 -> bl_init (ex_args [q] (OmArr [[c]]) ConfNone t) = Ok (ex_obj [q] [[c]] t).
Proof. intros. apply ex_init; [assumption|]. apply set_omega_arr. shape. Qed.
Lemma ex_reach : forall la q c t, 0 < t <= 1 -> reachable la (ex_obj [q] [[c]] t).
Proof. intros la q c t Ht. exists (ex_args [q] (OmArr [[c]]) ConfNone t), (ex_obj [q] [[c]] t), []. split; [apply ex_init_arr; exact Ht|reflexivity]. Qed.

(** C56 *)
Example ex_c56 : forall la, exact_linalg la -> let o := ex_obj [3] [[1]] (1/2) in
  reachable la o /\ pos_def 2 (bl_sigma o) /\ symmetric 2 (bl_sigma o) /\ pos_def 1 (bl_omega o) /\ symmetric 1 (bl_omega o) /\
  right_inverse 2 (scale_matrix (bl_tau o) (bl_sigma o)) [[4/3;-2/3];[-2/3;4/3]] /\ right_inverse 1 (bl_omega o) [[1]] /\
  snd (bl_returns la o) = [2; 5/2].
Proof.
  intros la Hla o. split; [apply ex_reach; lra|]. split; [exact sg_pos|]. split; [exact sg_sym|]. split; [apply one_pos; lra|]. split; [apply one_sym|].
  split; [split; [shape|]; intros [|a [|b [|]]] Hw; try discriminate Hw; cbn; lists; field|].
  split; [split; [shape|]; intros [|a [|]] Hw; try discriminate Hw; cbn; lists; field|].
  assert (HI : invertible 2 (bl_sigma o)).
  { exists [[2/3;-1/3];[-1/3;2/3]]. split; [shape|]. intros [|a [|b [|]]] Hw; try discriminate Hw. cbn. lists; field. }
  unfold bl_returns, fill. cbn [bl_tsp bl_A o ex_obj]. cbv zeta.
  assert (EA : system_matrix o (tau_sigma_P o) = [[2]]) by (cbn; lists; field).
  assert (ET : tau_sigma_P o = [[1];[1/2]]) by (cbn; lists; field).
  fold o. rewrite EA, ET. cbn [bl_n bl_Q bl_P bl_pi o ex_obj List.length seq map sumn nth snd]. unfold solve_or_lstsq.
  set (b := 3 - _). assert (Eb : b = 2) by (unfold b, entry; cbn; ring). rewrite Eb.
  destruct Hla as [H1 _]. destruct (H1 1%nat [[2]] [2]) as [Hi _]; [shape|reflexivity|]. destruct Hi as (x & Ex & Lx & Vx).
  { exists [[/2]]. split; [shape|]. intros [|y [|]] Hy; try discriminate Hy. cbn. lists. field. }
  rewrite Ex. destruct x as [|x [|]]; try discriminate Lx. cbn in Vx. injection Vx as Vx. unfold entry. cbn. lists; lra.
Qed.
(** C57: a view equal to the prior, and a certain view *)
Example ex_c57 : forall la, reachable la (ex_obj [1] [[1]] 1) /\ mat_vec (bl_P (ex_obj [1] [[1]] 1)) (bl_pi (ex_obj [1] [[1]] 1)) = bl_Q (ex_obj [1] [[1]] 1) /\
  psd 1 [[1]] /\ reachable la (ex_obj [3] [[0]] 1) /\ bl_omega (ex_obj [3] [[0]] 1) = zero_matrix 1 /\ mat_vec (bl_P (ex_obj [3] [[0]] 1)) [3; 0] = bl_Q (ex_obj [3] [[0]] 1).
Proof. intros la. repeat split; try (apply ex_reach; lra); try (cbn; lists; ring). - repeat constructor. - apply one_psd. lra. Qed.
Lemma set_idzorek : forall q t c, 0 <= c <= 1 -> exists v, set_omega 2 sg [q] [[1;0]] t OmIdzorek (ConfList [c]) = Ok [[v]].
Proof.
  intros q t c Hc. unfold set_omega, idzorek_method. cbv zeta. cbn [List.length Nat.eqb rbind seq mapM]. unfold idzorek_entry. cbn [nth_error].
  rewrite (proj2 (Rltb_false c 0)) by lra. rewrite (proj2 (Rltb_false 1 c)) by lra. cbn [orb]. destruct (Reqb c 0); cbn [rbind]; eexists; reflexivity.
Qed.
(** C58, C59: confidences 1/2 and 0 *)
Example ex_c58 : forall c t, 0 <= c <= 1 -> 0 < t <= 1 -> exists v, let o := ex_obj [3] [[v]] t in
  bl_init (with_tau (ex_args [3] OmIdzorek (ConfList [c]) 1) t) = Ok o /\ a_omega (ex_args [3] OmIdzorek (ConfList [c]) 1) = OmIdzorek /\ List.length (bl_Q o) = 1%nat /\
  nth_error (conf_list (ConfList [c])) 0 = Some c /\ pos_def (bl_n o) (bl_sigma o) /\ symmetric (bl_n o) (bl_sigma o) /\
  0 < qform (bl_sigma o) (nth 0 (bl_P o) []) /\ nth 0 (bl_Q o) 0 <> inner (nth 0 (bl_P o) []) (bl_pi o).
Proof.
  intros c t Hc Ht. destruct (set_idzorek 3 t c Hc) as [v Ev]. exists v. split; [apply ex_init; [exact Ht|exact Ev]|]. do 3 (split; [reflexivity|]). split; [exact sg_pos|]. split; [exact sg_sym|]. split; [unfold qform; cbn; lra|cbn; lra].
Qed.
(** C59: the default *)
Example ex_c59 : forall t, 0 < t <= 1 -> exists v, bl_init (with_tau (ex_args [3] OmDefault ConfNone 1) t) = Ok (ex_obj [3] [[v]] t) /\ 0 < qform sg [1;0].
Proof. intros t Ht. eexists. split; [apply ex_init; [exact Ht|reflexivity]|unfold qform; cbn; lra]. Qed.
(** C60 *)
Example ex_c60 : forall la, reachable la (ex_obj [3] [[1]] 1) /\ psd 2 sg /\ symmetric 2 sg /\ psd 1 [[1]] /\ symmetric 1 [[1]].
Proof. intros la. split; [apply ex_reach; lra|]. split; [apply PBL2.pos_def_psd, sg_pos|]. split; [exact sg_sym|]. split; [apply one_psd; lra|apply one_sym]. Qed.
(** C61: caps 1 and 3, listed in the other order; the view agrees with the prior *)
Definition caps : dict R := [(tB, 3); (tA, 1)].
Definition mk_args := mkArgs cf PiMarket VNone (Some [5/4]) (Some [[1;0]]) (OmArr [[1]]) ConfNone 1 1 (Some caps) 0.
Example ex_c61 : exists o, bl_init mk_args = Ok o /\ mat_vec (bl_P o) (bl_pi o) = bl_Q o /\ bl_omega o = [[1]] /\ NoDup (map fst caps) /\ NoDup [tA; tB] /\
  map (cap_weight caps) [tA; tB] = [1/4; 3/4].
Proof.
  assert (HN : NoDup [tB; tA] /\ NoDup [tA; tB]) by (split; repeat constructor; cbn; unfold tA, tB; intuition congruence).
  assert (EM : market_implied_prior_returns caps 1 cf 0 = Ok [5/4; 7/4]).
  { unfold market_implied_prior_returns. cbv zeta. rewrite vsum_tot. rewrite (proj2 (Reqb_false _ 0)) by (cbn; lra). unfold weights_for, cf, caps, tA, tB, sg, has_label. cbn. f_equal. unfold dot. rewrite !vsum_tot. cbn. lists; rewrite ?vsum_tot; cbn; lra. }
  eexists. split.
  - unfold bl_init. cbv zeta. cbn [a_cov a_views a_Q a_P a_ra a_pi a_tau a_omega a_conf a_caps a_rf set_Q_P rbind mk_args].
    rewrite (proj2 (Rleb_false 1 0)) by lra. cbn [rbind set_pi]. rewrite EM. cbn [rbind cf]. rewrite (proj2 (Rltb_false 1 1)) by lra. cbn. reflexivity.
  - cbn [bl_P bl_pi bl_Q bl_omega]. split; [cbn; lists; lra|]. split; [reflexivity|]. split; [apply HN|]. split; [apply HN|]. cbn. lists; lra.
Qed.
(** C62: the singular matrix with one view *)
Definition one_args := mkArgs (CovArray sing) (PiArr [1;1;0]) VNone (Some [2]) (Some [[1;0;0]]) (OmArr [[1]]) ConfNone 1 1 None 0.
Example ex_c62 : forall la, exists o, bl_init one_args = Ok o /\ reachable la o /\ ~ invertible (bl_n o) (bl_sigma o) /\ List.length (bl_Q o) <> bl_n o.
Proof.
  intros la. assert (E : exists o, bl_init one_args = Ok o /\ bl_n o = 3%nat /\ bl_sigma o = sing /\ bl_Q o = [2]).
  { eexists. split; [apply (init_arrays (CovArray sing)); [shape|reflexivity|shape|lra|lra|apply set_omega_arr; shape]|]. repeat split. }
  destruct E as (o & E & E1 & E2 & E3). exists o. rewrite E1, E2, E3. split; [exact E|]. split; [exists one_args, o, []; split; [exact E|reflexivity]|]. split; [exact sing_not_invertible|cbn; lia].
Qed.
(** C64 *)
Example ex_c64 : parse_views 2 [tA; tB] [(tB, 7)] = Ok ([7], [[0; 1]]) /\ parse_views 2 [tA; tB] [(LStr "C", 7)] = Err ValueError.
Proof. split; reflexivity. Qed.
(** C86: rejected constructions *)
Example ex_c86 : bl_init (ex_args [3] OmDefault ConfNone 2) = Err ValueError /\
  bl_init (mkArgs (CovArray sg) PiMarket VNone (Some [1]) (Some [[1;0]]) OmDefault ConfNone 1 1 (Some caps) 0) = Err AttributeError.
Proof.
  split; unfold bl_init, ex_args; cbv zeta; cbn [a_cov a_views a_Q a_P a_ra a_pi a_tau a_omega a_conf a_caps a_rf set_Q_P rbind];
    rewrite (proj2 (Rleb_false 1 0)) by lra; cbn [rbind set_pi].
  - rewrite (proj2 (Rleb_false 2 0)) by lra. rewrite (proj2 (Rltb_true 1 2)) by lra. reflexivity.
  - unfold market_implied_prior_returns. cbv zeta. rewrite vsum_tot. rewrite (proj2 (Reqb_false _ 0)) by (cbn; lra). reflexivity.
Qed.
(** C87: prices 1, 2, 3 *)
Example ex_c87 : Forall (fun v => 0 < v) [1;2;3] /\ sample_covariance (simple_returns [1;2;3]) (simple_returns [1;2;3]) = 1/8 /\
  market_implied_risk_aversion [1;2;3] 4 1 = Ok 4.
Proof.
  assert (H : Forall (fun v => 0 < v) [1;2;3]) by (repeat (apply Forall_cons; [lra|]); apply Forall_nil).
  assert (E : sample_covariance (simple_returns [1;2;3]) (simple_returns [1;2;3]) = 1/8) by (unfold sample_covariance, average; cbn; lra).
  split; [exact H|]. split; [exact E|]. pose proof (c87_risk_aversion [1;2;3] 4 1 H (Nat.le_refl 3)) as V. cbv zeta in V. rewrite E in V. rewrite V by lra. f_equal. unfold average. cbn. lra.
Qed.
(** C63: the object of C56, weights a third and two thirds *)
Example ex_c63_performance : forall la, exact_linalg la -> let o := ex_obj [3] [[1]] (1/2) in
  exists d w, snd (bl_weights la o None) = Ok d /\ b_weights (bl_base (fst (bl_weights la o None))) = Some w /\
    exists r s sh, snd (bl_performance la (fst (bl_weights la o None)) 0) = Ok (Some r, s, Some sh) /\ r = inner w [2; 5/2] /\ 0 < s.
Proof.
  intros la Hla o. destruct (ex_c56 la Hla) as (Rc & Sp & Ss & Op & Os & _ & _ & Ep). fold o in Ep. change (snd (bl_returns la o) = [2; 5/2]) in Ep.
  assert (W : exists d, snd (bl_weights la o None) = Ok d).
  { destruct (PBL3.reachable_ok la o Rc) as [W C]. pose proof (PBL8.weights_eq la _ _ o W C None) as EW. cbv zeta in EW. unfold PBL8.raw in EW. rewrite Ep in EW. change (bl_ra o) with 1 in EW. change (bl_sigma o) with sg in EW.
    destruct Hla as [H1 _]. destruct (H1 2%nat (scale_matrix 1 sg) [2; 5/2]) as [Hi _]; [shape|reflexivity|]. destruct Hi as (x & Ex & Lx & Vx).
    { exists [[2/3; -1/3]; [-1/3; 2/3]]. split; [shape|]. intros [|a [|b [|]]] Hw; try discriminate Hw. cbn. lists; field. }
    rewrite Ex in EW. destruct x as [|x [|y [|]]]; try discriminate Lx. cbn in Vx. injection Vx as V1 V2.
    rewrite (proj2 (Reqb_false _ 0)) in EW by (cbn; lra). destruct EW as [E1 _]. eauto. }
  destruct W as [d Wd]. destruct (c61_sum la o None d Hla Rc Wd) as (w & Ew & Lw & Tw & _).
  destruct (c63_performance la o None d 0 Hla Rc eq_refl Wd) as (w' & Ew' & H). rewrite Ew in Ew'. injection Ew' as <-.
  exists d, w. split; [exact Wd|]. split; [exact Ew|]. destruct H as (r & s & sh & H1 & H2 & H3 & _).
  - destruct (c60_posterior_covariance la o Hla Rc (PBL2.pos_def_psd _ _ Sp) Ss (PBL2.pos_def_psd _ _ Op) Os) as [_ H].
    destruct (H w Lw) as [H' _]. eapply Rlt_le_trans; [|exact H']. apply Sp; [exact Lw|]. intros E. rewrite E in Tw. cbn in Tw. lra.
  - exists r, s, sh. rewrite Ep in H2. auto.
Qed.
