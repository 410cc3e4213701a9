(** * Non-vacuity: two ways to one goal *)
From Coq Require Import ZArith List String Bool Reals Lra Lia.
From Verif Require Import Num Py RBase PBase PyLemmas MAlloc SLin SBL MBase MConvex MEF MBL MCLA SAlloc SBase SCLA SGold SConvex SPrep SExist SCurve SWays PBL1 PBL2 PBL3 PBL8 PBL9 PBL10 PBLW PAllocW PEF PEFW PDownW PExist4 PCLA9 PCLAQ PCLAW PropertiesExist PropertiesBL PropertiesAlloc PropertiesWays.
From Verif Require ExamplesAlloc ExamplesBL ExamplesCLA ExamplesGold ExamplesExist ExamplesPrep.
Import ListNotations.
Local Open Scope R_scope.

(** C115: an object on which both methods answer *)
Example ex_c115 : exists fuel d1 al lo d2 al' lo', let d := ExamplesAlloc.exlp in
  lp_portfolio one_solver d false = (d1, Ok (al, lo)) /\ greedy_portfolio fuel d false = (d2, Ok (al', lo')) /\
  miss (da_weights d) (da_prices d) (da_total d) (shares_in al) lo <= miss (da_weights d) (da_prices d) (da_total d) (shares_in al') lo' /\
  miss (da_weights d) (da_prices d) (da_total d) (shares_in al') lo' <= 2 * 101.
Proof.
  destruct ExamplesAlloc.exlp_meets_c09 as (E & V & L & M & d1 & al & lo & R).
  assert (P : positive_prices (da_prices ExamplesAlloc.exlp)) by (intros t x H; cbn in H; destruct H as [H|[H|[]]]; injection H as _ <-; lra).
  destruct (c04_greedy_succeeds ExamplesAlloc.exlp false ltac:(cbn; lra) L ltac:(discriminate)) as (al' & lo' & f0 & G); try assumption; try reflexivity.
  - intros t x H. apply dget_Some_iff. cbn in *. intuition congruence.
  - unfold total_weight. cbn. lra.
  - specialize (G f0 (le_n _)). destruct (greedy_portfolio f0 ExamplesAlloc.exlp false) as [d2 r] eqn:EG. cbn in G. subst r. exists f0, d1, al, lo, d2, al', lo'. cbv zeta.
    split; [exact R|]. split; [exact EG|]. split; [exact (c115_long_only _ _ _ _ _ _ _ _ _ _ _ E V L P M R EG)|].
    eapply Rle_trans; [exact (c115_greedy_miss _ _ _ _ _ _ V L P EG)|]. unfold price_sum, total_weight, price_of. cbn. lra.
Qed.

(** C116: capitalisations 1 and 3 of two correlated assets; both optimizers give a quarter and three quarters *)
Import ExamplesBL.
Lemma prior4 : market_implied_prior_returns caps 1 cf 4 = Ok [21/4; 23/4].
Proof.
  unfold market_implied_prior_returns. cbv zeta. rewrite vsum_tot. rewrite (proj2 (Reqb_false _ 0)) by (cbn; lra). unfold weights_for, cf, caps, tA, tB, sg, has_label. cbn. f_equal. unfold dot. rewrite !vsum_tot. cbn. lists; rewrite ?vsum_tot; cbn; lra.
Qed.
Example ex_c116 : exists w1 o, ef_init (MIn (MuSeries (combine [tA; tB] [21/4; 23/4]))) (CIn cf) (BPair (Some 0) (Some 1)) empty_world = (w1, Ok o) /\
  reports (max_quadratic_utility best_solver 1 false w1 o) [1/4; 3/4] /\ reports (max_sharpe best_solver (NFloat 4) w1 o) [1/4; 3/4].
Proof.
  destruct (ef_init (MIn (MuSeries (combine [tA; tB] [21/4; 23/4]))) (CIn cf) (BPair (Some 0) (Some 1)) empty_world) as [w1 [o|e]] eqn:E; [|discriminate E].
  assert (Em : map (cap_weight caps) [tA; tB] = [1/4; 3/4]) by (cbn; lists; lra).
  assert (HN : NoDup [tB; tA] /\ NoDup [tA; tB]) by (split; repeat constructor; cbn; unfold tA, tB; intuition congruence).
  assert (B : e_lb o = [Some 0; Some 0] /\ e_ub o = [Some 1; Some 1]) by (cbn in E; injection E as _ <-; split; reflexivity). destruct B as [El Eu].
  destruct (c116_market caps 1 [tA; tB] sg 4 [21/4; 23/4] prior4 eq_refl (proj2 HN) (proj1 HN) sg_pos sg_sym ltac:(lra)
    _ _ _ _ _ _ (or_intror eq_refl) (or_intror eq_refl) E) with (sv := best_solver) as [H1 H2].
  - rewrite El. repeat constructor; discriminate.
  - rewrite Eu. repeat constructor; discriminate.
  - cbv zeta. rewrite Em, El, Eu. split; repeat constructor; cbn; lra.
  - exact best_solver_exact. - exact best_solver_complete.
  - exists w1, o. split; [reflexivity|]. rewrite <- Em. split; [apply H1; injection E as <- _; constructor|apply H2; [reflexivity|]]. repeat constructor; cbn; lra.
Qed.
(** a Black-Litterman model whose posterior returns are 2 and 2.5: bl_weights and max_sharpe agree on a third and two thirds *)
Example ex_c116_bl : forall la, exact_linalg la -> let ob := ex_obj [3] [[1]] (1/2) in exists d w1 o,
  snd (bl_weights la ob None) = Ok d /\ b_weights (bl_base (fst (bl_weights la ob None))) = Some [1/3; 2/3] /\
  ef_init (MIn (MuArray (snd (bl_returns la ob)))) (CIn cf) (BPair (Some 0) (Some 1)) empty_world = (w1, Ok o) /\
  reports (max_sharpe best_solver (NFloat 0) w1 o) [1/3; 2/3].
Proof.
  intros la Hla ob. destruct (ex_c56 la Hla) as (Rc & Sp & Ss & _ & _ & _ & _ & Ep). fold ob in Ep. change (snd (bl_returns la ob) = [2; 5/2]) in Ep.
  assert (W : snd (bl_weights la ob None) = Ok [(tA, 1/3); (tB, 2/3)] /\ b_weights (bl_base (fst (bl_weights la ob None))) = Some [1/3; 2/3]).
  { destruct (reachable_ok la ob Rc) as [W C]. pose proof (weights_eq la _ _ ob W C None) as EW. cbv zeta in EW. unfold raw in EW. rewrite Ep in EW. change (bl_ra ob) with 1 in EW. change (bl_sigma ob) with sg in EW.
    destruct Hla as [H1 _]. destruct (H1 2%nat (scale_matrix 1 sg) [2; 5/2]) as [Hi _]; [split; [reflexivity|repeat constructor]|reflexivity|].
    destruct Hi as (x & Ex & Lx & Vx).
    { exists [[2/3; -1/3]; [-1/3; 2/3]]. split; [split; [reflexivity|repeat constructor]|]. intros [|a [|b [|]]] Hw; try discriminate Hw. cbn. lists; field. }
    rewrite Ex in EW. destruct x as [|x [|y [|]]]; try discriminate Lx. cbn in Vx. injection Vx as V1 V2. assert (x = 1/2 /\ y = 1) as [-> ->] by lra.
    rewrite (proj2 (Reqb_false _ 0)) in EW by (cbn; lra). destruct EW as [E1 E2]. rewrite E1, E2. assert (Em : map (fun y => y / total [1/2; 1]) [1/2; 1] = [1/3; 2/3]) by (cbn; lists; field).
    rewrite Em. split; reflexivity. }
  destruct W as [Wd Ww]. rewrite Ep.
  destruct (ef_init (MIn (MuArray [2; 5/2])) (CIn cf) (BPair (Some 0) (Some 1)) empty_world) as [w1 [o|e]] eqn:E; [|discriminate E].
  assert (B : e_lb o = [Some 0; Some 0] /\ e_ub o = [Some 1; Some 1]) by (cbn in E; injection E as _ <-; split; reflexivity). destruct B as [El Eu].
  exists [(tA, 1/3); (tB, 2/3)], w1, o. split; [exact Wd|]. split; [exact Ww|]. split; [reflexivity|].
  destruct (c116_bl_weights la ob None _ Hla Rc Sp Ss I Wd eq_refl (MuArray [2; 5/2]) cf (BPair (Some 0) (Some 1)) empty_world w1 o) as (wts & Ew & H).
  - left. rewrite Ep. reflexivity.
  - right. reflexivity.
  - exact E.
  - rewrite El. repeat constructor; discriminate.
  - rewrite Eu. repeat constructor; discriminate.
  - rewrite Ep. constructor. lra.
  - rewrite Ww in Ew. injection Ew as <-. rewrite Ep in H. apply H; [cbn; lra| |exact best_solver_exact|exact best_solver_complete].
    rewrite El, Eu. split; repeat constructor; cbn; lra.
Qed.

(** C117: two uncorrelated assets with expected returns 2 and 1 *)
Import ExamplesCLA ExamplesGold.
Definition duo_ef : ef := two_ef [2; 1] 0 1.
Lemma duo_same : same_problem duo duo_ef. Proof. repeat split; reflexivity. Qed.
Example ex_c117 : forall inv, sound_inverse inv -> complete_inverse inv ->
  (exists o' d x, cla_min_volatility 10 inv idord duo = (o', Ok d) /\ reports (min_volatility best_solver two_world duo_ef) x /\ qform [[1; 0]; [0; 1]] (dvalues d) <= qform [[1; 0]; [0; 1]] x) /\
  (exists o' d x x', cla_max_sharpe 10 inv idord duo = (o', Ok d) /\ reports (max_sharpe best_solver (NFloat 0) two_world duo_ef) x /\
     ratio [2; 1] [[1; 0]; [0; 1]] (dvalues d) <= ratio [2; 1] [[1; 0]; [0; 1]] x /\ nearly_same [0; 0] [1; 1] x x' /\
     ratio [2; 1] [[1; 0]; [0; 1]] x' <= ratio [2; 1] [[1; 0]; [0; 1]] (dvalues d)).
Proof.
  intros inv Hs Hc. destruct ex_well_posed as [Hp Hl]. destruct ex_general_position as [Hu [He Hg]].
  assert (Bd : bounded (e_lb duo_ef) /\ bounded (e_ub duo_ef)) by (split; repeat constructor; discriminate).
  assert (Half : fits 2 [Some 0; Some 0] [Some 1; Some 1] 1 [1/2; 1/2]) by (split; [reflexivity|]; split; [split; repeat constructor; cbn; lra|cbn; lra]).
  assert (Sq : square 2 [[1; 0]; [0; 1]]) by (split; [reflexivity|repeat constructor]).
  destruct (fits_new two_world duo_ef (two_open _ _ _ _) _ _ _ _ Half) as [s [Ad Es]].
  split.
  - assert (S : succeeds (min_volatility best_solver two_world duo_ef)).
    { destruct (proj2 (c106_min_volatility _ _ _ _ _ _ [] two_world duo_ef (two_ok 2 1 0 1) Sq eq_refl (Forall_nil _) eq_refl (proj1 Bd) (proj2 Bd) (Forall_nil _) best_solver best_solver_exact best_solver_complete)) as (w3 & o3 & d & E).
      - exists s. destruct Ad as (A1 & A2 & A3 & _). repeat split; auto; apply A2.
      - unfold succeeds. rewrite E. exact I. }
    destruct (c117_min_volatility 10 inv idord duo Hs Hc idord_ok Hp Hl (conj Hu (conj He Hg)) ltac:(cbn; lia) best_solver two_world duo_ef best_solver_exact (two_open _ _ _ _) eq_refl duo_same S) as (o' & d & x & H1 & H2 & H3 & _).
    exists o', d, x. auto.
  - assert (S : succeeds (max_sharpe best_solver (NFloat 0) two_world duo_ef)).
    { assert (Nz : forall y, fits (e_n duo_ef) (e_lb duo_ef) (e_ub duo_ef) 1 y -> 0 < qform [[1; 0]; [0; 1]] y).
      { intros y (Ly & _ & Ty). destruct y as [|a [|b [|]]]; try discriminate Ly. rewrite (proj2 (proj2 id2_psd)). cbn in Ty. assert (b = 1 - a) by lra. subst b. pose proof (Rle_0_sqr (a - 1/2)) as K. unfold Rsqr in K. nra. }
      destruct (proj2 (c106_max_sharpe _ _ _ _ _ _ [2; 1] (two_ok 2 1 0 1) Sq eq_refl (proj1 Bd) (proj2 Bd) eq_refl (proj1 id2_psd) best_solver (NFloat 0) 0 best_solver_exact best_solver_complete eq_refl Nz)) as (w3 & o3 & d & E).
      - split; [constructor; lra|]. exists [1/2; 1/2]. split; [exact Half|]. unfold excess. cbn. lra.
      - unfold succeeds, duo_ef. rewrite E. exact I. }
    destruct (duo_success inv Hs Hc) as [o' [d [E Etp]]].
    destruct (c117_max_sharpe 10 inv idord duo o' d Hs idord_ok Hp Hl Hu He E ltac:(rewrite Etp; exact duo_sums) best_solver two_world duo_ef best_solver_exact (two_open _ _ _ _) eq_refl duo_same S) as (x & H1 & H2 & H3).
    destruct (H3 ltac:(rewrite Etp; exact duo_unbroken)) as [x' [H4 H5]]. exists o', d, x, x'. auto.
Qed.
