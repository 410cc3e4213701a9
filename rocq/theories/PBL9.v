(** * Views (C64), market prior (C61, C65), validation and market-implied risk aversion *)
From Coq Require Import List Reals Lra Lia Arith Bool Permutation Classical ZArith.
From Verif Require Import Num Py RBase PyLemmas MBase SLin SBL Sums Mat MRisk MBL PBase PCov1 PCov2 PHRP2 PBL1 PBL2 PBL3 PBL4 PBL5 PBL6 PBL8.
Import ListNotations.
Local Open Scope R_scope.

(** ** C64 *)
Lemma index_of_spec : forall l ls, (index_of l ls = None <-> ~ In l ls) /\
  (forall i (x : list R), index_of l ls = Some i -> length x = length ls -> (i < length ls)%nat /\ dget l (combine ls x) = Some (nth i x 0)).
Proof.
  intros l ls. induction ls as [|y ls [IH1 IH2]].
  - split; [split; [intros _ []|reflexivity]|discriminate].
  - cbn [index_of]. destruct (label_eqb_spec l y) as [->|Hne]; [split; [split; [discriminate|intros H; exfalso; apply H; left; reflexivity]|]|].
    + intros i x E Hx. injection E as <-. destruct x; [discriminate|]. cbn. rewrite label_eqb_refl. split; [lia|reflexivity].
    + split.
      * destruct (index_of l ls) as [j|] eqn:E; cbn; [split; [discriminate|]|split; [|reflexivity]].
        -- intros H. exfalso. apply H. right. destruct (in_dec label_eq_dec l ls) as [Hin|Hin]; [exact Hin|]. apply IH1 in Hin. discriminate.
        -- intros _ [H|H]; [congruence|]. apply (proj1 IH1 eq_refl H).
      * intros i x E Hx. destruct (index_of l ls) as [j|]; [|discriminate]. cbn in E. injection E as <-. destruct x as [|a x]; [discriminate|]. cbn in Hx. injection Hx as Hx.
        destruct (IH2 j x eq_refl Hx) as [Hj Hd]. cbn. rewrite (label_eqb_neq l y Hne). split; [lia|exact Hd].
Qed.
Lemma pick_row_inner : forall n i x, length x = n -> (i < n)%nat -> inner (pick_row n i) x = nth i x 0.
Proof.
  intros n i x Hx Hi. assert (HL : length (pick_row n i) = n) by (unfold pick_row; rewrite map_length, seq_length; reflexivity).
  rewrite (inner_vec n) by assumption. rewrite (sumn_ext n _ (fun j => delta i j * vec x j)).
  - apply sumn_delta_r. exact Hi.
  - intros j Hj. unfold pick_row. rewrite vec_map_seq by exact Hj. reflexivity.
Qed.
Theorem parse_views_ok : forall tickers views Q P n, parse_views n tickers views = Ok (Q, P) -> length tickers = n ->
  Q = map snd views /\ length P = length views /\
  forall x, length x = n -> map Some (mat_vec P x) = map (fun p => dget (fst p) (combine tickers x)) views.
Proof.
  intros tickers views. unfold parse_views. induction views as [|[l v] views IH]; intros Q P n H Hn; cbn [mapM] in H.
  - cbn in H. injection H as <- <-. repeat split.
  - cbn [fst snd] in H. destruct (index_of l tickers) as [i|] eqn:Ei; cbn [rbind] in H; [|discriminate].
    destruct (mapM _ views) as [rows|e] eqn:E; cbn [rbind] in H; [|discriminate]. injection H as <- <-.
    destruct (IH (map fst rows) (map snd rows) n) as (H1 & H2 & H3); [rewrite E; reflexivity|exact Hn|].
    cbn [map fst snd length]. split; [rewrite H1; reflexivity|]. split; [rewrite <- H2; reflexivity|]. intros x Hx. cbn [mat_vec map]. f_equal; [|apply H3; exact Hx].
    destruct (index_of_spec l tickers) as [_ HS]. destruct (HS i x Ei) as [Hi Hd]; [congruence|]. rewrite Hd. f_equal. apply pick_row_inner; [exact Hx|congruence].
Qed.
Theorem parse_views_unknown : forall tickers views n, (exists l, In l (map fst views) /\ ~ In l tickers) -> parse_views n tickers views = Err ValueError.
Proof.
  intros tickers views n (l & Hl & Hnot). unfold parse_views.
  assert (E : mapM (fun p : label * R => match index_of (fst p) tickers with Some i => Ok (snd p, pick_row n i) | None => Err ValueError end) views = Err ValueError); [|rewrite E; reflexivity].
  induction views as [|[k v] views IH]; [destruct Hl|]. cbn [mapM]. cbn [fst snd]. destruct (index_of k tickers) as [i|] eqn:Ei; [|reflexivity]. cbn [rbind].
  destruct Hl as [Hl|Hl]; [exfalso; cbn in Hl; subst k; apply (proj2 (proj1 (index_of_spec l tickers))) in Hnot; congruence|]. rewrite (IH Hl). reflexivity.
Qed.
Theorem parse_views_known : forall tickers views n, (forall l, In l (map fst views) -> In l tickers) -> exists Q P, parse_views n tickers views = Ok (Q, P).
Proof.
  intros tickers views n. unfold parse_views. induction views as [|[k v] views IH]; intros H; [cbn; eauto|]. cbn [mapM]. cbn [fst snd].
  destruct (index_of k tickers) as [i|] eqn:Ei; [|exfalso; apply (proj1 (index_of_spec k tickers)) in Ei; apply Ei, H; left; reflexivity]. cbn [rbind].
  destruct IH as (Q & P & E); [intros l Hl; apply H; right; exact Hl|]. destruct (mapM _ views) as [rows|e]; cbn [rbind] in *; [|discriminate]. eauto.
Qed.
Theorem init_unknown_view : forall a d, a_views a = VDict d -> (exists l, In l (map fst d) /\ ~ In l (cov_tickers (a_cov a))) -> bl_init a = Err ValueError.
Proof.
  intros a d Hd Hu. unfold bl_init. cbv zeta. rewrite Hd. cbn [b_tickers base_init]. rewrite parse_views_unknown by exact Hu. reflexivity.
Qed.

(** ** C65 *)
Theorem prior_scale : forall caps c d cov rf, c <> 0 ->
  market_implied_prior_returns (map (fun p => (fst p, c * snd p)) caps) d cov rf = market_implied_prior_returns caps d cov rf.
Proof.
  intros caps c d cov rf Hc. unfold market_implied_prior_returns. cbv zeta. rewrite map_map. cbn [snd].
  assert (ES : vsum (map (fun x : label * R => c * snd x) caps) = c * vsum (map snd caps)) by (rewrite !vsum_tot; apply (total_map_scal snd c caps)).
  rewrite ES. destruct (Reqb (vsum (map snd caps)) 0) eqn:E0.
  - apply Reqb_true in E0. rewrite E0, Rmult_0_r. rewrite (proj2 (Reqb_true 0 0) eq_refl). reflexivity.
  - apply Reqb_false in E0. rewrite (proj2 (Reqb_false (c * vsum (map snd caps)) 0)) by (apply Rmult_integral_contrapositive_currified; assumption).
    rewrite map_map. cbn [fst snd].
    rewrite (map_ext (fun x : label * R => (fst x, c * snd x / (c * vsum (map snd caps)))) (fun p => (fst p, snd p / vsum (map snd caps)))); [reflexivity|].
    intros p. f_equal. field. split; assumption.
Qed.
(** value and alignment of the prior *)
Theorem prior_frame : forall caps d cols m rf pi, market_implied_prior_returns caps d (CovFrame cols m) rf = Ok pi ->
  (forall l, In l cols <-> In l (map fst caps)) /\ total (map snd caps) <> 0 /\
  pi = map (fun x => d * x + rf) (mat_vec m (map (cap_weight caps) cols)).
Proof.
  intros caps d cols m rf pi H. unfold market_implied_prior_returns in H. cbv zeta in H. rewrite vsum_tot in H.
  destruct (Reqb (total (map snd caps)) 0) eqn:E0; [discriminate|]. apply Reqb_false in E0. unfold weights_for in H.
  set (w := map (fun p : label * R => (fst p, snd p / total (map snd caps))) caps) in *.
  destruct (forallb (has_label w) cols) eqn:E1; [|discriminate]. destruct (forallb (fun l => existsb (label_eqb l) cols) (map fst w)) eqn:E2; [|discriminate]. cbn [andb rbind cov_values] in H.
  assert (EK : map fst w = map fst caps) by (unfold w; rewrite map_map; reflexivity).
  rewrite forallb_forall in E1, E2. split; [|split; [exact E0|]].
  - intros l. split; intros Hl.
    + specialize (E1 l Hl). unfold has_label in E1. destruct (dget l w) eqn:E; [|discriminate]. rewrite <- EK. apply dget_Some_iff. eauto.
    + rewrite <- EK in Hl. specialize (E2 l Hl). apply existsb_exists in E2. destruct E2 as (y & Hy & Ey). destruct (label_eqb_spec l y); [congruence|discriminate].
  - injection H as <-. f_equal. unfold mat_vec. apply map_ext. intros row. rewrite dot_inner. f_equal. apply map_ext. intros l. unfold cap_weight, w.
    clear. induction caps as [|[k c] caps IH]; [reflexivity|]. set (T := total (map snd ((k, c) :: caps))). clearbody T.
    assert (G : forall L, match dget l (map (fun p : label * R => (fst p, snd p / T)) L) with Some x => x | None => 0 end = match dget l L with Some c0 => c0 / T | None => 0 end).
    { induction L as [|[a b] L IHL]; [reflexivity|]. cbn. destruct (label_eqb l a); [reflexivity|exact IHL]. }
    apply G.
Qed.
Lemma cap_weight_total : forall caps cols, NoDup cols -> NoDup (map fst caps) -> (forall l, In l cols <-> In l (map fst caps)) -> total (map snd caps) <> 0 ->
  total (map (cap_weight caps) cols) = 1.
Proof.
  intros caps cols H1 H2 H3 H4. assert (HP : Permutation cols (map fst caps)) by (apply NoDup_Permutation; assumption).
  rewrite <- vsum_tot. rewrite (vsum_perm _ _ (Permutation_map (cap_weight caps) HP)). rewrite vsum_tot.
  assert (E : map (cap_weight caps) (map fst caps) = map (fun p => snd p / total (map snd caps)) caps).
  { rewrite map_map. apply map_ext_in. intros [l c] Hin. unfold cap_weight. cbn [fst snd]. rewrite (In_dget caps l c H2 Hin). reflexivity. }
  rewrite E. rewrite <- (map_map snd (fun c => c / total (map snd caps))). apply total_quotient. exact H4.
Qed.
(** *** market portfolio as a fixed point *)
Theorem market_fixed_point : forall la a o cols m caps, exact_linalg la -> bl_init a = Ok o ->
  a_cov a = CovFrame cols m -> length cols = length m -> NoDup cols -> a_pi a = PiMarket -> a_caps a = Some caps -> NoDup (map fst caps) -> a_rf a = 0 ->
  mat_vec (bl_P o) (bl_pi o) = bl_Q o ->
  pos_def (length m) m -> symmetric (length m) m ->
  psd (length (bl_Q o)) (bl_omega o) -> symmetric (length (bl_Q o)) (bl_omega o) ->
  forall ra, match ra with Some d => 0 < d | None => True end ->
    snd (bl_weights la o ra) = Ok (combine cols (map (cap_weight caps) cols)).
Proof.
  intros la a o cols m caps Hla H Ecov Hcols Hnd Epi Ecaps Hk Erf HQ Hpd Hs HO HOs ra Hra.
  pose proof (init_wf a o H) as W. pose proof (init_caches la a o H) as C.
  destruct (bl_init_inv a o H) as (E1 & E2 & E3 & _ & E5 & Hra0 & _ & _ & Hpi & _). rewrite Ecov in *. cbn [cov_values cov_tickers] in *.
  set (n := length m) in *. set (k := length (bl_Q o)) in *. rewrite E2 in W.
  rewrite Epi, Ecaps, Erf in Hpi. cbn [set_pi] in Hpi.
  destruct (market_implied_prior_returns caps (a_ra a) (CovFrame cols m) 0) as [pi|e] eqn:EP; cbn [rbind] in Hpi; [|discriminate]. injection Hpi as Hpi. subst pi.
  destruct (prior_frame _ _ _ _ _ _ EP) as (Hset & Htot & Epi').
  assert (Hr : regular n k o) by (constructor; auto; rewrite E1; [apply pos_def_psd; exact Hpd|exact Hs]).
  pose proof (returns_prior la n k o Hla Hr C HQ) as ER.
  set (w := map (cap_weight caps) cols) in *.
  assert (Hw : length w = n) by (unfold w; rewrite map_length; exact Hcols).
  assert (Hw1 : total w = 1) by (apply cap_weight_total; assumption).
  assert (HI : invertible n (bl_sigma o)) by (rewrite E1; apply posdef_invertible; [apply Hpd|exact Hs|apply pos_def_posdef; exact Hpd]).
  rewrite (weights_invertible la n k o Hla W C) with (x := w); [| | | | | |].
  - rewrite E3. cbn [base_init b_tickers]. f_equal. apply dict_of_pairs_NoDup. rewrite combine_map_fst by congruence. exact Hnd.
  - rewrite E1. exact Hs.
  - exact HI.
  - exact Hw.
  - exists (a_ra a). split; [lra|]. rewrite ER, Epi', E1. unfold mat_vec, scale_matrix. rewrite !map_map. apply map_ext. intros row.
    rewrite Rplus_0_r. symmetry. rewrite <- inner_scale_l. reflexivity.
  - exact Hw1.
  - destruct ra; [lra|exact I].
Qed.

(** ** Validation in the constructor *)
Theorem init_checks : forall a o, bl_init a = Ok o ->
  0 < a_tau a <= 1 /\ 0 < a_ra a /\ length (bl_pi o) = bl_n o /\ shaped (length (bl_Q o)) (bl_n o) (bl_P o) /\
  shaped (bl_n o) (bl_n o) (bl_sigma o) /\ shaped (length (bl_Q o)) (length (bl_Q o)) (bl_omega o) /\
  (a_omega a = OmIdzorek -> forall i, (i < length (bl_Q o))%nat -> 0 <= nth i (conf_list (a_conf a)) 0 <= 1).
Proof.
  intros a o H. pose proof (init_wf a o H) as W. destruct (bl_init_inv a o H) as (_ & _ & _ & _ & _ & H1 & H2 & _).
  repeat split; try apply W; try apply H2; try exact H1; intros; apply (conf_range a o H); assumption.
Qed.
Theorem market_array_refuses : forall a m, a_cov a = CovArray m -> a_pi a = PiMarket -> forall o, bl_init a <> Ok o.
Proof.
  intros a m Ec Ep o H. destruct (bl_init_inv a o H) as (_ & _ & _ & _ & _ & _ & _ & _ & Hpi & _). rewrite Ec, Ep in Hpi. cbn [set_pi] in Hpi.
  destruct (a_caps a) as [c|]; [|discriminate]. destruct (market_implied_prior_returns _ _ _ _); discriminate.
Qed.

(** ** market_implied_risk_aversion *)
Lemma pct_scale : forall c p, c <> 0 -> pct_changes (map (Rmult c) p) = pct_changes p.
Proof.
  intros c p Hc. induction p as [|x p IH]; [reflexivity|]. destruct p as [|y p]; [reflexivity|].
  cbn [map] in *. change (pct_changes (c * x :: c * y :: map (Rmult c) p)) with (if Reqb (c * x) 0 then Err FloatSpecial else do r <- pct_changes (c * y :: map (Rmult c) p) ; Ok (c * y / (c * x) - 1 :: r)).
  rewrite IH. change (pct_changes (x :: y :: p)) with (if Reqb x 0 then Err FloatSpecial else do r <- pct_changes (y :: p) ; Ok (y / x - 1 :: r)).
  destruct (Reqb x 0) eqn:E.
  - apply Reqb_true in E. rewrite E, Rmult_0_r, (proj2 (Reqb_true 0 0) eq_refl). reflexivity.
  - apply Reqb_false in E. rewrite (proj2 (Reqb_false (c * x) 0)) by (apply Rmult_integral_contrapositive_currified; assumption).
    replace (c * y / (c * x)) with (y / x) by (field; split; assumption). reflexivity.
Qed.
Theorem risk_aversion_scale : forall c p f rf, c <> 0 -> market_implied_risk_aversion (map (Rmult c) p) f rf = market_implied_risk_aversion p f rf.
Proof. intros. unfold market_implied_risk_aversion. rewrite pct_scale by assumption. reflexivity. Qed.
Theorem risk_aversion_frequency : forall p f g, f <> 0 -> g <> 0 -> market_implied_risk_aversion p f 0 = market_implied_risk_aversion p g 0.
Proof.
  intros p f g Hf Hg. unfold market_implied_risk_aversion. destruct (pct_changes p) as [r|e]; [|reflexivity]. cbn [rbind]. destruct (Nat.leb (length r) 1); [reflexivity|].
  set (m := vsum r / INR (length r)). set (v := vsum (map (fun x => (x - m) * (x - m)) r) / INR (length r - 1)).
  destruct (Reqb (v * f) 0) eqn:E1.
  - apply Reqb_true in E1. apply Rmult_integral in E1. destruct E1 as [E1|E1]; [|contradiction]. rewrite (proj2 (Reqb_true (v * g) 0)) by (rewrite E1; ring). reflexivity.
  - apply Reqb_false in E1. assert (Hv : v <> 0) by (intros E; apply E1; rewrite E; ring).
    rewrite (proj2 (Reqb_false (v * g) 0)) by (apply Rmult_integral_contrapositive_currified; assumption). f_equal. field. repeat split; assumption.
Qed.
Theorem prior_market_return : forall caps d cols m rf pi, NoDup cols -> NoDup (map fst caps) -> square (length cols) m ->
  market_implied_prior_returns caps d (CovFrame cols m) rf = Ok pi ->
  let w := map (cap_weight caps) cols in inner w pi = d * qform m w + rf.
Proof.
  intros caps d cols m rf pi Hc Hk Hm H w. destruct (prior_frame _ _ _ _ _ _ H) as (Hs & Ht & ->). fold w.
  assert (Hw1 : total w = 1) by (apply cap_weight_total; assumption).
  assert (G : forall (x y : list R), length x = length y -> inner x (map (fun z => d * z + rf) y) = d * inner x y + rf * total x).
  { induction x as [|a x IH]; intros [|b y] HL; try discriminate; cbn; [ring|]. rewrite IH by (cbn in HL; congruence). ring. }
  rewrite G; [rewrite Hw1; unfold qform, mat_vec; ring|]. unfold w. rewrite map_length, mat_vec_length. symmetry. apply Hm.
Qed.
