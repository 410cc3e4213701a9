(** * What the constructor stores; statements for any object in use *)
From Coq Require Import List Reals Lra Lia Arith Bool Classical ZArith.
From Verif Require Import Num Py RBase PyLemmas MBase SLin SHRP SReturns SBL Sums Mat MRisk MBL PBase PCov1 PCov2 PHRP2 PBL1 PBL2 PBL3 PBL4 PBL5 PBL6 PBL7 PBL8 PBL9 PBLW.
Import ListNotations.
Local Open Scope R_scope.

Theorem init_prior : forall a o, bl_init a = Ok o ->
  match a_pi a with
  | PiArr l => bl_pi o = l
  | PiNone => bl_pi o = repeat 0 (bl_n o)
  | PiEqual => bl_pi o = repeat (1 / INR (bl_n o)) (bl_n o)
  | PiMarket => exists caps, a_caps a = Some caps /\ market_implied_prior_returns caps (a_ra a) (a_cov a) (a_rf a) = Ok (bl_pi o)
  | PiBad => False
  end.
Proof.
  intros a o H. destruct (bl_init_inv a o H) as (_ & E2 & _ & _ & _ & _ & _ & _ & Hpi & _). rewrite E2. destruct (a_pi a); cbn [set_pi] in Hpi; try congruence.
  destruct (a_caps a) as [c|]; [|discriminate]. exists c. split; [reflexivity|]. destruct (market_implied_prior_returns _ _ _ _); cbn [rbind] in Hpi; [|discriminate].
  destruct (a_cov a); [exact Hpi|discriminate].
Qed.
Lemma eye_mat_vec : forall n x, length x = n -> mat_vec (array n n delta) x = x.
Proof.
  intros n x Hx. apply (vec_ext n); [rewrite mat_vec_length; apply array_length|exact Hx|]. intros i Hi.
  rewrite (mat_vec_shaped n n) by (auto; apply array_square). unfold app; rewrite (sumn_ext n _ (fun j => delta i j * vec x j)).
  - apply sumn_delta_r. exact Hi.
  - intros j Hj. rewrite array_entry by assumption. reflexivity.
Qed.
Theorem init_views : forall a o, bl_init a = Ok o ->
  match a_views a with
  | VNone => exists q, a_Q a = Some q /\ bl_Q o = q /\
      match a_P a with
      | Some p => bl_P o = p
      | None => length q = bl_n o /\ forall x, length x = bl_n o -> mat_vec (bl_P o) x = x
      end
  | VDict d => length (cov_tickers (a_cov a)) = bl_n o ->
      bl_Q o = map snd d /\ length (bl_P o) = length d /\
      forall x, length x = bl_n o -> map Some (mat_vec (bl_P o) x) = map (fun p => dget (fst p) (combine (cov_tickers (a_cov a)) x)) d
  | VBad => False
  end.
Proof.
  intros a o H. destruct (bl_init_inv a o H) as (_ & E2 & _ & _ & _ & _ & _ & Hv & _). rewrite E2. destruct (a_views a) as [|d|]; [| |discriminate].
  - unfold set_Q_P in Hv. destruct (a_Q a) as [q|]; [|discriminate]. exists q. split; [reflexivity|]. destruct (a_P a) as [p|].
    + injection Hv as <- <-. auto.
    + destruct (Nat.eqb_spec (length q) (length (cov_values (a_cov a)))) as [E|E]; [|discriminate]. injection Hv as <- <-. repeat split; auto. intros x Hx. apply eye_mat_vec. exact Hx.
  - intros Hl. exact (parse_views_ok _ _ _ _ _ Hv Hl).
Qed.
(** uncertainty of the views: off the diagonal always zero *)
Theorem init_omega : forall a o, bl_init a = Ok o ->
  (forall m, a_omega a = OmArr m -> bl_omega o = m) /\
  (a_omega a = OmDefault \/ a_omega a = OmIdzorek ->
   forall i j, (i < length (bl_Q o))%nat -> (j < length (bl_Q o))%nat ->
   let v := bl_tau o * qform (bl_sigma o) (nth i (bl_P o) []) in let c := nth i (conf_list (a_conf a)) 0 in
   (i <> j -> entry (bl_omega o) i j = 0) /\
   (a_omega a = OmDefault -> entry (bl_omega o) i i = v) /\
   (a_omega a = OmIdzorek -> 0 < c -> entry (bl_omega o) i i = (1 - c) / c * v) /\
   (a_omega a = OmIdzorek -> c = 0 -> entry (bl_omega o) i i = 10 ^ 6)).
Proof.
  intros a o H. pose proof (init_wf a o H) as W. pose proof (omega_inv a o H) as Ho. split; [intros m E; rewrite E in Ho; exact Ho|].
  intros E i j Hi Hj. cbv zeta. pose proof (view_variance_qform _ _ _ _ i (wf_sigma _ _ o W) (wf_P _ _ o W) Hi) as EV.
  assert (ED : exists f, bl_omega o = diag_matrix (length (bl_Q o)) f /\ (a_omega a = OmDefault -> f i = bl_tau o * qform (bl_sigma o) (nth i (bl_P o) [])) /\
    (a_omega a = OmIdzorek -> f i = if Reqb (nth i (conf_list (a_conf a)) 0) 0 then 10 ^ 6 else bl_tau o * idz (nth i (conf_list (a_conf a)) 0) * qform (bl_sigma o) (nth i (bl_P o) []))).
  { destruct E as [E|E]; rewrite E in Ho.
    - eexists. split; [exact Ho|]. split; [intros _; cbv beta; rewrite EV; reflexivity|intros E'; congruence].
    - apply idzorek_inv in Ho. destruct Ho as (_ & _ & Ho). eexists. split; [exact Ho|]. split; [intros E'; congruence|]. intros _. cbv beta. rewrite EV. reflexivity. }
  destruct ED as (f & -> & F1 & F2). rewrite !diag_entry by assumption. rewrite Nat.eqb_refl. split; [|split; [exact F1|]].
  - intros Hne. rewrite (proj2 (Nat.eqb_neq i j) Hne). reflexivity.
  - split; intros E' Hc; rewrite (F2 E').
    + rewrite (proj2 (Reqb_false _ 0)) by lra. unfold idz. ring.
    + rewrite Hc, (proj2 (Reqb_true 0 0) eq_refl). reflexivity.
Qed.
(** nothing but the caches, weights and reports ever changes *)
Theorem inputs_constant : forall la a o0 ops, bl_init a = Ok o0 -> let o := bl_run la o0 ops in
  bl_sigma o = cov_values (a_cov a) /\ bl_n o = length (cov_values (a_cov a)) /\ b_tickers (bl_base o) = cov_tickers (a_cov a) /\
  bl_tau o = a_tau a /\ bl_ra o = a_ra a /\ bl_Q o = bl_Q o0 /\ bl_P o = bl_P o0 /\ bl_pi o = bl_pi o0 /\ bl_omega o = bl_omega o0.
Proof.
  intros la a o0 ops H o. destruct (run_good la ops o0 (init_caches la a o0 H)) as [HI _]. fold o in HI.
  destruct (bl_init_inv a o0 H) as (E1 & E2 & E3 & E4 & E5 & _). unfold inputs in HI. injection HI as I1 I2 I3 I4 I5 I6 I7 I8 I9. rewrite E3 in *. cbn [base_init b_tickers] in *. repeat split; congruence.
Qed.

Section Use.
  Variables (la : linalg) (o : bl).
  Hypothesis Hla : exact_linalg la.
  Hypothesis H : reachable la o.
  Let n := bl_n o.
  Let k := length (bl_Q o).
  Theorem use_bayes : forall precS precO, pos_def n (bl_sigma o) -> symmetric n (bl_sigma o) -> pos_def k (bl_omega o) -> symmetric k (bl_omega o) ->
    right_inverse n (scale_matrix (bl_tau o) (bl_sigma o)) precS -> right_inverse k (bl_omega o) precO ->
    let mu := snd (bl_returns la o) in let loss := bayes_loss precS precO (bl_P o) (bl_pi o) (bl_Q o) in
    length mu = n /\ forall nu, length nu = n -> loss mu <= loss nu /\ (loss nu = loss mu -> nu = mu).
  Proof. intros. destruct (reachable_ok la o H) as [W C]. apply (bayes_minimum la n k); assumption. Qed.
  Theorem use_formula : forall precS precO, pos_def n (bl_sigma o) -> symmetric n (bl_sigma o) -> pos_def k (bl_omega o) -> symmetric k (bl_omega o) ->
    right_inverse n (scale_matrix (bl_tau o) (bl_sigma o)) precS -> right_inverse k (bl_omega o) precO ->
    let mu := snd (bl_returns la o) in
    plus_vec (mat_vec precS mu) (combine_rows n (bl_P o) (mat_vec precO (mat_vec (bl_P o) mu))) =
    plus_vec (mat_vec precS (bl_pi o)) (combine_rows n (bl_P o) (mat_vec precO (bl_Q o))).
  Proof. intros. destruct (reachable_ok la o H) as [W C]. apply (bayes_formula la n k); assumption. Qed.
  Hypothesis HS : psd n (bl_sigma o).
  Hypothesis HSs : symmetric n (bl_sigma o).
  Hypothesis HO : psd k (bl_omega o).
  Hypothesis HOs : symmetric k (bl_omega o).
  Lemma use_regular : regular n k o.
  Proof. destruct (reachable_ok la o H) as [W C]. constructor; assumption. Qed.
  Theorem use_prior : mat_vec (bl_P o) (bl_pi o) = bl_Q o -> snd (bl_returns la o) = bl_pi o.
  Proof. destruct (reachable_ok la o H) as [W C]. apply (returns_prior la n k o Hla use_regular C). Qed.
  Theorem use_cov : let C := snd (bl_cov la o) in symmetric n C /\
    forall w, length w = n -> qform (bl_sigma o) w <= qform C w <= (1 + bl_tau o) * qform (bl_sigma o) w.
  Proof.
    destruct (reachable_ok la o H) as [W C]. split; [apply (cov_symmetric la n k o Hla use_regular C)|]. intros w Hw. apply (cov_between la n k o Hla use_regular C w Hw).
  Qed.
End Use.
Theorem use_certain : forall la o, exact_linalg la -> reachable la o -> let n := bl_n o in let k := length (bl_Q o) in
  pos_def n (bl_sigma o) -> symmetric n (bl_sigma o) -> bl_omega o = zero_matrix k ->
  (exists mu, length mu = n /\ mat_vec (bl_P o) mu = bl_Q o) -> mat_vec (bl_P o) (snd (bl_returns la o)) = bl_Q o.
Proof.
  intros la o Hla H n k HS HSs HO Hm. destruct (reachable_ok la o H) as [W C].
  assert (Z : forall i j, entry (zero_matrix k) i j = 0).
  { intros i j. unfold zero_matrix, entry. destruct (Nat.lt_ge_cases i k) as [Hi|Hi].
    - rewrite (nth_indep _ [] (repeat 0 k)) by (rewrite repeat_length; exact Hi). rewrite nth_repeat. apply nth_repeat.
    - rewrite (nth_overflow (repeat (repeat 0 k) k)) by (rewrite repeat_length; exact Hi). destruct j; reflexivity. }
  apply (returns_certain la n k o Hla); try assumption. constructor; [exact W|apply pos_def_psd; exact HS|exact HSs| |]; rewrite HO.
  - apply psd_from_bil; [split; [apply repeat_length|apply Forall_forall; intros r Hr; apply repeat_spec in Hr; subst; apply repeat_length]|].
    intros x. rewrite bil_app. rewrite sumn_zero; [lra|]. intros i Hi. unfold app. rewrite sumn_zero; [ring|]. intros j Hj. rewrite Z. ring.
  - intros i j _ _. rewrite !Z. reflexivity.
Qed.
Theorem use_weights_sum : forall la o ra d, exact_linalg la -> reachable la o -> snd (bl_weights la o ra) = Ok d ->
  exists w, b_weights (bl_base (fst (bl_weights la o ra))) = Some w /\ length w = bl_n o /\ total w = 1 /\
    (length (b_tickers (bl_base o)) = bl_n o -> NoDup (b_tickers (bl_base o)) -> d = combine (b_tickers (bl_base o)) w).
Proof. intros la o ra d Hla H. destruct (reachable_ok la o H) as [W C]. apply (weights_sum la _ _ o Hla W C). Qed.
Theorem use_risk_aversion : forall la o, exact_linalg la -> reachable la o -> symmetric (bl_n o) (bl_sigma o) -> forall d1 d2, d1 <> 0 -> d2 <> 0 ->
  snd (bl_weights la o (Some d1)) = snd (bl_weights la o (Some d2)) /\ snd (bl_weights la o None) = snd (bl_weights la o (Some d1)).
Proof. intros la o Hla H Hs. destruct (reachable_ok la o H) as [W C]. apply (weights_risk_aversion la _ _ o Hla W C Hs). Qed.
Theorem use_singular : forall la o, exact_linalg la -> reachable la o -> ~ invertible (bl_n o) (bl_sigma o) -> length (bl_Q o) <> bl_n o ->
  forall ra, match ra with Some d => d <> 0 | None => True end -> snd (bl_weights la o ra) = Err LinAlgError.
Proof. intros la o Hla H. destruct (reachable_ok la o H) as [W C]. apply (weights_singular la _ _ o Hla W C). Qed.
(** positive weights equation: the weights solve the documented equation when the covariance matrix is invertible *)
Theorem use_equation : forall la o ra d, exact_linalg la -> reachable la o -> invertible (bl_n o) (bl_sigma o) ->
  match ra with Some d => d <> 0 | None => True end -> snd (bl_weights la o ra) = Ok d ->
  exists w c, b_weights (bl_base (fst (bl_weights la o ra))) = Some w /\ c <> 0 /\ mat_vec (scale_matrix c (bl_sigma o)) w = snd (bl_returns la o).
Proof.
  intros la o ra d Hla H HI Hd E. destruct (reachable_ok la o H) as [W C]. pose proof (weights_eq la _ _ o W C ra) as EW. cbv zeta in EW. unfold raw in EW.
  set (x := match ra with None => bl_ra o | Some y => y end) in *. assert (Hx : x <> 0) by (unfold x; destruct ra; [exact Hd|pose proof (wf_ra _ _ o W); lra]).
  pose proof Hla as [H1 _]. destruct (H1 (bl_n o) (scale_matrix x (bl_sigma o)) (snd (bl_returns la o))) as [Hi _].
  { apply scale_matrix_square. apply (wf_sigma _ _ o W). } { apply (post_length la _ _ o W C). }
  destruct Hi as (y & Ey & Ly & Vy); [apply invertible_scale; [apply (wf_sigma _ _ o W)|exact Hx|exact HI]|]. rewrite Ey in EW.
  destruct (Reqb (total y) 0) eqn:E0; [congruence|]. apply Reqb_false in E0. destruct EW as [_ EW]. eexists. exists (x * total y). split; [exact EW|]. split; [apply Rmult_integral_contrapositive_currified; assumption|].
  rewrite <- Vy. unfold mat_vec, scale_matrix. rewrite !map_map. apply map_ext. intros row.
  assert (G : forall (r z : list R), inner (map (Rmult (x * total y)) r) (map (fun u => u / total y) z) = inner (map (Rmult x) r) z).
  { induction r as [|a r IH]; intros [|b z]; try reflexivity. cbn. rewrite IH. field. exact E0. }
  apply G.
Qed.
(** value of market_implied_risk_aversion *)
Lemma pct_simple : forall p, Forall (fun v => 0 < v) p -> pct_changes p = Ok (simple_returns p).
Proof.
  induction p as [|x p IH]; intros H; [reflexivity|]. destruct p as [|y p]; [reflexivity|]. inversion H; subst.
  change (pct_changes (x :: y :: p)) with (if Reqb x 0 then Err FloatSpecial else do r <- pct_changes (y :: p) ; Ok (y / x - 1 :: r)).
  rewrite (proj2 (Reqb_false x 0)) by lra. rewrite IH by assumption. reflexivity.
Qed.
Theorem risk_aversion_value : forall p f rf, Forall (fun v => 0 < v) p -> (3 <= length p)%nat -> let r := simple_returns p in
  sample_covariance r r * f <> 0 ->
  market_implied_risk_aversion p f rf = Ok ((average r * f - rf) / (sample_covariance r r * f)).
Proof.
  intros p f rf Hp HL r Hv. unfold market_implied_risk_aversion. rewrite pct_simple by exact Hp. cbn [rbind]. fold r.
  assert (Lr : S (length r) = length p).
  { unfold r. clear -HL. destruct p as [|x p]; [cbn in HL; lia|]. clear HL. revert x. induction p as [|y p IH]; intros x; [reflexivity|]. specialize (IH y). cbn [length] in *. change (simple_returns (x :: y :: p)) with (y / x - 1 :: simple_returns (y :: p)). cbn [length]. lia. }
  rewrite (proj2 (Nat.leb_gt (length r) 1)) by lia. rewrite !vsum_tot. fold (average r).
  assert (EV : total (map (fun x => (x - average r) * (x - average r)) r) / INR (length r - 1) = sample_covariance r r).
  { unfold sample_covariance. rewrite minus_INR by lia. cbn [INR]. f_equal. rewrite <- (map_map (fun k => nth k r 0) (fun x => (x - average r) * (x - average r))). assert (EL : forall l : list R, map (fun k => nth k l 0) (seq 0 (length l)) = l) by (clear; induction l as [|y l IH]; [reflexivity|]; cbn [length seq map nth]; f_equal; rewrite <- seq_shift, map_map; exact IH). rewrite EL. reflexivity. }
  rewrite EV. rewrite (proj2 (Reqb_false _ 0)) by exact Hv. reflexivity.
Qed.
