(** * Properties of the Black-Litterman model (C56-C65, C86, C87) *)
From Coq Require Import ZArith List Bool Reals.
From Verif Require Import Num Py MBase SLin SHRP SReturns SBL MBL PBL3 PBL4 PBL6 PBL7 PBL8 PBL9 PBLW PBL10 PBL11.
Import ListNotations.
Local Open Scope R_scope.

(** C56 *)
Theorem c56_bayes_estimate : forall la o, exact_linalg la -> reachable la o -> forall precS precO,
  pos_def (bl_n o) (bl_sigma o) -> symmetric (bl_n o) (bl_sigma o) -> pos_def (length (bl_Q o)) (bl_omega o) -> symmetric (length (bl_Q o)) (bl_omega o) ->
  right_inverse (bl_n o) (scale_matrix (bl_tau o) (bl_sigma o)) precS -> right_inverse (length (bl_Q o)) (bl_omega o) precO ->
  let mu := snd (bl_returns la o) in let loss := bayes_loss precS precO (bl_P o) (bl_pi o) (bl_Q o) in
  length mu = bl_n o /\ forall nu, length nu = bl_n o -> loss mu <= loss nu /\ (loss nu = loss mu -> nu = mu).
Proof. exact use_bayes. Qed.
Print Assumptions c56_bayes_estimate.
Theorem c56_formula : forall la o, exact_linalg la -> reachable la o -> forall precS precO,
  pos_def (bl_n o) (bl_sigma o) -> symmetric (bl_n o) (bl_sigma o) -> pos_def (length (bl_Q o)) (bl_omega o) -> symmetric (length (bl_Q o)) (bl_omega o) ->
  right_inverse (bl_n o) (scale_matrix (bl_tau o) (bl_sigma o)) precS -> right_inverse (length (bl_Q o)) (bl_omega o) precO ->
  let mu := snd (bl_returns la o) in
  plus_vec (mat_vec precS mu) (combine_rows (bl_n o) (bl_P o) (mat_vec precO (mat_vec (bl_P o) mu))) =
  plus_vec (mat_vec precS (bl_pi o)) (combine_rows (bl_n o) (bl_P o) (mat_vec precO (bl_Q o))).
Proof. exact use_formula. Qed.
Print Assumptions c56_formula.

(** C57 *)
Theorem c57_views_equal_prior : forall la o, exact_linalg la -> reachable la o ->
  psd (bl_n o) (bl_sigma o) -> symmetric (bl_n o) (bl_sigma o) -> psd (length (bl_Q o)) (bl_omega o) -> symmetric (length (bl_Q o)) (bl_omega o) ->
  mat_vec (bl_P o) (bl_pi o) = bl_Q o -> snd (bl_returns la o) = bl_pi o.
Proof. exact use_prior. Qed.
Print Assumptions c57_views_equal_prior.
Theorem c57_certain_views : forall la o, exact_linalg la -> reachable la o -> let n := bl_n o in let k := length (bl_Q o) in
  pos_def n (bl_sigma o) -> symmetric n (bl_sigma o) -> bl_omega o = zero_matrix k ->
  (exists mu, length mu = n /\ mat_vec (bl_P o) mu = bl_Q o) -> mat_vec (bl_P o) (snd (bl_returns la o)) = bl_Q o.
Proof. exact use_certain. Qed.
Print Assumptions c57_certain_views.

(** C58 *)
Theorem c58_idzorek_single : forall la a o c, exact_linalg la -> bl_init a = Ok o -> a_omega a = OmIdzorek -> length (bl_Q o) = 1%nat ->
  nth_error (conf_list (a_conf a)) 0 = Some c -> psd (bl_n o) (bl_sigma o) -> symmetric (bl_n o) (bl_sigma o) ->
  let p := nth 0 (bl_P o) [] in
  0 < qform (bl_sigma o) p ->
  (0 < c -> inner p (snd (bl_returns la o)) = (1 - c) * inner p (bl_pi o) + c * nth 0 (bl_Q o) 0) /\
  (c = 0 -> inner p (snd (bl_returns la o)) = inner p (bl_pi o) +
     bl_tau o * qform (bl_sigma o) p / (bl_tau o * qform (bl_sigma o) p + 10 ^ 6) * (nth 0 (bl_Q o) 0 - inner p (bl_pi o))).
Proof. exact idzorek_single. Qed.
Print Assumptions c58_idzorek_single.
Theorem c58_zero_confidence : forall la a o, exact_linalg la -> bl_init a = Ok o -> a_omega a = OmIdzorek -> length (bl_Q o) = 1%nat ->
  nth_error (conf_list (a_conf a)) 0 = Some 0 -> psd (bl_n o) (bl_sigma o) -> symmetric (bl_n o) (bl_sigma o) ->
  let p := nth 0 (bl_P o) [] in
  0 < qform (bl_sigma o) p -> nth 0 (bl_Q o) 0 <> inner p (bl_pi o) ->
  inner p (snd (bl_returns la o)) <> inner p (bl_pi o).
Proof. exact zero_confidence. Qed.
Print Assumptions c58_zero_confidence.

(** C59 *)
Theorem c59_returns : forall la a t1 t2 o1 o2, exact_linalg la -> bl_init (with_tau a t1) = Ok o1 -> bl_init (with_tau a t2) = Ok o2 ->
  (a_omega a = OmDefault \/ (a_omega a = OmIdzorek /\ forall i, (i < length (bl_Q o1))%nat -> 0 < nth i (conf_list (a_conf a)) 0)) ->
  psd (bl_n o1) (bl_sigma o1) -> symmetric (bl_n o1) (bl_sigma o1) ->
  snd (bl_returns la o1) = snd (bl_returns la o2).
Proof. exact tau_returns. Qed.
Print Assumptions c59_returns.
Theorem c59_zero_confidence : forall la a t1 t2 o1 o2, exact_linalg la -> bl_init (with_tau a t1) = Ok o1 -> bl_init (with_tau a t2) = Ok o2 ->
  a_omega a = OmIdzorek -> length (bl_Q o1) = 1%nat -> nth_error (conf_list (a_conf a)) 0 = Some 0 ->
  psd (bl_n o1) (bl_sigma o1) -> symmetric (bl_n o1) (bl_sigma o1) ->
  0 < qform (bl_sigma o1) (nth 0 (bl_P o1) []) -> nth 0 (bl_Q o1) 0 <> inner (nth 0 (bl_P o1) []) (bl_pi o1) ->
  t1 <> t2 -> snd (bl_returns la o1) <> snd (bl_returns la o2).
Proof. exact tau_zero_confidence. Qed.
Print Assumptions c59_zero_confidence.
Theorem c59_covariance : forall la a t1 t2 o1 o2, exact_linalg la -> bl_init (with_tau a t1) = Ok o1 -> bl_init (with_tau a t2) = Ok o2 ->
  (a_omega a = OmDefault \/ (a_omega a = OmIdzorek /\ forall i, (i < length (bl_Q o1))%nat -> 0 < nth i (conf_list (a_conf a)) 0)) ->
  psd (bl_n o1) (bl_sigma o1) -> symmetric (bl_n o1) (bl_sigma o1) ->
  (a_omega a = OmIdzorek -> forall i, (i < length (bl_Q o1))%nat -> nth i (conf_list (a_conf a)) 0 < 1) ->
  t1 <> t2 -> forall w, length w = bl_n o1 -> 0 < qform (bl_sigma o1) w ->
  qform (snd (bl_cov la o1)) w <> qform (snd (bl_cov la o2)) w.
Proof. exact tau_covariance. Qed.
Print Assumptions c59_covariance.
(** full confidence in views on everything: the same covariance matrix for every tau *)
Theorem c59_covariance_refuted : forall la, exact_linalg la -> exists a, a_omega a = OmIdzorek /\ forall t, 0 < t <= 1 ->
  exists o, bl_init (with_tau a t) = Ok o /\ pos_def (bl_n o) (bl_sigma o) /\ snd (bl_cov la o) = [[1]].
Proof. exact tau_covariance_sure. Qed.
Print Assumptions c59_covariance_refuted.

(** C60 *)
Theorem c60_posterior_covariance : forall la o, exact_linalg la -> reachable la o ->
  psd (bl_n o) (bl_sigma o) -> symmetric (bl_n o) (bl_sigma o) -> psd (length (bl_Q o)) (bl_omega o) -> symmetric (length (bl_Q o)) (bl_omega o) ->
  let C := snd (bl_cov la o) in symmetric (bl_n o) C /\
  forall w, length w = bl_n o -> qform (bl_sigma o) w <= qform C w <= (1 + bl_tau o) * qform (bl_sigma o) w.
Proof. exact use_cov. Qed.
Print Assumptions c60_posterior_covariance.

(** C61 *)
Theorem c61_sum : forall la o ra d, exact_linalg la -> reachable la o -> snd (bl_weights la o ra) = Ok d ->
  exists w, b_weights (bl_base (fst (bl_weights la o ra))) = Some w /\ length w = bl_n o /\ total w = 1 /\
    (length (b_tickers (bl_base o)) = bl_n o -> NoDup (b_tickers (bl_base o)) -> d = combine (b_tickers (bl_base o)) w).
Proof. exact use_weights_sum. Qed.
Print Assumptions c61_sum.
Theorem c61_risk_aversion : forall la o, exact_linalg la -> reachable la o -> symmetric (bl_n o) (bl_sigma o) -> forall d1 d2, d1 <> 0 -> d2 <> 0 ->
  snd (bl_weights la o (Some d1)) = snd (bl_weights la o (Some d2)) /\ snd (bl_weights la o None) = snd (bl_weights la o (Some d1)).
Proof. exact use_risk_aversion. Qed.
Print Assumptions c61_risk_aversion.
Theorem c61_equation : forall la o ra d, exact_linalg la -> reachable la o -> invertible (bl_n o) (bl_sigma o) ->
  match ra with Some d => d <> 0 | None => True end -> snd (bl_weights la o ra) = Ok d ->
  exists w c, b_weights (bl_base (fst (bl_weights la o ra))) = Some w /\ c <> 0 /\ mat_vec (scale_matrix c (bl_sigma o)) w = snd (bl_returns la o).
Proof. exact use_equation. Qed.
Print Assumptions c61_equation.
Theorem c61_market : forall la a o cols m caps, exact_linalg la -> bl_init a = Ok o ->
  a_cov a = CovFrame cols m -> length cols = length m -> NoDup cols -> a_pi a = PiMarket -> a_caps a = Some caps -> NoDup (map fst caps) -> a_rf a = 0 ->
  mat_vec (bl_P o) (bl_pi o) = bl_Q o ->
  pos_def (length m) m -> symmetric (length m) m ->
  psd (length (bl_Q o)) (bl_omega o) -> symmetric (length (bl_Q o)) (bl_omega o) ->
  forall ra, match ra with Some d => 0 < d | None => True end ->
    snd (bl_weights la o ra) = Ok (combine cols (map (cap_weight caps) cols)).
Proof. exact market_fixed_point. Qed.
Print Assumptions c61_market.

(** C62 *)
Theorem c62_dimensions : forall la o, exact_linalg la -> reachable la o -> ~ invertible (bl_n o) (bl_sigma o) -> length (bl_Q o) <> bl_n o ->
  forall ra, match ra with Some d => d <> 0 | None => True end -> snd (bl_weights la o ra) = Err LinAlgError.
Proof. exact use_singular. Qed.
Print Assumptions c62_dimensions.
Theorem c62_wrong_weights : forall la, exact_linalg la -> exists a o w post,
  bl_init a = Ok o /\ length (bl_Q o) = bl_n o /\ ~ invertible (bl_n o) (bl_sigma o) /\
  snd (bl_returns la o) = post /\ snd (bl_weights la o None) = Ok (combine (b_tickers (bl_base o)) w) /\ total w = 1 /\
  (forall c, mat_vec (scale_matrix c (bl_sigma o)) w <> post) /\
  exists v c, length v = bl_n o /\ total v = 1 /\ 0 < c /\ mat_vec (scale_matrix c (bl_sigma o)) v = post.
Proof. exact singular_wrong. Qed.
Print Assumptions c62_wrong_weights.

(** C63: any solvers *)
Theorem c63_caching : forall la a o ops, bl_init a = Ok o -> let o' := bl_run la o ops in
  snd (bl_returns la o') = snd (bl_returns la o) /\ snd (bl_cov la o') = snd (bl_cov la o) /\
  (forall d, snd (bl_weights la o' d) = snd (bl_weights la o d)) /\
  (forall d x rf, snd (bl_weights la o d) = Ok x ->
     snd (bl_performance la (fst (bl_weights la o' d)) rf) = snd (bl_performance la (fst (bl_weights la o d)) rf)).
Proof. exact caching. Qed.
Print Assumptions c63_caching.
Theorem c63_performance : forall la o ra d rf, exact_linalg la -> reachable la o -> length (b_tickers (bl_base o)) = bl_n o ->
  snd (bl_weights la o ra) = Ok d ->
  let o' := fst (bl_weights la o ra) in let C := snd (bl_cov la o) in
  exists w, b_weights (bl_base o') = Some w /\
    (0 < qform C w -> exists r s sh, snd (bl_performance la o' rf) = Ok (Some r, s, Some sh) /\
       r = inner w (snd (bl_returns la o)) /\ 0 < s /\ s * s = qform C w /\ sh = (r - rf) / s).
Proof. exact performance_posterior. Qed.
Print Assumptions c63_performance.

(** C64 *)
Theorem c64_picking : forall tickers views Q P n, parse_views n tickers views = Ok (Q, P) -> length tickers = n ->
  Q = map snd views /\ length P = length views /\
  forall x, length x = n -> map Some (mat_vec P x) = map (fun p => dget (fst p) (combine tickers x)) views.
Proof. exact parse_views_ok. Qed.
Print Assumptions c64_picking.
Theorem c64_known : forall tickers views n, (forall l, In l (map fst views) -> In l tickers) -> exists Q P, parse_views n tickers views = Ok (Q, P).
Proof. exact parse_views_known. Qed.
Print Assumptions c64_known.
Theorem c64_unknown : forall a d, a_views a = VDict d -> (exists l, In l (map fst d) /\ ~ In l (cov_tickers (a_cov a))) -> bl_init a = Err ValueError.
Proof. exact init_unknown_view. Qed.
Print Assumptions c64_unknown.

(** C65 *)
Theorem c65_currency : forall caps c d cov rf, c <> 0 ->
  market_implied_prior_returns (map (fun p => (fst p, c * snd p)) caps) d cov rf = market_implied_prior_returns caps d cov rf.
Proof. exact prior_scale. Qed.
Print Assumptions c65_currency.

(** C86 *)
Theorem c86_checks : forall a o, bl_init a = Ok o ->
  0 < a_tau a <= 1 /\ 0 < a_ra a /\ length (bl_pi o) = bl_n o /\ shaped (length (bl_Q o)) (bl_n o) (bl_P o) /\
  shaped (bl_n o) (bl_n o) (bl_sigma o) /\ shaped (length (bl_Q o)) (length (bl_Q o)) (bl_omega o) /\
  (a_omega a = OmIdzorek -> forall i, (i < length (bl_Q o))%nat -> 0 <= nth i (conf_list (a_conf a)) 0 <= 1).
Proof. exact init_checks. Qed.
Print Assumptions c86_checks.
Theorem c86_prior : forall a o, bl_init a = Ok o ->
  match a_pi a with
  | PiArr l => bl_pi o = l
  | PiNone => bl_pi o = repeat 0 (bl_n o)
  | PiEqual => bl_pi o = repeat (1 / INR (bl_n o)) (bl_n o)
  | PiMarket => exists caps, a_caps a = Some caps /\ market_implied_prior_returns caps (a_ra a) (a_cov a) (a_rf a) = Ok (bl_pi o)
  | PiBad => False
  end.
Proof. exact init_prior. Qed.
Print Assumptions c86_prior.
Theorem c86_views : forall a o, bl_init a = Ok o ->
  match a_views a with
  | VNone => exists q, a_Q a = Some q /\ bl_Q o = q /\
      match a_P a with
      | Some p => bl_P o = p
      | None => length q = bl_n o /\ forall x, length x = bl_n o -> mat_vec (bl_P o) x = x
      end
  | VDict d => length (cov_tickers (a_cov a)) = bl_n o ->
      bl_Q o = map snd d /\ length (bl_P o) = length d /\
      forall x, length x = bl_n o -> map Some (mat_vec (bl_P o) x) = map (fun p => dget (fst p) (combine (cov_tickers (a_cov a)) x)) d
  | VBad => False
  end.
Proof. exact init_views. Qed.
Print Assumptions c86_views.
Theorem c86_omega : forall a o, bl_init a = Ok o ->
  (forall m, a_omega a = OmArr m -> bl_omega o = m) /\
  (a_omega a = OmDefault \/ a_omega a = OmIdzorek ->
   forall i j, (i < length (bl_Q o))%nat -> (j < length (bl_Q o))%nat ->
   let v := bl_tau o * qform (bl_sigma o) (nth i (bl_P o) []) in let c := nth i (conf_list (a_conf a)) 0 in
   (i <> j -> entry (bl_omega o) i j = 0) /\
   (a_omega a = OmDefault -> entry (bl_omega o) i i = v) /\
   (a_omega a = OmIdzorek -> 0 < c -> entry (bl_omega o) i i = (1 - c) / c * v) /\
   (a_omega a = OmIdzorek -> c = 0 -> entry (bl_omega o) i i = 10 ^ 6)).
Proof. exact init_omega. Qed.
Print Assumptions c86_omega.
Theorem c86_inputs_constant : forall la a o0 ops, bl_init a = Ok o0 -> let o := bl_run la o0 ops in
  bl_sigma o = cov_values (a_cov a) /\ bl_n o = length (cov_values (a_cov a)) /\ b_tickers (bl_base o) = cov_tickers (a_cov a) /\
  bl_tau o = a_tau a /\ bl_ra o = a_ra a /\ bl_Q o = bl_Q o0 /\ bl_P o = bl_P o0 /\ bl_pi o = bl_pi o0 /\ bl_omega o = bl_omega o0.
Proof. exact inputs_constant. Qed.
Print Assumptions c86_inputs_constant.
Theorem c86_market_array_refuses : forall a m, a_cov a = CovArray m -> a_pi a = PiMarket -> forall o, bl_init a <> Ok o.
Proof. exact market_array_refuses. Qed.
Print Assumptions c86_market_array_refuses.

(** C87 *)
Theorem c87_market_return : forall caps d cols m rf pi, NoDup cols -> NoDup (map fst caps) -> square (length cols) m ->
  market_implied_prior_returns caps d (CovFrame cols m) rf = Ok pi ->
  let w := map (cap_weight caps) cols in inner w pi = d * qform m w + rf.
Proof. exact prior_market_return. Qed.
Print Assumptions c87_market_return.
Theorem c87_prior : forall caps d cols m rf pi, market_implied_prior_returns caps d (CovFrame cols m) rf = Ok pi ->
  (forall l, In l cols <-> In l (map fst caps)) /\ total (map snd caps) <> 0 /\
  pi = map (fun x => d * x + rf) (mat_vec m (map (cap_weight caps) cols)).
Proof. exact prior_frame. Qed.
Print Assumptions c87_prior.
Theorem c87_price_scale : forall c p f rf, c <> 0 -> market_implied_risk_aversion (map (Rmult c) p) f rf = market_implied_risk_aversion p f rf.
Proof. exact risk_aversion_scale. Qed.
Print Assumptions c87_price_scale.
Theorem c87_frequency : forall p f g, f <> 0 -> g <> 0 -> market_implied_risk_aversion p f 0 = market_implied_risk_aversion p g 0.
Proof. exact risk_aversion_frequency. Qed.
Print Assumptions c87_frequency.
Theorem c87_risk_aversion : forall p f rf, Forall (fun v => 0 < v) p -> (3 <= length p)%nat -> let r := simple_returns p in
  sample_covariance r r * f <> 0 ->
  market_implied_risk_aversion p f rf = Ok ((average r * f - rf) / (sample_covariance r r * f)).
Proof. exact risk_aversion_value. Qed.
Print Assumptions c87_risk_aversion.
