(** * Property theorems: an optimizer succeeds exactly when there is a portfolio *)
From Coq Require Import ZArith List String Bool Reals.
From Verif Require Import Num Py MBase MConvex MEF MDown SLin SBase SConvex SDown SPrep SExist PExist2 PExist3 PExist4 PExist5.
Import ListNotations.
Local Open Scope R_scope.

(** C106: everything built from the weights with the functions of the model is continuous, and the constraints are closed *)
Theorem c106_expressions : forall n v ps f, plain v (f v) -> regular n v ps (AddObjective f).
Proof. exact plain_regular. Qed.
Print Assumptions c106_expressions.
Theorem c106_constraints : forall n v ps f, plain_con v (f v) -> regular n v ps (AddConstraint f).
Proof. exact plain_con_regular. Qed.
Print Assumptions c106_constraints.

(** C106: from the constructor over any preparation to the answer *)
Theorem c106_min_volatility : forall m c b w0 w1 o steps w2 o2, ef_init (MIn m) (CIn c) b w0 = (w1, Ok o) ->
  square (List.length (cov_values c)) (cov_values c) -> List.length (cov_values c) = e_n o ->
  Forall (sensible (e_w o) (List.length (w_params w1))) steps -> forM steps prepare w1 o = (w2, o2, Ok tt) ->
  bounded (e_lb o) -> bounded (e_ub o) -> Forall (regular (e_n o) (e_w o) (par_values w0)) steps ->
  forall sv, exact_solver sv -> complete_solver sv ->
  ((exists w3 o3 d, min_volatility sv w2 o2 = (w3, o3, Ok d)) <->
   exists s, allowed (b_tickers (e_base o)) (e_w o) (w_sizes w1) (par_values w0) (e_lb o) (e_ub o) 1 steps s).
Proof. exact exist_min_volatility. Qed.
Print Assumptions c106_min_volatility.
Theorem c106_utility : forall m c b w0 w1 o steps w2 o2, ef_init (MIn m) (CIn c) b w0 = (w1, Ok o) ->
  square (List.length (cov_values c)) (cov_values c) -> List.length (cov_values c) = e_n o ->
  Forall (sensible (e_w o) (List.length (w_params w1))) steps -> forM steps prepare w1 o = (w2, o2, Ok tt) ->
  bounded (e_lb o) -> bounded (e_ub o) -> Forall (regular (e_n o) (e_w o) (par_values w0)) steps ->
  forall sv mu ra mn lb ub, exact_solver sv -> complete_solver sv -> mu_values m = Some mu ->
  Forall (fun q => p_name q <> "risk_aversion"%string) (w_params w0) -> 0 < ra -> bounds_in_force mn o lb ub ->
  ((exists w3 o3 d, max_quadratic_utility sv ra mn w2 o2 = (w3, o3, Ok d)) <->
   exists s, allowed (b_tickers (e_base o)) (e_w o) (w_sizes w1) (par_values w0) lb ub (if mn then 0 else 1) steps s).
Proof. exact exist_utility. Qed.
Print Assumptions c106_utility.
(** market-neutral portfolios are only looked for if some fully invested one reaches the target too: the check in
    efficient_risk (C27) knows no other *)
Theorem c106_efficient_risk : forall m c b w0 w1 o steps w2 o2, ef_init (MIn m) (CIn c) b w0 = (w1, Ok o) ->
  square (List.length (cov_values c)) (cov_values c) -> List.length (cov_values c) = e_n o ->
  Forall (sensible (e_w o) (List.length (w_params w1))) steps -> forM steps prepare w1 o = (w2, o2, Ok tt) ->
  bounded (e_lb o) -> bounded (e_ub o) -> Forall (regular (e_n o) (e_w o) (par_values w0)) steps ->
  forall sv pinv mu tg t mn lb ub, exact_solver sv -> complete_solver sv -> mu_values m = Some mu ->
  Forall (fun q => p_name q <> "target_variance"%string) (w_params w0) -> (0 < e_n o)%nat ->
  psd (e_n o) (cov_values c) -> symmetric (e_n o) (cov_values c) -> right_inverse (e_n o) (cov_values c) (pinv (cov_values c)) ->
  target_of tg = Some t -> 0 <= t -> bounds_in_force mn o lb ub ->
  (mn = true -> exists x, List.length x = e_n o /\ total x = 1 /\ qform (cov_values c) x <= t * t) ->
  ((exists w3 o3 d, efficient_risk sv pinv tg mn w2 o2 = (w3, o3, Ok d)) <->
   exists s, allowed (b_tickers (e_base o)) (e_w o) (w_sizes w1) (par_values w0) lb ub (if mn then 0 else 1) steps s /\
     qform (cov_values c) (s (e_w o)) <= t * t).
Proof. exact exist_risk. Qed.
Print Assumptions c106_efficient_risk.
(** likewise: the check in efficient_return looks at fully invested portfolios only (C28) *)
Theorem c106_efficient_return : forall m c b w0 w1 o steps w2 o2, ef_init (MIn m) (CIn c) b w0 = (w1, Ok o) ->
  square (List.length (cov_values c)) (cov_values c) -> List.length (cov_values c) = e_n o ->
  Forall (sensible (e_w o) (List.length (w_params w1))) steps -> forM steps prepare w1 o = (w2, o2, Ok tt) ->
  bounded (e_lb o) -> bounded (e_ub o) -> Forall (regular (e_n o) (e_w o) (par_values w0)) steps ->
  forall sv mu t mn lb ub, exact_solver sv -> complete_solver sv -> mu_values m = Some mu ->
  Forall (fun q => p_name q <> "target_return"%string) (w_params w0) -> bounds_in_force mn o lb ub ->
  (mn = true -> exists s, allowed (b_tickers (e_base o)) (e_w o) (w_sizes w1) (par_values w0) (e_lb o) (e_ub o) 1 steps s /\ t <= inner mu (s (e_w o))) ->
  ((exists w3 o3 d, efficient_return sv (NFloat t) mn w2 o2 = (w3, o3, Ok d)) <->
   exists s, allowed (b_tickers (e_base o)) (e_w o) (w_sizes w1) (par_values w0) lb ub (if mn then 0 else 1) steps s /\
     t <= inner mu (s (e_w o))).
Proof. exact exist_return. Qed.
Print Assumptions c106_efficient_return.

(** C106: a new optimizer for the Sharpe ratio, when no portfolio is without risk *)
Theorem c106_max_sharpe : forall m c b w0 w1 o mu, ef_init (MIn m) (CIn c) b w0 = (w1, Ok o) ->
  square (List.length (cov_values c)) (cov_values c) -> List.length (cov_values c) = e_n o ->
  bounded (e_lb o) -> bounded (e_ub o) -> mu_values m = Some mu -> psd (e_n o) (cov_values c) ->
  forall sv rf r, exact_solver sv -> complete_solver sv -> target_of rf = Some r ->
  (forall x, fits (e_n o) (e_lb o) (e_ub o) 1 x -> 0 < qform (cov_values c) x) ->
  ((exists w2 o2 d, max_sharpe sv rf w1 o = (w2, o2, Ok d)) <->
   Exists (fun a => r < a) mu /\ exists x, fits (e_n o) (e_lb o) (e_ub o) 1 x /\ 0 < excess mu r x).
Proof. exact exist_sharpe. Qed.
Print Assumptions c106_max_sharpe.

(** C106: new optimizers for downside risk *)
Theorem c106_min_semivariance : forall mi n rows freq bench b w0 w1 o d, good_rows n rows ->
  semi_init mi (RTable n rows) freq bench b w0 = (w1, Ok (o, d)) -> bounded (e_lb o) -> bounded (e_ub o) ->
  forall sv, exact_solver sv -> complete_solver sv -> forall mn lb ub, bounds_in_force mn o lb ub ->
  ((exists w2 o2 x, min_semivariance sv d mn w1 o = (w2, o2, Ok x)) <-> exists x, fits (e_n o) lb ub (if mn then 0 else 1) x).
Proof. exact exist_min_semivariance. Qed.
Print Assumptions c106_min_semivariance.
Theorem c106_semi_efficient_risk : forall mi n rows freq bench b w0 w1 o d, good_rows n rows ->
  semi_init mi (RTable n rows) freq bench b w0 = (w1, Ok (o, d)) -> bounded (e_lb o) -> bounded (e_ub o) ->
  forall sv, exact_solver sv -> complete_solver sv -> forall mn lb ub, bounds_in_force mn o lb ub ->
  forall t m, e_mu o = Some m -> 0 <= freq ->
  ((exists w2 o2 x, semi_efficient_risk sv d t mn w1 o = (w2, o2, Ok x)) <->
   exists x, fits (e_n o) lb ub (if mn then 0 else 1) x /\ freq * semivariance (dropna rows) (bench * (if mn then 0 else 1)) x <= t * t).
Proof. exact exist_semi_risk. Qed.
Print Assumptions c106_semi_efficient_risk.
Theorem c106_semi_efficient_return : forall mi n rows freq bench b w0 w1 o d, good_rows n rows ->
  semi_init mi (RTable n rows) freq bench b w0 = (w1, Ok (o, d)) -> bounded (e_lb o) -> bounded (e_ub o) ->
  forall sv, exact_solver sv -> complete_solver sv -> forall mn lb ub, bounds_in_force mn o lb ub ->
  forall t m, e_mu o = Some m -> 0 <= t -> Exists (fun a => t <= Rabs a) m ->
  ((exists w2 o2 x, semi_efficient_return sv d (NFloat t) mn w1 o = (w2, o2, Ok x)) <->
   exists x, fits (e_n o) lb ub (if mn then 0 else 1) x /\ t <= inner m x).
Proof. exact exist_semi_return. Qed.
Print Assumptions c106_semi_efficient_return.
Theorem c106_semi_utility : forall mi n rows freq bench b w0 w1 o d, good_rows n rows ->
  semi_init mi (RTable n rows) freq bench b w0 = (w1, Ok (o, d)) -> bounded (e_lb o) -> bounded (e_ub o) ->
  forall sv, exact_solver sv -> complete_solver sv -> forall mn lb ub, bounds_in_force mn o lb ub ->
  forall k m, e_mu o = Some m -> 0 < k ->
  ((exists w2 o2 x, semi_max_quadratic_utility sv d k mn w1 o = (w2, o2, Ok x)) <-> exists x, fits (e_n o) lb ub (if mn then 0 else 1) x).
Proof. exact exist_semi_utility. Qed.
Print Assumptions c106_semi_utility.
Theorem c106_min_cvar : forall mi n rows beta b w0 w1 o d, good_rows n rows ->
  cvar_init mi (RTable n rows) beta b w0 = (w1, Ok (o, d)) -> bounded (e_lb o) -> bounded (e_ub o) ->
  forall sv, exact_solver sv -> complete_solver sv -> forall mn lb ub, bounds_in_force mn o lb ub ->
  ((exists w2 o2 x, min_cvar sv d mn w1 o = (w2, o2, Ok x)) <-> exists x, fits (e_n o) lb ub (if mn then 0 else 1) x).
Proof. exact exist_min_cvar. Qed.
Print Assumptions c106_min_cvar.
Theorem c106_cvar_efficient_risk : forall mi n rows beta b w0 w1 o d, good_rows n rows ->
  cvar_init mi (RTable n rows) beta b w0 = (w1, Ok (o, d)) -> bounded (e_lb o) -> bounded (e_ub o) ->
  forall sv, exact_solver sv -> complete_solver sv -> forall mn lb ub, bounds_in_force mn o lb ub ->
  forall t m, e_mu o = Some m -> 0 <= t ->
  ((exists w2 o2 x, cvar_efficient_risk sv d t mn w1 o = (w2, o2, Ok x)) <->
   exists x, fits (e_n o) lb ub (if mn then 0 else 1) x /\ cvar beta (dropna rows) x <= t).
Proof. exact exist_cvar_risk. Qed.
Print Assumptions c106_cvar_efficient_risk.
Theorem c106_cvar_efficient_return : forall mi n rows beta b w0 w1 o d, good_rows n rows ->
  cvar_init mi (RTable n rows) beta b w0 = (w1, Ok (o, d)) -> bounded (e_lb o) -> bounded (e_ub o) ->
  forall sv, exact_solver sv -> complete_solver sv -> forall mn lb ub, bounds_in_force mn o lb ub ->
  forall t m, e_mu o = Some m ->
  ((exists w2 o2 x, cvar_efficient_return sv d t mn w1 o = (w2, o2, Ok x)) <->
   exists x, fits (e_n o) lb ub (if mn then 0 else 1) x /\ t <= inner m x).
Proof. exact exist_cvar_return. Qed.
Print Assumptions c106_cvar_efficient_return.
Theorem c106_min_cdar : forall mi n rows beta b w0 w1 o d, good_rows n rows ->
  cdar_init mi (RTable n rows) beta b w0 = (w1, Ok (o, d)) -> bounded (e_lb o) -> bounded (e_ub o) ->
  forall sv, exact_solver sv -> complete_solver sv -> forall mn lb ub, bounds_in_force mn o lb ub ->
  ((exists w2 o2 x, min_cdar sv d mn w1 o = (w2, o2, Ok x)) <-> exists x, fits (e_n o) lb ub (if mn then 0 else 1) x).
Proof. exact exist_min_cdar. Qed.
Print Assumptions c106_min_cdar.
Theorem c106_cdar_efficient_risk : forall mi n rows beta b w0 w1 o d, good_rows n rows ->
  cdar_init mi (RTable n rows) beta b w0 = (w1, Ok (o, d)) -> bounded (e_lb o) -> bounded (e_ub o) ->
  forall sv, exact_solver sv -> complete_solver sv -> forall mn lb ub, bounds_in_force mn o lb ub ->
  forall t m, e_mu o = Some m -> 0 <= t ->
  ((exists w2 o2 x, cdar_efficient_risk sv d t mn w1 o = (w2, o2, Ok x)) <->
   exists x, fits (e_n o) lb ub (if mn then 0 else 1) x /\ cdar beta (dropna rows) x <= t).
Proof. exact exist_cdar_risk. Qed.
Print Assumptions c106_cdar_efficient_risk.
Theorem c106_cdar_efficient_return : forall mi n rows beta b w0 w1 o d, good_rows n rows ->
  cdar_init mi (RTable n rows) beta b w0 = (w1, Ok (o, d)) -> bounded (e_lb o) -> bounded (e_ub o) ->
  forall sv, exact_solver sv -> complete_solver sv -> forall mn lb ub, bounds_in_force mn o lb ub ->
  forall t m, e_mu o = Some m -> 0 <= t ->
  ((exists w2 o2 x, cdar_efficient_return sv d t mn w1 o = (w2, o2, Ok x)) <->
   exists x, fits (e_n o) lb ub (if mn then 0 else 1) x /\ t <= inner m x).
Proof. exact exist_cdar_return. Qed.
Print Assumptions c106_cdar_efficient_return.

(** C106: why finite bounds are needed: portfolios exist, but none is best, and no solver makes the call succeed *)
Theorem c106_unlimited_refuted : forall sv, exact_solver sv -> exists w1 o,
  ef_init (MIn (MuArray [1; 0])) (CIn (CovArray [[0; 0]; [0; 0]])) (BSeq true [[None; None]; [None; None]]) (mkWorld [] (fun _ => None) [] 0) = (w1, Ok o) /\
  (exists x, fits 2 (e_lb o) (e_ub o) 1 x) /\ forall w2 o2 d, max_quadratic_utility sv 1 false w1 o <> (w2, o2, Ok d).
Proof. exact exist_unlimited. Qed.
Print Assumptions c106_unlimited_refuted.
