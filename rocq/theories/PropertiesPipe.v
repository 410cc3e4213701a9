(** * Property theorems: lp_portfolio finds an allocation; from a table of prices to whole shares *)
From Coq Require Import ZArith List Reals String.
From Verif Require Import Num Py MBase MConvex MEF MFrame MReturns MRisk MAlloc SLin SHRP SBase SRisk SReturns SAlloc SConvex SPipe PMilp PPipe PPipe2.
Import ListNotations.
Local Open Scope R_scope.

(** C09: the program always has a best answer, so a solver that finds one whenever there is one never fails *)
Theorem c09_found : forall solver d r, complete_milp solver -> 0 < da_total d -> da_weights d <> [] -> long_only (da_weights d) -> positive_prices (da_prices d) ->
  List.length (da_weights d) = List.length (da_prices d) -> exists d' al lo, lp_portfolio solver d r = (d', Ok (al, lo)).
Proof. exact lp_found. Qed.
Print Assumptions c09_found.

(** C93 *)
Theorem c93_found : forall solver d r, complete_milp solver -> 0 < da_total d -> 0 < da_short_ratio d -> has_short (da_weights d) ->
  (exists t x, In (t, x) (da_weights d) /\ 0 < x) -> all_priced (da_weights d) (da_prices d) -> positive_prices (da_prices d) ->
  exists d' al lo, lp_portfolio solver d r = (d', Ok (al, lo)).
Proof. exact lp_short_found. Qed.
Print Assumptions c93_found.

(** C108: from any long-only weights, as they are stored by an optimizer, to shares *)
Theorem c108_weights_to_shares : forall milp b T dates names p x r money, exact_milp milp -> complete_milp milp -> names <> [] -> NoDup names ->
  (forall t, In t names -> List.length (p t) = S T) -> (forall t, In t names -> Forall (fun v => 0 < v) (p t)) -> 0 < money ->
  b_tickers b = names -> b_weights b = Some r -> Forall2 (rounded 16) x r -> invested (List.length names) x ->
  exists al lo, allocated milp b names (f_rows (history (S T) dates names p)) money al lo /\ tracks names p x money al lo.
Proof. exact after_weights. Qed.
Print Assumptions c108_weights_to_shares.

(** C108: every step from the prices to the shares succeeds, and the shares track the portfolio of least past variance *)
Theorem c108_min_volatility : forall T dates names p, (2 <= T)%nat -> names <> [] -> NoDup names -> List.length dates = S T ->
  (forall t, In t names -> List.length (p t) = S T) -> (forall t, In t names -> Forall (fun v => 0 < v) (p t)) ->
  let hist := history (S T) dates names p in let n := List.length names in
  forall sv milp eigh fm w0 money, exact_solver sv -> complete_solver sv -> exact_milp milp -> complete_milp milp -> 0 < money ->
  exists mu cv w1 o w2 o2 d x al lo,
    mean_historical_return hist false true 252 false = Ok (false, some_dict mu) /\ sample_cov eigh hist false 252 false fm = Ok cv /\
    ef_init (MIn (MuSeries mu)) (CIn (CovFrame (f_cols cv) (f_rows cv))) (BPair (Some 0) (Some 1)) w0 = (w1, Ok o) /\
    min_volatility sv w1 o = (w2, o2, Ok d) /\ allocated milp (e_base o2) names (f_rows hist) money al lo /\
    invested n x /\ (forall y, invested n y -> past_variance T names p x <= past_variance T names p y) /\ tracks names p x money al lo.
Proof. exact pipe_min_volatility. Qed.
Print Assumptions c108_min_volatility.

(** C108: or the portfolio of largest past Sharpe ratio, if some asset beats the risk-free rate [r] and no portfolio is without risk *)
Theorem c108_max_sharpe : forall T dates names p, (2 <= T)%nat -> names <> [] -> NoDup names -> List.length dates = S T ->
  (forall t, In t names -> List.length (p t) = S T) -> (forall t, In t names -> Forall (fun v => 0 < v) (p t)) ->
  let hist := history (S T) dates names p in let n := List.length names in
  forall sv milp eigh fm w0 money rf r, exact_solver sv -> complete_solver sv -> exact_milp milp -> complete_milp milp -> 0 < money ->
  target_of rf = Some r -> (exists t, In t names /\ r < growth_rate 252 (p t)) -> (forall x, invested n x -> 0 < past_variance T names p x) ->
  exists mu cv w1 o w2 o2 d x al lo,
    mean_historical_return hist false true 252 false = Ok (false, some_dict mu) /\ sample_cov eigh hist false 252 false fm = Ok cv /\
    ef_init (MIn (MuSeries mu)) (CIn (CovFrame (f_cols cv) (f_rows cv))) (BPair (Some 0) (Some 1)) w0 = (w1, Ok o) /\
    max_sharpe sv rf w1 o = (w2, o2, Ok d) /\ allocated milp (e_base o2) names (f_rows hist) money al lo /\
    invested n x /\ r < past_growth names p x /\
    (forall y, invested n y -> (past_growth names p y - r) / sqrt (past_variance T names p y) <= (past_growth names p x - r) / sqrt (past_variance T names p x)) /\
    tracks names p x money al lo.
Proof. exact pipe_max_sharpe. Qed.
Print Assumptions c108_max_sharpe.
