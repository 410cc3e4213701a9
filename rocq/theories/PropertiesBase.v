(** * Properties C13-C17: weights of an optimizer *)
From Coq Require Import ZArith List Reals String.
From Verif Require Import Num Py MBase SLin SBase SLabels PBase PLabels.
Import ListNotations.
Local Open Scope R_scope.

(** C13 *)
Theorem c13_set_weights : forall (b : base R) d,
  NoDup (b_tickers b) -> (forall t, In t (b_tickers b) -> exists v, dget t d = Some v) ->
  exists b' out, set_weights b d = (b', Ok tt) /\ b_tickers b' = b_tickers b /\
    make_output_weights b' = Ok out /\ map fst out = b_tickers b /\
    forall t, In t (b_tickers b) -> dget t out = dget t d.
Proof. exact set_weights_ok. Qed.
Print Assumptions c13_set_weights.

Theorem c13_missing_ticker : forall (b : base R) d,
  (exists t, In t (b_tickers b) /\ dget t d = None) -> set_weights b d = (b, Err KeyError).
Proof. exact set_weights_missing. Qed.
Print Assumptions c13_missing_ticker.

Theorem c13_output_fed_back : forall (b : base R) w out,
  NoDup (b_tickers b) -> b_weights b = Some w -> List.length w = List.length (b_tickers b) ->
  make_output_weights b = Ok out -> set_weights b out = (b, Ok tt).
Proof. exact set_weights_output. Qed.
Print Assumptions c13_output_fed_back.

(** C14 *)
Theorem c14_clean_weights : forall (b : base R) w c r,
  NoDup (b_tickers b) -> b_weights b = Some w -> List.length w = List.length (b_tickers b) ->
  (r = RdNone \/ exists d, r = RdInt d /\ (1 <= d)%Z) ->
  exists out, clean_weights b c r = (b, Ok out) /\ map fst out = b_tickers b /\
    Forall2 (clean_rel c r) w (map snd out).
Proof. exact clean_weights_ok. Qed.
Print Assumptions c14_clean_weights.

Theorem c14_error_bound : forall (b : base R) w c r out,
  NoDup (b_tickers b) -> b_weights b = Some w -> List.length w = List.length (b_tickers b) ->
  clean_weights b c r = (b, Ok out) ->
  Forall2 (fun x y => Rabs (y - x) <= move_bound c r) w (map snd out) /\
  Rabs (total (map snd out) - total w) <= INR (List.length w) * move_bound c r.
Proof. exact clean_weights_bounds. Qed.
Print Assumptions c14_error_bound.

Theorem c14_errors : forall (b : base R) c r,
  fst (clean_weights b c r) = b /\
  (b_weights b = None -> snd (clean_weights b c r) = Err AttributeError) /\
  (forall w, b_weights b = Some w -> (r = RdOther \/ exists z, r = RdInt z /\ (z < 1)%Z) ->
     snd (clean_weights b c r) = Err ValueError).
Proof. exact clean_weights_errors. Qed.
Print Assumptions c14_errors.

(** C15 *)
Theorem c15_clean_idempotent : forall (b : base R) w c r out b',
  NoDup (b_tickers b) -> b_weights b = Some w -> List.length w = List.length (b_tickers b) ->
  r = RdNone \/ (exists d, r = RdInt d /\ (1 <= d)%Z /\ on_grid d c) ->
  clean_weights b c r = (b, Ok out) -> set_weights b out = (b', Ok tt) ->
  clean_weights b' c r = (b', Ok out).
Proof. exact clean_twice. Qed.
Print Assumptions c15_clean_idempotent.

Theorem c15_default_cutoff_on_grid : on_grid 5 (default_cutoff (A:=R)).
Proof. exact default_on_grid. Qed.
Print Assumptions c15_default_cutoff_on_grid.

Theorem c15_off_grid_refuted : exists (b : base R) c d out b' out',
  (1 <= d)%Z /\ NoDup (b_tickers b) /\ clean_weights b c (RdInt d) = (b, Ok out) /\
  set_weights b out = (b', Ok tt) /\ clean_weights b' c (RdInt d) = (b', Ok out') /\ out <> out'.
Proof. exact clean_twice_differs. Qed.
Print Assumptions c15_off_grid_refuted.

(** C16: the dictionary [d] holds the weights [w] of the universe [ts] (the labels of the expected returns,
    else of the covariance matrix, else positions); absent tickers count as 0,
    other keys of [d] are free *)
Theorem c16_dict_like_array : forall mu cov rf ts d w,
  universe mu cov ts -> (mu = MuNone -> exists cols rows, cov = CovFrame cols rows) ->
  Forall2 (fun t x => dget t d = Some x \/ dget t d = None /\ x = 0) ts w ->
  (total w <> 0 ->
     portfolio_performance (WtDict d) mu cov rf = portfolio_performance (WtArray w) mu cov rf) /\
  (total w = 0 -> portfolio_performance (WtDict d) mu cov rf = Err ValueError).
Proof. exact perf_dict_labels. Qed.
Print Assumptions c16_dict_like_array.

Theorem c16_values : forall mu m cov c rf w, mu = MuArray m \/ (exists s, mu = MuSeries s /\ m = map snd s) ->
  cov = CovArray c \/ (exists cols, cov = CovFrame cols c) ->
  List.length m = List.length w -> square (List.length w) c -> 0 < qform c w ->
  exists r s sh, portfolio_performance (WtArray w) mu cov rf = Ok (Some r, s, Some sh) /\
    r = inner w m /\ 0 < s /\ s * s = qform c w /\ sh = (r - rf) / s.
Proof. exact perf_figures. Qed.
Print Assumptions c16_values.

Theorem c16_sharpe : forall wt mu cov rf r s sh,
  portfolio_performance wt mu cov rf = Ok (Some r, s, Some sh) -> 0 < s /\ sh = (r - rf) / s.
Proof. exact perf_sharpe. Qed.
Print Assumptions c16_sharpe.

Theorem c16_without_returns : forall cov c rf w, cov = CovArray c \/ (exists cols, cov = CovFrame cols c) -> square (List.length w) c -> 0 <= qform c w ->
  exists s, portfolio_performance (WtArray w) MuNone cov rf = Ok (None, s, None) /\ 0 <= s /\ s * s = qform c w.
Proof. exact perf_figures_none. Qed.
Print Assumptions c16_without_returns.

Theorem c16_missing_weights : forall mu cov rf, portfolio_performance WtNone mu cov rf = Err ValueError.
Proof. exact (fun _ _ _ => eq_refl). Qed.
Print Assumptions c16_missing_weights.

(** C17 *)
Theorem c17_save : forall fs (b : base R) w name out,
  b_weights b = Some w -> clean_weights b (1/10000) (RdInt 5) = (b, Ok out) ->
  (forall ext c, ext = "csv"%string /\ c = FCsv out \/ ext = "txt"%string /\ c = FTxt out \/
       ext = "json"%string /\ c = FJson out /\ (forall k x, In (k, x) out -> json_key k = true) ->
     has_ext name ext ->
     exists fs', save_weights_to_file fs b name = (fs', b, Ok tt) /\ fs' name = Some c /\
       other_files fs fs' name) /\
  (has_ext name "json" -> (exists k x, In (k, x) out /\ json_key k = false) ->
     exists fs' c, save_weights_to_file fs b name = (fs', b, Err TypeError) /\
       fs' name = Some (FJsonCut c) /\ (List.length c < List.length out)%nat /\ other_files fs fs' name).
Proof. exact save_ok. Qed.
Print Assumptions c17_save.

Theorem c17_no_file_touched : forall fs (b : base R) name,
  (b_weights b = None -> save_weights_to_file fs b name = (fs, b, Err AttributeError)) /\
  (forall w, b_weights b = Some w ->
     ~ has_ext name "csv" -> ~ has_ext name "json" -> ~ has_ext name "txt" ->
     save_weights_to_file fs b name = (fs, b, Err NotImplementedError)).
Proof. exact save_errors. Qed.
Print Assumptions c17_no_file_touched.
