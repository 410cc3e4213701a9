(** * Model of pypfopt/expected_returns.py

    Tables have entries in [option R], [None] being NaN.  Simplifications: inputs are DataFrames (the
    conversion of other inputs in lines 136-138, 182-184, 239-241, 252-254 is in MArray.v); whenever the
    real code would produce an infinite number the model stops with [FloatSpecial]; the
    [UserWarning] of [_check_returns] is returned as a boolean next to the result. *)
From Coq Require Import ZArith List String Bool Reals.
From Verif Require Import Num Py MFrame.
Import ListNotations.
Local Open Scope R_scope.

(** expected_returns.py 41-57 *)
Definition series := list (label * option R).

(** expected_returns.py 54, 56: one cell of pandas [pct_change(fill_method=None)]: x/0 is NaN for x = 0 and infinite otherwise *)
Definition pct_cell (prev cur : option R) : res (option R) :=
  match prev, cur with
  | Some a, Some b =>
      if Reqb a 0 then (if Reqb b 0 then Ok None else Err FloatSpecial) else Ok (Some (b / a - 1))
  | _, _ => Ok None
  end.
(** expected_returns.py 54: one cell of [np.log(1 + x)] *)
Definition log_cell (x : option R) : res (option R) :=
  match x with
  | None => Ok None
  | Some v => if Rltb 0 (1 + v) then Ok (Some (ln (1 + v))) else if Reqb (1 + v) 0 then Err FloatSpecial else Ok None
  end.
(** expected_returns.py 54, 56 *)
Fixpoint pct_row (prev cur : list (option R)) : res (list (option R)) :=
  match prev, cur with
  | a :: prev', b :: cur' => do x <- pct_cell a b ; do xs <- pct_row prev' cur' ; Ok (x :: xs)
  | _, _ => Ok []
  end.
(** expected_returns.py 54, 56 *)
Fixpoint pct_rows (prev : list (option R)) (rows : list (list (option R))) : res (list (list (option R))) :=
  match rows with
  | [] => Ok []
  | r :: rows' => do x <- pct_row prev r ; do xs <- pct_rows r rows' ; Ok (x :: xs)
  end.
(** expected_returns.py 54, 56: [prices.pct_change(fill_method=None)]: the first row is NaN *)
Definition pct_change (f : frame (option R)) : res (frame (option R)) :=
  match f_rows f with
  | [] => Ok f
  | r :: rows => do xs <- pct_rows r rows ; Ok (mkFrame (f_index f) (f_cols f) (map (fun _ => None) r :: xs))
  end.
(** expected_returns.py 54, 56: [dropna(how="all")] *)
Definition is_none {X} (x : option X) : bool := match x with None => true | Some _ => false end.
(** expected_returns.py 54, 56 *)
Definition dropna_all (f : frame (option R)) : frame (option R) :=
  let kept := filter (fun ir => negb (forallb is_none (snd ir))) (combine (f_index f) (f_rows f)) in
  mkFrame (map fst kept) (f_cols f) (map snd kept).
(** expected_returns.py 41-57 [returns_from_prices] *)
Definition returns_from_prices (prices : frame (option R)) (log_returns : bool) : res (frame (option R)) :=
  do p <- pct_change prices ;
  do p' <- (if log_returns then do rows <- mapM (mapM log_cell) (f_rows p) ; Ok (mkFrame (f_index p) (f_cols p) rows) else Ok p) ;
  Ok (dropna_all p').

(** expected_returns.py 78: pandas [cumprod]: NaN stays NaN and is skipped by the running product *)
Definition cum_cell (acc : R) (x : option R) : R := match x with Some v => acc * v | None => acc end.
(** expected_returns.py 78 *)
Fixpoint cum_rows (accs : list R) (rows : list (list (option R))) : list (list (option R)) :=
  match rows with
  | [] => []
  | r :: rows' =>
      let accs' := map2 cum_cell accs r in
      map2 (fun a x => match x with Some _ => Some a | None => None end) accs' r :: cum_rows accs' rows'
  end.
(** expected_returns.py 60-78 [prices_from_returns]; [ret.iloc[0] = 1] raises IndexError on an empty
    table; [ret] is a new table, the argument is not changed *)
Definition prices_from_returns (returns : frame (option R)) (log_returns : bool) : res (frame (option R)) :=
  let ret := map (map (option_map (fun v => if log_returns then exp v else 1 + v))) (f_rows returns) in
  match ret with
  | [] => Err IndexError
  | r :: rows =>
      let rows' := map (fun _ => Some 1) r :: rows in
      Ok (mkFrame (f_index returns) (f_cols returns) (cum_rows (map (fun _ => 1) r) rows'))
  end.

(** expected_returns.py 29-38 [_check_returns]: is there a NaN after the first number of a column?
    (leading NaNs are masked; infinities do not occur in the model) *)
Fixpoint has_none {X} (l : list (option X)) : bool :=
  match l with [] => false | None :: _ => true | Some _ :: l' => has_none l' end.
(** expected_returns.py 31 *)
Fixpoint gap {X} (l : list (option X)) : bool :=
  match l with [] => false | None :: l' => gap l' | Some _ :: l' => has_none l' end.
(** expected_returns.py 29-38 *)
Definition check_returns (f : frame (option R)) : bool := existsb gap (columns f).

(** expected_returns.py 146, 193, 275: [b ** e] on floats: NaN for a negative base and a fractional exponent, infinite for 0 ** negative *)
Definition np_pow (b e : R) : res (option R) :=
  if Rltb 0 b then Ok (Some (Rpower b e))
  else if Reqb b 0 then (if Rltb 0 e then Ok (Some 0) else if Reqb e 0 then Ok (Some 1) else Err FloatSpecial)
  else if Reqb (IZR (Int_part e)) e then Ok (Some (powerRZ b (Int_part e))) else Ok None.

(** expected_returns.py 146, 275: [(1 + col).prod() ** (frequency / col.count()) - 1]: NaN is skipped; without any number the
    product is 1, the exponent infinite or NaN, and the power 1 *)
Fixpoint product (l : list R) : R := match l with [] => 1 | x :: l' => x * product l' end.
(** expected_returns.py 146, 275-277 *)
Definition cagr (frequency : R) (col : list (option R)) : res (option R) :=
  match present col with
  | [] => Ok (Some (1 - 1))
  | p => do v <- np_pow (product (map (fun x => 1 + x) p)) (frequency / INR (count col)) ;
         Ok (option_map (fun x => x - 1) v)
  end.
(** expected_returns.py 148, 279: [col.mean() * frequency] *)
Definition arithmetic (frequency : R) (col : list (option R)) : option R :=
  option_map (fun m => m * frequency) (mean col).

(** expected_returns.py 111-148 [mean_historical_return] *)
Definition mean_historical_return (prices : frame (option R)) (returns_data compounding : bool) (frequency : R)
    (log_returns : bool) : res (bool * series) :=
  do returns <- (if returns_data then Ok prices else returns_from_prices prices log_returns) ;
  do vals <- (if compounding then mapM (cagr frequency) (columns returns)
              else Ok (map (arithmetic frequency) (columns returns))) ;
  Ok (check_returns returns, combine (f_cols returns) vals).

(** expected_returns.py 193, 195: pandas [ewm(span=span).mean()] with adjust=True, ignore_na=False, the last value: the loop [ewm] of
    pandas' aggregations; [d] is [1 - alpha]; state: the weighted mean so far and its weight *)
Definition ewm_step (d : R) (st : option (R * R)) (cur : option R) : option (R * R) :=
  match st, cur with
  | None, None => None
  | None, Some x => Some (x, 1)
  | Some (m, w), None => Some (m, w * d)
  | Some (m, w), Some x => Some ((w * d * m + x) / (w * d + 1), w * d + 1)
  end.
(** expected_returns.py 193, 195 *)
Definition ewm_last (d : R) (l : list (option R)) : option R := option_map fst (fold_left (ewm_step d) l None).

(** expected_returns.py 151-195 [ema_historical_return]; pandas rejects a span below 1, and [iloc[-1]]
    of an empty table raises IndexError *)
Definition ema_historical_return (prices : frame (option R)) (returns_data compounding : bool) (span frequency : R)
    (log_returns : bool) : res (bool * series) :=
  do returns <- (if returns_data then Ok prices else returns_from_prices prices log_returns) ;
  if Rltb span 1 then Err ValueError else
  match f_rows returns with
  | [] => Err IndexError
  | _ =>
      let d := 1 - 2 / (span + 1) in
      let cell col :=
        match ewm_last d col with
        | None => Ok None
        | Some m => if compounding then do v <- np_pow (1 + m) frequency ; Ok (option_map (fun x => x - 1) v)
                    else Ok (Some (m * frequency))
        end in
      do vals <- mapM cell (columns returns) ;
      Ok (check_returns returns, combine (f_cols returns) vals)
  end.

(** expected_returns.py 261, 263: [returns["mkt"] = values]: an existing column of that name is overwritten *)
Definition mkt : label := LStr "mkt".
(** expected_returns.py 261 *)
Definition set_column (name : label) (vals : list (option R)) (f : frame (option R)) : frame (option R) :=
  match position name (f_cols f) with
  | Some j => mkFrame (f_index f) (f_cols f) (map2 (list_set j) vals (f_rows f))
  | None => mkFrame (f_index f) (f_cols f ++ [name]) (map2 (fun v row => row ++ [v]) vals (f_rows f))
  end.
(** expected_returns.py 264: [returns.join(market, how="left")] for a market table with the single column "mkt"; overlapping
    column names raise ValueError *)
Definition join_left (f market : frame (option R)) : res (frame (option R)) :=
  if existsb (label_eqb mkt) (f_cols f) then Err ValueError else
  let rows := flat_map (fun ir =>
      match filter (fun mr => label_eqb (fst ir) (fst mr)) (combine (f_index market) (f_rows market)) with
      | [] => [(fst ir, snd ir ++ [None])]
      | ms => map (fun mr => (fst ir, snd ir ++ snd mr)) ms
      end) (combine (f_index f) (f_rows f)) in
  Ok (mkFrame (map fst rows) (f_cols f ++ f_cols market) (map snd rows)).
(** expected_returns.py 263: [market_returns.columns = ["mkt"]]: ValueError unless there is exactly one column *)
Definition rename_market (m : frame (option R)) : res (frame (option R)) :=
  if Nat.eqb (List.length (f_cols m)) 1 then Ok (mkFrame (f_index m) [mkt] (f_rows m)) else Err ValueError.

(** expected_returns.py 271 *)
Definition div_cell (x y : option R) : res (option R) :=
  match x, y with
  | Some a, Some b => if Reqb b 0 then (if Reqb a 0 then Ok None else Err FloatSpecial) else Ok (Some (a / b))
  | _, _ => Ok None
  end.
(** expected_returns.py 266-282: betas, mean market return, CAPM formula; [returns] has a column "mkt" *)
Definition capm_estimate (returns : frame (option R)) (risk_free_rate : R) (compounding : bool) (frequency : R) : res (bool * series) :=
  let cov := frame_cov returns in
  do v <- loc cov mkt mkt ;
  do betas <- mapM (fun t => do c <- loc cov t mkt ; div_cell c v) (f_index cov) ;
  match position mkt (f_cols returns) with
  | None => Err KeyError
  | Some j =>
      do m <- (let col := column (f_rows returns) j in
               if compounding then cagr frequency col else Ok (arithmetic frequency col)) ;
      let est b := match b, m with Some b', Some m' => Some (risk_free_rate + b' * (m' - risk_free_rate)) | _, _ => None end in
      Ok (check_returns returns,
          map (fun tb => (fst tb, est (snd tb))) (filter (fun tb => negb (label_eqb (fst tb) mkt)) (combine (f_index cov) betas)))
  end.
(** expected_returns.py 198-282 [capm_return]: the first component is the caller's market table
    afterwards (with [returns_data] its columns are renamed in place) *)
Definition capm_return (prices : frame (option R)) (market_prices : option (frame (option R))) (returns_data : bool)
    (risk_free_rate : R) (compounding : bool) (frequency : R) (log_returns : bool) : option (frame (option R)) * res (bool * series) :=
  match market_prices with
  | None =>
      (None, do returns <- (if returns_data then Ok prices else returns_from_prices prices log_returns) ;
             capm_estimate (set_column mkt (map mean (f_rows returns)) returns) risk_free_rate compounding frequency)
  | Some m =>
      if returns_data then
        match rename_market m with
        | Err e => (Some m, Err e)
        | Ok m' => (Some m', do joined <- join_left prices m' ; capm_estimate joined risk_free_rate compounding frequency)
        end
      else
        (Some m, do returns <- returns_from_prices prices log_returns ;
                 do mr <- returns_from_prices m log_returns ;
                 do m' <- rename_market mr ;
                 do joined <- join_left returns m' ;
                 capm_estimate joined risk_free_rate compounding frequency)
  end.

(** expected_returns.py 81-108 [return_model] with all keyword arguments at their defaults *)
Definition return_model (prices : frame (option R)) (method : string) : res (bool * series) :=
  if String.eqb method "mean_historical_return" then mean_historical_return prices false true 252 false
  else if String.eqb method "ema_historical_return" then ema_historical_return prices false true 500 252 false
  else if String.eqb method "capm_return" then snd (capm_return prices None false 0 true 252 false)
  else Err NotImplementedError.
