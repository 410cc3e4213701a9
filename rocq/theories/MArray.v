(** * Model of data that are not DataFrames, in expected_returns.py and risk_models.py

    Lines expected_returns.py 136-138, 182-184, 239-241, 252-254 and risk_models.py 166-168, 209-211, 265-267,
    298-300, 380-387: everything that is not a DataFrame is handed to [pd.DataFrame] after a
    RuntimeWarning.  Simplification: other inputs are arrays with one or two dimensions, or Series. *)
From Coq Require Import ZArith List String Bool Reals.
From Verif Require Import Num Py MFrame MBase MHRP MReturns MRisk MRisk2.
Import ListNotations.
Local Open Scope R_scope.

(** expected_returns.py 136, 182, 239, 252; risk_models.py 166, 209, 265, 298, 383: what the caller hands over; an array with
    one dimension is a table with one column *)
Inductive table :=
| TFrame (f : frame (option R))
| TArray (ncols : nat) (rows : list (list (option R)))
| TSeries (index : list label) (name : option label) (vals : list (option R)).

(** expected_returns.py 138, 184, 241, 254; risk_models.py 168, 211, 267, 300, 387: [pd.DataFrame(x)]: an array gets range labels,
    a Series keeps its index and its name, or is called 0 *)
Definition frame_of (t : table) : frame (option R) :=
  match t with
  | TFrame f => f
  | TArray n rows => mkFrame (range_labels (List.length rows)) (range_labels n) rows
  | TSeries ix name vals => mkFrame ix [match name with Some l => l | None => LInt 0 end] (map (fun v => [v]) vals)
  end.
(** expected_returns.py 136-137, 182-183, 239-240, 252-253: is there a RuntimeWarning? *)
Definition not_frame (t : table) : bool := match t with TFrame _ => false | _ => true end.

(** expected_returns.py 111-148; first component: the RuntimeWarning *)
Definition mean_historical_return_any (t : table) (rd comp : bool) (fr : R) (log : bool) : bool * res (bool * series) :=
  (not_frame t, mean_historical_return (frame_of t) rd comp fr log).
(** expected_returns.py 151-195 *)
Definition ema_historical_return_any (t : table) (rd comp : bool) (span fr : R) (log : bool) : bool * res (bool * series) :=
  (not_frame t, ema_historical_return (frame_of t) rd comp span fr log).
(** risk_models.py 149-175 *)
Definition sample_cov_any (eigh : eigh_oracle) (t : table) (rd : bool) (fr : R) (log : bool) (fm : string) : bool * res (frame R) :=
  (not_frame t, sample_cov eigh (frame_of t) rd fr log fm).
(** risk_models.py 178-220 *)
Definition semicovariance_any (eigh : eigh_oracle) (t : table) (rd : bool) (b fr : R) (log : bool) (fm : string) : bool * res (frame R) :=
  (not_frame t, semicovariance eigh (frame_of t) rd b fr log fm).
(** risk_models.py 243-284 *)
Definition exp_cov_any (eigh : eigh_oracle) (t : table) (rd : bool) (span fr : R) (log : bool) (fm : string) : bool * res (frame R) :=
  (not_frame t, exp_cov eigh (frame_of t) rd span fr log fm).
(** risk_models.py 287-317 *)
Definition min_cov_determinant_any (eigh : eigh_oracle) (mcd : mcd_oracle) (t : table) (rd : bool) (fr : R) (log : bool) (fm : string)
    : bool * res (frame R) :=
  (not_frame t, min_cov_determinant eigh mcd (frame_of t) rd fr log fm).
(** risk_models.py 371-402 *)
Definition shrinkage_init_any (t : table) (rd : bool) (fr : R) (log : bool) : bool * res shrinkage :=
  (not_frame t, shrinkage_init (frame_of t) rd fr log).

(** expected_returns.py 264: [returns.join(series, how="left")]: the column is called like the Series; a name that is taken is
    a ValueError, as is a Series without a name *)
Definition join_series (f : frame (option R)) (ix : list label) (name : option label) (vals : list (option R)) : res (frame (option R)) :=
  match name with
  | None => Err ValueError
  | Some l =>
      if existsb (label_eqb l) (f_cols f) then Err ValueError else
      let rows := flat_map (fun ir =>
          match filter (fun mr => label_eqb (fst ir) (fst mr)) (combine ix vals) with
          | [] => [(fst ir, snd ir ++ [None])]
          | ms => map (fun mr => (fst ir, snd ir ++ [snd mr])) ms
          end) (combine (f_index f) (f_rows f)) in
      Ok (mkFrame (map fst rows) (f_cols f ++ [l]) (map snd rows))
  end.
(** expected_returns.py 198-282 [capm_return].  With [returns_data] the market is not converted (245-247): an array has no
    attribute [columns] that could be set in line 263; for a Series the assignment creates an attribute and renames nothing.
    The first components: the RuntimeWarnings about prices and market. *)
Definition capm_return_any (prices : table) (market : option table) (rd : bool) (rf : R) (comp : bool) (fr : R) (log : bool)
    : bool * bool * res (bool * series) :=
  (not_frame prices, match market with Some m => negb rd && not_frame m | None => false end,
   match market, rd with
   | Some (TArray _ _), true => Err AttributeError
   | Some (TSeries ix name vals), true =>
       do joined <- join_series (frame_of prices) ix name vals ; capm_estimate joined rf comp fr
   | _, _ => snd (capm_return (frame_of prices) (option_map frame_of market) rd rf comp fr log)
   end).
