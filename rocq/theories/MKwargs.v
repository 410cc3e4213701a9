(** * Model of the keyword arguments of risk_matrix and return_model

    risk_models.py 101-146 and expected_returns.py 81-108 hand [**kwargs] on to the chosen estimator.
    Keyword arguments are pairs of a name and a value; the names "prices" and "method" belong to
    risk_matrix and return_model themselves, so they are not among them.  A value of a kind that is
    not the documented one makes the model stop with [FloatSpecial]. *)
From Coq Require Import ZArith List String Bool Reals.
From Verif Require Import Num Py MFrame MHRP MReturns MRisk.
Import ListNotations.
Local Open Scope R_scope.
Local Open Scope string_scope.

(** risk_models.py 149, 178-185, 243-245, 371; expected_returns.py 111-113, 151-158, 198-206: the kinds of arguments *)
Inductive kwv := KBool (b : bool) | KNum (r : R) | KStr (s : string) | KTable (f : option (frame (option R))).
(** risk_models.py 101, expected_returns.py 81 *)
Definition kwargs := list (string * kwv).
(** risk_models.py 101, expected_returns.py 81: the value of a keyword *)
Definition kwget (kw : kwargs) (name : string) : option kwv :=
  match find (fun p => String.eqb (fst p) name) kw with Some p => Some (snd p) | None => None end.
(** risk_models.py 128-144, expected_returns.py 102-106: a call fails with TypeError if a keyword is no parameter of a function
    without [**kwargs] *)
Definition accepts (params : list string) (kw : kwargs) : res unit :=
  if forallb (fun p => existsb (String.eqb (fst p)) params) kw then Ok tt else Err TypeError.
(** risk_models.py 149, 178-185, 243-245, 371; expected_returns.py 111-113, 151-158, 198-206: a parameter or its default *)
Definition kw_bool (kw : kwargs) (name : string) (d : bool) : res bool :=
  match kwget kw name with None => Ok d | Some (KBool b) => Ok b | Some _ => Err FloatSpecial end.
(** risk_models.py 119-146, expected_returns.py 99-106 *)
Definition kw_num (kw : kwargs) (name : string) (d : R) : res R :=
  match kwget kw name with None => Ok d | Some (KNum b) => Ok b | Some _ => Err FloatSpecial end.
(** risk_models.py 174, 219, 284: [kwargs.get("fix_method", "spectral")] *)
Definition kw_str (kw : kwargs) (name : string) (d : string) : res string :=
  match kwget kw name with None => Ok d | Some (KStr b) => Ok b | Some _ => Err FloatSpecial end.
(** expected_returns.py 200 *)
Definition kw_table (kw : kwargs) (name : string) : res (option (frame (option R))) :=
  match kwget kw name with None => Ok None | Some (KTable b) => Ok b | Some _ => Err FloatSpecial end.

(** risk_models.py 149-175: [**kwargs] takes whatever is no parameter *)
Definition sample_cov_kw (eigh : eigh_oracle) (prices : frame (option R)) (kw : kwargs) : res (frame R) :=
  do rd <- kw_bool kw "returns_data" false ; do fr <- kw_num kw "frequency" 252 ; do lg <- kw_bool kw "log_returns" false ;
  do fm <- kw_str kw "fix_method" "spectral" ;
  sample_cov eigh prices rd fr lg fm.
(** risk_models.py 178-220 *)
Definition semicovariance_kw (eigh : eigh_oracle) (prices : frame (option R)) (kw : kwargs) : res (frame R) :=
  do rd <- kw_bool kw "returns_data" false ; do bm <- kw_num kw "benchmark" (79 / 10 ^ 6) ; do fr <- kw_num kw "frequency" 252 ;
  do lg <- kw_bool kw "log_returns" false ; do fm <- kw_str kw "fix_method" "spectral" ;
  semicovariance eigh prices rd bm fr lg fm.
(** risk_models.py 243-284 *)
Definition exp_cov_kw (eigh : eigh_oracle) (prices : frame (option R)) (kw : kwargs) : res (frame R) :=
  do rd <- kw_bool kw "returns_data" false ; do sp <- kw_num kw "span" 180 ; do fr <- kw_num kw "frequency" 252 ;
  do lg <- kw_bool kw "log_returns" false ; do fm <- kw_str kw "fix_method" "spectral" ;
  exp_cov eigh prices rd sp fr lg fm.
(** risk_models.py 371-402: [CovarianceShrinkage.__init__] has no [**kwargs] *)
Definition shrinkage_kw (prices : frame (option R)) (kw : kwargs) : res shrinkage :=
  do _ <- accepts ["returns_data"; "frequency"; "log_returns"] kw ;
  do rd <- kw_bool kw "returns_data" false ; do fr <- kw_num kw "frequency" 252 ; do lg <- kw_bool kw "log_returns" false ;
  shrinkage_init prices rd fr lg.
(** risk_models.py 101-146 [risk_matrix] *)
Definition risk_matrix_kw (eigh : eigh_oracle) (sk_lw sk_oas : shrink_oracle) (prices : frame (option R)) (method : string) (kw : kwargs) : res (frame R) :=
  let shrink g := do sh <- shrinkage_kw prices kw ; do r <- g sh ; Ok (fst r) in
  if String.eqb method "sample_cov" then sample_cov_kw eigh prices kw
  else if String.eqb method "semicovariance" || String.eqb method "semivariance" then semicovariance_kw eigh prices kw
  else if String.eqb method "exp_cov" then exp_cov_kw eigh prices kw
  else if String.eqb method "ledoit_wolf" || String.eqb method "ledoit_wolf_constant_variance" then
    shrink (fun sh => ledoit_wolf eigh sk_lw sh "constant_variance")
  else if String.eqb method "ledoit_wolf_single_factor" then shrink (fun sh => ledoit_wolf eigh sk_lw sh "single_factor")
  else if String.eqb method "ledoit_wolf_constant_correlation" then shrink (fun sh => ledoit_wolf eigh sk_lw sh "constant_correlation")
  else if String.eqb method "oracle_approximating" then shrink (oracle_approximating eigh sk_oas)
  else Err NotImplementedError.

(** expected_returns.py 111-148 *)
Definition mean_historical_return_kw (prices : frame (option R)) (kw : kwargs) : res (bool * series) :=
  do _ <- accepts ["returns_data"; "compounding"; "frequency"; "log_returns"] kw ;
  do rd <- kw_bool kw "returns_data" false ; do c <- kw_bool kw "compounding" true ; do fr <- kw_num kw "frequency" 252 ;
  do lg <- kw_bool kw "log_returns" false ;
  mean_historical_return prices rd c fr lg.
(** expected_returns.py 151-195 *)
Definition ema_historical_return_kw (prices : frame (option R)) (kw : kwargs) : res (bool * series) :=
  do _ <- accepts ["returns_data"; "compounding"; "span"; "frequency"; "log_returns"] kw ;
  do rd <- kw_bool kw "returns_data" false ; do c <- kw_bool kw "compounding" true ; do sp <- kw_num kw "span" 500 ;
  do fr <- kw_num kw "frequency" 252 ; do lg <- kw_bool kw "log_returns" false ;
  ema_historical_return prices rd c sp fr lg.
(** expected_returns.py 198-280 *)
Definition capm_return_kw (prices : frame (option R)) (kw : kwargs) : res (bool * series) :=
  do _ <- accepts ["market_prices"; "returns_data"; "risk_free_rate"; "compounding"; "frequency"; "log_returns"] kw ;
  do m <- kw_table kw "market_prices" ; do rd <- kw_bool kw "returns_data" false ; do rf <- kw_num kw "risk_free_rate" 0 ;
  do c <- kw_bool kw "compounding" true ; do fr <- kw_num kw "frequency" 252 ; do lg <- kw_bool kw "log_returns" false ;
  snd (capm_return prices m rd rf c fr lg).
(** expected_returns.py 81-108 [return_model] *)
Definition return_model_kw (prices : frame (option R)) (method : string) (kw : kwargs) : res (bool * series) :=
  if String.eqb method "mean_historical_return" then mean_historical_return_kw prices kw
  else if String.eqb method "ema_historical_return" then ema_historical_return_kw prices kw
  else if String.eqb method "capm_return" then capm_return_kw prices kw
  else Err NotImplementedError.
