(** * Model of min_cov_determinant (risk_models.py 287-317)

    Warnings are in MWarn.v; the import of scikit-learn is not modelled: the import succeeds. *)
From Coq Require Import ZArith List String Bool Reals.
From Verif Require Import Num Py MFrame MReturns MDown MRisk.
Import ListNotations.
Local Open Scope R_scope.

(** risk_models.py 315: [sklearn.covariance.fast_mcd(X, random_state)[1]], the raw covariance array, for a fixed random state *)
Definition mcd_oracle := list (list R) -> list (list R).
(** risk_models.py 316: [pd.DataFrame(array, index=assets, columns=assets)] wants one row and one column for each asset *)
Definition fits (n : nat) (M : list (list R)) : bool :=
  Nat.eqb (List.length M) n && forallb (fun r => Nat.eqb (List.length r) n) M.
(** risk_models.py 287-317 [min_cov_determinant]; 298-300: an array gets range labels *)
Definition min_cov_determinant (eigh : eigh_oracle) (mcd : mcd_oracle) (prices : frame (option R)) (returns_data : bool) (frequency : R)
    (log_returns : bool) (fix_method : string) : res (frame R) :=
  do X <- get_returns prices returns_data log_returns ;
  let raw := mcd (dropna (f_rows X)) in
  if fits (List.length (f_cols prices)) raw
  then fixed_frame eigh (f_cols prices) (scale_rows frequency raw) fix_method
  else Err ValueError.
