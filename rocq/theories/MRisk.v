(** * Model of pypfopt/risk_models.py

    Exact arithmetic on real numbers.  Tables have entries in [option R] with [None] for NaN; a
    matrix that would contain NaN or an infinite number makes the model stop with [FloatSpecial].
    Simplifications: inputs are DataFrames (other inputs: MArray.v); warnings are in MWarn.v; [min_cov_determinant]
    is in MRisk2.v. *)
From Coq Require Import ZArith List String Bool Reals.
From Verif Require Import Num Py MFrame MHRP MReturns SLin Sums.
Import ListNotations.
Local Open Scope R_scope.

(** risk_models.py 81, 276, 333: the n x m array with entries [g i j] *)
Definition array (n m : nat) (g : nat -> nat -> R) : list (list R) :=
  map (fun i => map (g i) (seq 0 m)) (seq 0 n).
(** risk_models.py 45, 84, 433 *)
Definition delta (i j : nat) : R := if Nat.eqb i j then 1 else 0.

(** risk_models.py 45: [np.linalg.cholesky] reads the lower triangle and raises LinAlgError at the first pivot that is not
    positive; in exact arithmetic this is elimination column by column *)
Fixpoint cholesky (n : nat) (A : nat -> nat -> R) : bool :=
  match n with
  | O => true
  | S m => Rltb 0 (A O O) && cholesky m (fun i j => A (S i) (S j) - A (S i) O * A (S j) O / A O O)
  end.
(** risk_models.py 32-48 [_is_positive_semidefinite] *)
Definition eps16 : R := / 10 ^ 16.
(** risk_models.py 32-48 *)
Definition is_psd (M : list (list R)) : bool :=
  cholesky (List.length M) (fun i j => entry M i j + eps16 * delta i j).

(** risk_models.py 75: [np.linalg.eigh]: eigenvalues and a matrix whose columns are eigenvectors *)
Definition eigh_oracle := list (list R) -> list R * list (list R).
(** risk_models.py 83 *)
Definition min_of (l : list R) : R := match l with [] => 0 | x :: l' => fold_left Rmin l' x end.
(** risk_models.py 51-98 [fix_nonpositive_semidefinite] *)
Definition fix_psd (eigh : eigh_oracle) (M : list (list R)) (fix_method : string) : res (list (list R)) :=
  if is_psd M then Ok M else
  let n := List.length M in
  let '(q, V) := eigh M in
  if String.eqb fix_method "spectral" then
    Ok (array n n (fun i j => sumn n (fun k => entry V i k * (if Rltb 0 (nth k q 0) then nth k q 0 else 0) * entry V j k)))
  else if String.eqb fix_method "diag" then
    Ok (array n n (fun i j => entry M i j - 11 / 10 * min_of q * delta i j))
  else Err NotImplementedError.

(** risk_models.py 45, 75: a table without NaN *)
Definition whole (m : list (list (option R))) : res (list (list R)) :=
  match all_some (map all_some m) with Some r => Ok r | None => Err FloatSpecial end.
(** risk_models.py 174, 219, 282, 415 *)
Definition scale_rows (k : R) (m : list (list R)) : list (list R) := map (map (fun x => x * k)) m.
(** risk_models.py 94-96 *)
Definition fixed_frame (eigh : eigh_oracle) (names : list label) (rows : list (list R)) (fix_method : string) : res (frame R) :=
  do m <- fix_psd eigh rows fix_method ; Ok (mkFrame names names m).
(** risk_models.py 166-172, 209-215, 265-272 *)
Definition get_returns (prices : frame (option R)) (returns_data log_returns : bool) : res (frame (option R)) :=
  if returns_data then Ok prices else returns_from_prices prices log_returns.

(** risk_models.py 149-175 [sample_cov] *)
Definition sample_cov (eigh : eigh_oracle) (prices : frame (option R)) (returns_data : bool) (frequency : R)
    (log_returns : bool) (fix_method : string) : res (frame R) :=
  do returns <- get_returns prices returns_data log_returns ;
  do C <- whole (f_rows (frame_cov returns)) ;
  fixed_frame eigh (f_cols returns) (scale_rows frequency C) fix_method.

(** risk_models.py 178-220 [semicovariance]; [np.fmin] ignores NaN, so a missing return counts as 0 *)
Definition drop_cell (benchmark : R) (x : option R) : R :=
  match x with Some v => Rmin (v - benchmark) 0 | None => 0 end.
(** risk_models.py 178-220 *)
Definition semicovariance (eigh : eigh_oracle) (prices : frame (option R)) (returns_data : bool) (benchmark frequency : R)
    (log_returns : bool) (fix_method : string) : res (frame R) :=
  do returns <- get_returns prices returns_data log_returns ;
  let drops k i := drop_cell benchmark (nth i (nth k (f_rows returns) []) None) in
  let T := List.length (f_rows returns) in
  let n := List.length (f_cols returns) in
  if Nat.eqb T 0 then Err FloatSpecial else
  fixed_frame eigh (f_cols returns)
    (array n n (fun i j => sumn T (fun k => drops k i * drops k j) / INR T * frequency)) fix_method.

(** risk_models.py 223-240 [_pair_exp_cov] *)
Fixpoint covariation (mx my : R) (x y : list (option R)) : list (option R) :=
  match x, y with
  | a :: x', b :: y' =>
      match a, b with Some v, Some u => Some ((v - mx) * (u - my)) | _, _ => None end :: covariation mx my x' y'
  | _, _ => []
  end.
(** risk_models.py 223-240 *)
Definition pair_exp_cov (x y : list (option R)) (span : R) : res (option R) :=
  if Rltb span 1 then Err ValueError else
  match mean x, mean y with
  | Some mx, Some my =>
      match covariation mx my x y with
      | [] => Err IndexError
      | c => Ok (ewm_last (1 - 2 / (span + 1)) c)
      end
  | _, _ => match x with [] => Err IndexError | _ => Ok None end
  end.
(** risk_models.py 243-285 [exp_cov]; the loop fills both triangles from the pairs i <= j; the labels
    are the columns of [prices] *)
Definition exp_cov (eigh : eigh_oracle) (prices : frame (option R)) (returns_data : bool) (span frequency : R)
    (log_returns : bool) (fix_method : string) : res (frame R) :=
  do returns <- get_returns prices returns_data log_returns ;
  let N := List.length (f_cols prices) in
  let col i := column (f_rows returns) i in
  do C <- mapM (fun i => mapM (fun j => pair_exp_cov (col (Nat.min i j)) (col (Nat.max i j)) span) (seq 0 N)) (seq 0 N) ;
  do C' <- whole C ;
  fixed_frame eigh (f_cols prices) (scale_rows frequency C') fix_method.

(** risk_models.py 338-353 [corr_to_cov]; shapes that do not fit raise *)
Definition corr_to_cov (f : frame R) (stdevs : list R) : res (frame R) :=
  if Nat.eqb (List.length (f_rows f)) (List.length stdevs) && forallb (fun row => Nat.eqb (List.length row) (List.length stdevs)) (f_rows f) then
    Ok (mkFrame (f_index f) (f_cols f) (map2 (fun si row => map2 (fun sj x => x * (si * sj)) stdevs row) stdevs (f_rows f)))
  else Err ShapeError.

(** ** CovarianceShrinkage (356-582) *)
(** risk_models.py 356, 394-402 *)
Record shrinkage := mkShrink { sh_X : frame (option R); sh_S : list (list (option R)); sh_frequency : R }.
(** risk_models.py 371-402 *)
Definition shrinkage_init (prices : frame (option R)) (returns_data : bool) (frequency : R) (log_returns : bool) : res shrinkage :=
  do returns <- get_returns prices returns_data log_returns ;
  let X := dropna_all returns in
  Ok (mkShrink X (f_rows (frame_cov X)) frequency).
(** risk_models.py 404-416 [_format_and_annualize] *)
Definition format_annualize (eigh : eigh_oracle) (sh : shrinkage) (raw : list (list R)) : res (frame R) :=
  fixed_frame eigh (f_cols (sh_X sh)) (scale_rows (sh_frequency sh) raw) "spectral".
(** risk_models.py 418-436 [shrunk_covariance] *)
Definition shrunk_covariance (eigh : eigh_oracle) (sh : shrinkage) (d : R) : res (frame R) :=
  do C <- whole (sh_S sh) ;
  let N := List.length C in
  if Nat.eqb N 0 then Err FloatSpecial else
  let mu := sumn N (fun i => entry C i i) / INR N in
  format_annualize eigh sh (array N N (fun i j => d * (delta i j * mu) + (1 - d) * entry C i j)).

(** risk_models.py 452, 474, 529, 580: [np.nan_to_num(self.X.values)] *)
Definition nan_to_num (f : frame (option R)) : list (list R) :=
  map (map (fun x => match x with Some v => v | None => 0 end)) (f_rows f).

(** risk_models.py 513-514, 566-567: a float quotient, and Python's [max(0, min(1, k / t))] on it: [min(1, nan)] is 1 *)
Inductive xreal := Fin (x : R) | PInf | MInf | NaN.
(** risk_models.py 513, 566 *)
Definition xdiv (a b : R) : xreal :=
  if Reqb b 0 then (if Rltb 0 a then PInf else if Rltb a 0 then MInf else NaN) else Fin (a / b).
(** risk_models.py 514, 567 *)
Definition clamp01 (k : xreal) : R :=
  match k with
  | Fin x => Rmax 0 (Rmin 1 x)
  | PInf => 1
  | MInf => 0
  | NaN => 1
  end.
(** risk_models.py 539-540 *)
Definition xscale (c : R) (k : xreal) : xreal := match k with Fin x => Fin (x / c) | _ => k end.

(** risk_models.py 465-518 [_ledoit_wolf_single_factor]; the result is the matrix and the intensity.
    Needs at least two rows; a market without variance makes everything NaN. *)
Definition single_factor (sh : shrinkage) : res (list (list R) * R) :=
  let Xn := nan_to_num (sh_X sh) in
  let t := List.length Xn in
  let n := List.length (f_cols (sh_X sh)) in
  if (t <=? 1)%nat then Err FloatSpecial else
  let T := INR t in
  let Xm k i := entry Xn k i - sumn t (fun l => entry Xn l i) / T in
  let xmkt k := sumn n (fun i => Xm k i) / INR n in
  (* np.cov of the columns of Xm and xmkt, times (t - 1) / t *)
  let col i k := if (i <? n)%nat then Xm k i else xmkt k in
  let cm i := sumn t (fun l => col i l) / T in
  let cov i j := sumn t (fun k => (col i k - cm i) * (col j k - cm j)) / (T - 1) * (T - 1) / T in
  let betas i := cov i n in
  let varmkt := cov n n in
  if Reqb varmkt 0 then Err FloatSpecial else
  let F i j := if Nat.eqb i j then cov i i else betas i * betas j / varmkt in
  let c := sumn n (fun i => sumn n (fun j => (cov i j - F i j) * (cov i j - F i j))) in
  let y k i := Xm k i * Xm k i in
  let p := 1 / T * sumn n (fun i => sumn n (fun j => sumn t (fun k => y k i * y k j)))
           - sumn n (fun i => sumn n (fun j => cov i j * cov i j)) in
  let rdiag := 1 / T * sumn t (fun k => sumn n (fun i => y k i * y k i)) - sumn n (fun i => cov i i * cov i i) in
  let z k i := Xm k i * xmkt k in
  let v1 i j := 1 / T * sumn t (fun k => y k i * z k j) - betas i * cov i j in
  let roff1 := sumn n (fun i => sumn n (fun j => v1 i j * betas j)) / varmkt - sumn n (fun i => v1 i i * betas i) / varmkt in
  let v3 i j := 1 / T * sumn t (fun k => z k i * z k j) - varmkt * cov i j in
  let roff3 := sumn n (fun i => sumn n (fun j => v3 i j * (betas i * betas j))) / (varmkt * varmkt)
               - sumn n (fun i => v3 i i * (betas i * betas i)) / (varmkt * varmkt) in
  let r := rdiag + (2 * roff1 - roff3) in
  let d := clamp01 (xscale T (xdiv (p - r) c)) in
  Ok (array n n (fun i j => d * F i j + (1 - d) * cov i j), d).

(** risk_models.py 520-571 [_ledoit_wolf_constant_correlation]; with one asset or an asset without variance the
    average correlation is NaN or infinite *)
Definition constant_correlation (sh : shrinkage) : res (list (list R) * R) :=
  do C <- whole (sh_S sh) ;
  let Xn := nan_to_num (sh_X sh) in
  let t := List.length Xn in
  let n := List.length (f_cols (sh_X sh)) in
  let T := INR t in let N := INR n in
  let s i j := entry C i j in
  if (n <=? 1)%nat || negb (forallb (fun i => Rltb 0 (s i i)) (seq 0 n)) then Err FloatSpecial else
  let std i := sqrt (s i i) in
  let r_bar := (sumn n (fun i => sumn n (fun j => s i j / (std i * std j))) - N) / (N * (N - 1)) in
  let F i j := if Nat.eqb i j then s i i else r_bar * (std i * std j) in
  let Xm k i := entry Xn k i - sumn t (fun l => entry Xn l i) / T in
  let help i j := sumn t (fun k => Xm k i * Xm k j) / T in
  let pi_mat i j := sumn t (fun k => (Xm k i * Xm k i) * (Xm k j * Xm k j)) / T
                    - 2 * sumn t (fun k => Xm k i * Xm k j) * s i j / T + s i j * s i j in
  let pi_hat := sumn n (fun i => sumn n (fun j => pi_mat i j)) in
  let theta i j := if Nat.eqb i j then 0 else
      sumn t (fun k => Xm k i * Xm k i * Xm k i * Xm k j) / T - help i i * s i j - help i j * s i i + s i i * s i j in
  let rho_hat := sumn n (fun i => pi_mat i i) + r_bar * sumn n (fun i => sumn n (fun j => (1 / std i * std j) * theta i j)) in
  let gamma := sumn n (fun i => sumn n (fun j => (s i j - F i j) * (s i j - F i j))) in
  let d := clamp01 (xscale T (xdiv (pi_hat - rho_hat) gamma)) in
  Ok (array n n (fun i j => d * F i j + (1 - d) * s i j), d).

(** risk_models.py 438-463 [ledoit_wolf] and 573-582 [oracle_approximating]; scikit-learn's estimators are oracles
    of the returns with missing values replaced by 0.  The second component is the attribute [delta]. *)
Definition shrink_oracle := list (list R) -> list (list R) * R.
(** risk_models.py 438-463 *)
Definition ledoit_wolf (eigh : eigh_oracle) (sk : shrink_oracle) (sh : shrinkage) (target : string) : res (frame R * R) :=
  do r <- (if String.eqb target "constant_variance" then Ok (sk (nan_to_num (sh_X sh)))
           else if String.eqb target "single_factor" then single_factor sh
           else if String.eqb target "constant_correlation" then constant_correlation sh
           else Err NotImplementedError) ;
  do f <- format_annualize eigh sh (fst r) ;
  Ok (f, snd r).
(** risk_models.py 573-582 *)
Definition oracle_approximating (eigh : eigh_oracle) (sk : shrink_oracle) (sh : shrinkage) : res (frame R * R) :=
  let r := sk (nan_to_num (sh_X sh)) in
  do f <- format_annualize eigh sh (fst r) ; Ok (f, snd r).

(** risk_models.py 101-146 [risk_matrix] with keyword arguments at their defaults *)
Definition risk_matrix (eigh : eigh_oracle) (sk_lw sk_oas : shrink_oracle) (prices : frame (option R)) (method : string) : res (frame R) :=
  let shrink g := do sh <- shrinkage_init prices false 252 false ; do r <- g sh ; Ok (fst r) in
  if String.eqb method "sample_cov" then sample_cov eigh prices false 252 false "spectral"
  else if String.eqb method "semicovariance" || String.eqb method "semivariance" then
    semicovariance eigh prices false (79 / 10 ^ 6) 252 false "spectral"
  else if String.eqb method "exp_cov" then exp_cov eigh prices false 180 252 false "spectral"
  else if String.eqb method "ledoit_wolf" || String.eqb method "ledoit_wolf_constant_variance" then
    shrink (fun sh => ledoit_wolf eigh sk_lw sh "constant_variance")
  else if String.eqb method "ledoit_wolf_single_factor" then shrink (fun sh => ledoit_wolf eigh sk_lw sh "single_factor")
  else if String.eqb method "ledoit_wolf_constant_correlation" then shrink (fun sh => ledoit_wolf eigh sk_lw sh "constant_correlation")
  else if String.eqb method "oracle_approximating" then shrink (oracle_approximating eigh sk_oas)
  else Err NotImplementedError.
