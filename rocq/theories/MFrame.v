(** * pandas DataFrames and the statistics the package takes from pandas *)
From Coq Require Import ZArith List Bool Reals.
From Verif Require Import Num Py.
Import ListNotations.

(** risk_models.py 149-175: a DataFrame: row labels, column labels, rows; used with entries in [option R] where [None] is
    NaN.  Simplification: entries are numbers or NaN, never infinite. *)
Record frame (X : Type) := mkFrame { f_index : list label; f_cols : list label; f_rows : list (list X) }.
Arguments mkFrame {X}. Arguments f_index {X}. Arguments f_cols {X}. Arguments f_rows {X}.

(** hierarchical_portfolio.py 90: position of a label in an index *)
Fixpoint position (k : label) (l : list label) : option nat :=
  match l with
  | [] => None
  | k' :: l' => if label_eqb k k' then Some O else option_map S (position k l')
  end.

(** hierarchical_portfolio.py 90: [frame.loc[t, u]] for an index without duplicates; a missing label raises KeyError *)
Definition loc {X} (f : frame X) (t u : label) : res X :=
  match position t (f_index f), position u (f_cols f) with
  | Some i, Some j =>
      match nth_error (f_rows f) i with
      | Some row => match nth_error row j with Some x => Ok x | None => Err KeyError end
      | None => Err KeyError
      end
  | _, _ => Err KeyError
  end.

(** risk_models.py 174: all entries present? *)
Fixpoint all_some {X} (l : list (option X)) : option (list X) :=
  match l with
  | [] => Some []
  | None :: _ => None
  | Some x :: l' => option_map (cons x) (all_some l')
  end.

Section Stats.
  Local Open Scope R_scope.

  (** risk_models.py 280: column number j of a table *)
  Definition column (rows : list (list (option R))) (j : nat) : list (option R) :=
    map (fun row => nth j row None) rows.
  (** risk_models.py 174 *)
  Definition columns (f : frame (option R)) : list (list (option R)) :=
    map (column (f_rows f)) (seq 0 (length (f_cols f))).

  (** expected_returns.py 146-148 *)
  Definition present (l : list (option R)) : list R :=
    flat_map (fun x => match x with Some v => [v] | None => [] end) l.
  (** expected_returns.py 146: [Series.count], [Series.mean] (NaN is skipped; NaN if nothing is left) *)
  Definition count (l : list (option R)) : nat := length (present l).
  (** expected_returns.py 148 *)
  Definition mean_of (l : list R) : R := vsum l / INR (length l).
  (** expected_returns.py 148 *)
  Definition mean (l : list (option R)) : option R :=
    match present l with [] => None | p => Some (mean_of p) end.

  (** risk_models.py 174: rows in which both series are present *)
  Fixpoint both (x y : list (option R)) : list (R * R) :=
    match x, y with
    | Some a :: x', Some b :: y' => (a, b) :: both x' y'
    | _ :: x', _ :: y' => both x' y'
    | _, _ => []
    end.
  (** risk_models.py 174: sum of products of deviations *)
  Definition codev (p : list (R * R)) : R :=
    let mx := mean_of (map fst p) in let my := mean_of (map snd p) in
    vsum (map (fun ab => (fst ab - mx) * (snd ab - my)) p).
  (** risk_models.py 174, 401, hierarchical_portfolio.py 159: [DataFrame.cov] for one pair of columns: over the rows where both are present, ddof = 1;
      NaN for fewer than two such rows *)
  Definition pair_cov (x y : list (option R)) : option R :=
    let p := both x y in
    if (length p <=? 1)%nat then None else Some (codev p / (INR (length p) - 1)).
  (** hierarchical_portfolio.py 159: [DataFrame.corr] for one pair: NaN if one of the two does not vary *)
  Definition pair_corr (x y : list (option R)) : option R :=
    let p := both x y in
    let d := codev (map (fun ab => (fst ab, fst ab)) p) * codev (map (fun ab => (snd ab, snd ab)) p) in
    if Rleb d 0 then None else Some (codev p / sqrt d).
  (** risk_models.py 174, hierarchical_portfolio.py 159 *)
  Definition pairwise (g : list (option R) -> list (option R) -> option R) (f : frame (option R)) : frame (option R) :=
    let cs := columns f in
    mkFrame (f_cols f) (f_cols f) (map (fun x => map (fun y => g x y) cs) cs).
  (** risk_models.py 174, 401, hierarchical_portfolio.py 159, expected_returns.py 269 *)
  Definition frame_cov : frame (option R) -> frame (option R) := pairwise pair_cov.
  (** hierarchical_portfolio.py 159 *)
  Definition frame_corr : frame (option R) -> frame (option R) := pairwise pair_corr.
  (** expected_returns.py 148, hierarchical_portfolio.py 200 *)
  Definition frame_mean (f : frame (option R)) : list (option R) := map mean (columns f).
End Stats.
