(** * Model of pypfopt/base_optimizer.py, class BaseOptimizer (25-122) and portfolio_performance
    (515-578), and of the objective functions those use *)
From Coq Require Import ZArith List String Ascii Bool Reals.
From Verif Require Import Num Py.
Import ListNotations.

Section Base.
  Context {A : Type} {N : Num A}.
  Local Open Scope num_scope.

  (** base_optimizer.py 40-54: the attributes used by the methods below.  [b_weights = None] is
      [self.weights = None]. *)
  Record base := mkBase { b_tickers : list label; b_weights : option (list A) }.

  (** base_optimizer.py 40-54 [BaseOptimizer.__init__]; [n_assets] is only used for the default
      tickers 0, 1, 2, ... *)
  Definition range_labels (n : nat) : list label := map (fun i => LInt (Z.of_nat i)) (seq 0 n).
  (** base_optimizer.py 40-54 *)
  Definition base_init (n : nat) (tickers : option (list label)) : base :=
    mkBase (match tickers with None => range_labels n | Some t => t end) None.

  (** base_optimizer.py 56-68 [_make_output_weights]: [zip] stops at the shorter list,
      [OrderedDict] merges duplicate keys; iterating over [None] raises TypeError *)
  Definition make_output_of (b : base) (w : list A) : dict A := dict_of_pairs (combine (b_tickers b) w).
  (** base_optimizer.py 56-68 *)
  Definition make_output_weights (b : base) : res (dict A) :=
    match b_weights b with
    | None => Err TypeError
    | Some w => Ok (make_output_of b w)
    end.

  (** base_optimizer.py 70-77 [set_weights]: the list is built before the attribute is assigned *)
  Definition set_weights (b : base) (d : dict A) : base * res unit :=
    match mapM (fun t => dgetE t d) (b_tickers b) with
    | Err e => (b, Err e)
    | Ok w => (mkBase (b_tickers b) (Some w), Ok tt)
    end.

  (** base_optimizer.py 95 *)
  Definition nabs (x : A) : A := if x <? n0 then - x else x.

  (** base_optimizer.py 99: numpy [round(x, d)] for d >= 1 decimals: [rint(x * 10**d) / 10**d].
      Simplification: [10**d] does not overflow. *)
  Definition np_round (d : Z) (x : A) : A :=
    nofZ (nrint (x * nofZ (10 ^ d)%Z)) / nofZ (10 ^ d)%Z.

  (** base_optimizer.py 79, 96-98: the [rounding] argument: None, an int (bool counts as int), or anything else *)
  Inductive rounding_arg := RdNone | RdInt (z : Z) | RdOther.

  (** base_optimizer.py 79-101 [clean_weights].  The object is returned too, because the method
      works on [self.weights.copy()] (line 94). *)
  Definition clean_weights (b : base) (cutoff : A) (rounding : rounding_arg) : base * res (dict A) :=
    match b_weights b with
    | None => (b, Err AttributeError)
    | Some w =>
        let cut := map (fun x => if nabs x <? cutoff then n0 else x) w in
        match rounding with
        | RdNone => (b, Ok (make_output_of b cut))
        | RdOther => (b, Err ValueError)
        | RdInt d =>
            if (d <? 1)%Z then (b, Err ValueError)
            else (b, Ok (make_output_of b (map (np_round d) cut)))
        end
    end.

  (** *** Files *)

  (** base_optimizer.py 113-120: what a file contains: the three serialisations, kept symbolic; [FJsonCut d] is what
      [json.dump] has written when it meets a key it cannot encode: an opening brace and the
      items before that key *)
  Inductive content := FOld (s : string) | FCsv (d : dict A) | FJson (d : dict A)
                     | FJsonCut (d : dict A) | FTxt (d : dict A).
  (** base_optimizer.py 114, 116, 119: a file system: what each file name holds *)
  Definition filesystem := string -> option content.
  (** base_optimizer.py 114, 116, 119 *)
  Definition fs_write (fs : filesystem) (name : string) (c : content) : filesystem :=
    fun n => if String.eqb n name then Some c else fs n.

  (** base_optimizer.py 112: ASCII part of [str.lower] *)
  Definition lower_ascii (c : ascii) : ascii :=
    let n := nat_of_ascii c in
    if (65 <=? n)%nat && (n <=? 90)%nat then ascii_of_nat (n + 32) else c.
  (** base_optimizer.py 112 *)
  Fixpoint lower (s : string) : string :=
    match s with EmptyString => EmptyString | String c s' => String (lower_ascii c) (lower s') end.
  (** base_optimizer.py 112: [filename.split(".")[-1]] *)
  Fixpoint last_part_aux (s acc : string) : string :=
    match s with
    | EmptyString => acc
    | String c s' =>
        if Ascii.eqb c "."%char then last_part_aux s' EmptyString
        else last_part_aux s' (acc ++ String c EmptyString)%string
    end.
  (** base_optimizer.py 112 *)
  Definition last_part (s : string) : string := last_part_aux s EmptyString.

  (** base_optimizer.py 117: keys [json.dump] accepts: str and int, not tuples *)
  Definition json_key (l : label) : bool := match l with LTup _ _ => false | _ => true end.
  (** base_optimizer.py 117: items written before the first unsupported key *)
  Fixpoint json_prefix (d : dict A) : dict A :=
    match d with
    | [] => []
    | kv :: d' => if json_key (fst kv) then kv :: json_prefix d' else []
    end.

  (** default cutoff 1e-4 and rounding 5 of base_optimizer.py 79 *)
  Definition default_cutoff : A := n1 / nofZ 10000.

  (** base_optimizer.py 103-122 [save_weights_to_file]; [open(filename, "w")] truncates first.
      Simplification: every file name is writable. *)
  Definition save_weights_to_file (fs : filesystem) (b : base) (filename : string)
    : filesystem * base * res unit :=
    match clean_weights b default_cutoff (RdInt 5) with
    | (b', Err e) => (fs, b', Err e)
    | (b', Ok d) =>
        let ext := lower (last_part filename) in
        if String.eqb ext "csv" then (fs_write fs filename (FCsv d), b', Ok tt)
        else if String.eqb ext "json" then
          if forallb (fun kv => json_key (fst kv)) d then (fs_write fs filename (FJson d), b', Ok tt)
          else (fs_write fs filename (FJsonCut (json_prefix d)), b', Err TypeError)
        else if String.eqb ext "txt" then (fs_write fs filename (FTxt d), b', Ok tt)
        else (fs, b', Err NotImplementedError)
    end.
End Base.
Arguments base A : clear implicits.
Arguments filesystem A : clear implicits.

(** ** Performance of a portfolio (reals, because of the square root) *)
Section Perf.
  Local Open Scope R_scope.

  (** base_optimizer.py 515-517, 538: expected returns argument: None, a labelled Series, or an unlabelled list/array *)
  Inductive mu_arg := MuNone | MuSeries (s : dict R) | MuArray (l : list R).
  (** base_optimizer.py 515-517, 540: covariance argument: a DataFrame with column labels, or an array *)
  Inductive cov_arg := CovFrame (cols : list label) (m : list (list R)) | CovArray (m : list (list R)).
  (** base_optimizer.py 540-556 *)
  Definition cov_values (c : cov_arg) : list (list R) :=
    match c with CovFrame _ m => m | CovArray m => m end.

  (** objective_functions.py 59-71 [portfolio_variance] on an array of weights;
      [cp.quad_form] checks the shapes *)
  Definition portfolio_variance (w : list R) (m : list (list R)) : res R :=
    if (List.length m =? List.length w)%nat && forallb (fun r => (List.length r =? List.length w)%nat) m
    then Ok (quad m w) else Err ShapeError.

  (** objective_functions.py 74-89 [portfolio_return] on arrays *)
  Definition portfolio_return (w mu : list R) (negative : bool) : res R :=
    if (List.length w =? List.length mu)%nat
    then Ok ((if negative then -1 else 1) * dot w mu) else Err ShapeError.

  (** objective_functions.py 92-115 [sharpe_ratio] on arrays; a zero or imaginary volatility gives
      inf/nan in the real code *)
  Definition sharpe_ratio (w mu : list R) (m : list (list R)) (rf : R) (negative : bool) : res R :=
    if (List.length w =? List.length mu)%nat then
      do v <- portfolio_variance w m ;
      if Rleb v 0 then Err FloatSpecial
      else Ok ((if negative then -1 else 1) * ((dot w mu - rf) / sqrt v))
    else Err ShapeError.

  (** base_optimizer.py 537-554: weights argument of [portfolio_performance] *)
  Inductive weights_arg := WtNone | WtDict (d : dict R) | WtArray (l : list R).

  (** base_optimizer.py 538-543: the universe a dictionary of weights is read against *)
  Definition perf_tickers (mu : mu_arg) (cov : cov_arg) : res (list label) :=
    match mu, cov with
    | MuSeries s, _ => Ok (map fst s)
    | _, CovFrame cols _ => Ok cols
    | MuArray l, _ => Ok (range_labels (List.length l))
    | MuNone, CovArray _ => Err TypeError
    end.
  (** base_optimizer.py 558-561 *)
  Definition mu_values (mu : mu_arg) : option (list R) :=
    match mu with MuNone => None | MuSeries s => Some (map snd s) | MuArray l => Some l end.

  (** base_optimizer.py 515-578 [portfolio_performance]; printing is not modelled *)
  Definition portfolio_performance (weights : weights_arg) (mu : mu_arg) (cov : cov_arg) (rf : R)
    : res (option R * R * option R) :=
    do w <- match weights with
            | WtDict d =>
                do ts <- perf_tickers mu cov ;
                let nw := map (fun t => match dget t d with Some x => x | None => 0 end) ts in
                if Reqb (vsum nw) 0 then Err ValueError else Ok nw
            | WtArray l => Ok l
            | WtNone => Err ValueError
            end ;
    do v <- portfolio_variance w (cov_values cov) ;
    if Rltb v 0 then Err FloatSpecial else
    let sigma := sqrt v in
    match mu_values mu with
    | Some m =>
        do r <- portfolio_return w m false ;
        do s <- sharpe_ratio w m (cov_values cov) rf false ;
        Ok (Some r, sigma, Some s)
    | None => Ok (None, sigma, None)
    end.
End Perf.
