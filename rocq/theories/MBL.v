(** * Model of pypfopt/black_litterman.py

    Exact arithmetic on real numbers; column vectors are lists.  Simplifications: warnings are in MWarn.v, printing
    and the python 3.5 notice are not modelled; views, priors and market caps contain no NaN; a
    dictionary or Series has distinct labels; the number of columns of a matrix without rows is not
    known to the model and never complained about. *)
From Coq Require Import ZArith List String Bool Reals.
From Verif Require Import Num Py MBase MFrame MRisk SLin Sums.
Import ListNotations.
Local Open Scope R_scope.

(** black_litterman.py 185 *)
Definition matrix := list (list R).

(** black_litterman.py 407, 410: [np.linalg.solve] on one right hand side ([None]: LinAlgError, "Singular matrix") and
    [np.linalg.lstsq] *)
Record linalg := mkLinalg {
  la_solve : matrix -> list R -> option (list R);
  la_lstsq : matrix -> list R -> list R }.

(** ** market_implied_prior_returns (19-52)
    [DataFrame.dot(Series)] aligns the columns with the index of the series and raises ValueError when
    the labels are not the same; [ndarray.dot] works by position *)
(** black_litterman.py 52 *)
Definition has_label (d : dict R) (l : label) : bool := match dget l d with Some _ => true | None => false end.
(** black_litterman.py 49-50 *)
Definition weights_for (cov : cov_arg) (w : dict R) : res (list R) :=
  match cov with
  | CovFrame cols _ =>
      if forallb (has_label w) cols && forallb (fun l => existsb (label_eqb l) cols) (map fst w)
      then Ok (map (fun l => match dget l w with Some x => x | None => 0 end) cols)
      else Err ValueError
  | CovArray m =>
      if forallb (fun row => Nat.eqb (List.length row) (List.length w)) m then Ok (map snd w) else Err ValueError
  end.
(** black_litterman.py 19-52 *)
Definition market_implied_prior_returns (market_caps : dict R) (risk_aversion : R) (cov : cov_arg)
    (risk_free_rate : R) : res (list R) :=
  let s := vsum (map snd market_caps) in
  if Reqb s 0 then Err FloatSpecial else
  let mkt_weights := map (fun p => (fst p, snd p / s)) market_caps in
  do w <- weights_for cov mkt_weights ;
  Ok (map (fun x => risk_aversion * x + risk_free_rate) (map (fun row => dot row w) (cov_values cov))).

(** ** market_implied_risk_aversion (55-83) on a Series of prices without NaN *)
(** black_litterman.py 80 *)
Fixpoint pct_changes (p : list R) : res (list R) :=
  match p with
  | x :: (y :: _) as p' =>
      if Reqb x 0 then Err FloatSpecial else do r <- pct_changes p' ; Ok (y / x - 1 :: r)
  | _ => Ok []
  end.
(** black_litterman.py 55-83 *)
Definition market_implied_risk_aversion (market_prices : list R) (frequency risk_free_rate : R) : res R :=
  do rets <- pct_changes market_prices ;
  let T := List.length rets in
  if Nat.leb T 1 then Err FloatSpecial else
  let m := vsum rets / INR T in
  let r := m * frequency in
  let var := vsum (map (fun x => (x - m) * (x - m)) rets) / INR (T - 1) * frequency in
  if Reqb var 0 then Err FloatSpecial else Ok ((r - risk_free_rate) / var).

(** ** The object (94-110, 201-206): caches are [None] until computed *)
(** black_litterman.py 178-206 *)
Record bl := mkBL {
  bl_base : base R;               (** tickers and weights *)
  bl_sigma : matrix;              (** cov_matrix *)
  bl_n : nat;                     (** n_assets *)
  bl_Q : list R;
  bl_P : matrix;
  bl_pi : list R;
  bl_omega : matrix;
  bl_tau : R;
  bl_ra : R;                      (** risk_aversion *)
  bl_tsp : option matrix;         (** _tau_sigma_P *)
  bl_A : option matrix;           (** _A *)
  bl_rets : option (dict R);      (** posterior_rets *)
  bl_pcov : option matrix         (** posterior_cov *) }.

(** ** Arguments of the constructor (127-139) *)
(** black_litterman.py 127-139, 189: [VBad]: neither None, dict nor Series *)
Inductive views_arg := VNone | VDict (d : dict R) | VBad.
(** black_litterman.py 256-279: [PiArr]: the values of a Series, DataFrame or ndarray *)
Inductive pi_arg := PiNone | PiArr (l : list R) | PiMarket | PiEqual | PiBad.
(** black_litterman.py 291-327 *)
Inductive omega_arg := OmDefault | OmArr (m : matrix) | OmIdzorek | OmBad.
(** black_litterman.py 302-306: [ConfList]: a list, tuple or Series; [ConfArr]: an ndarray *)
Inductive conf_arg := ConfNone | ConfList (l : list R) | ConfArr (l : list R).
(** black_litterman.py 127-139 *)
Record bl_args := mkArgs {
  a_cov : cov_arg;
  a_pi : pi_arg;
  a_views : views_arg;
  a_Q : option (list R);          (** None: not an array, Series or DataFrame *)
  a_P : option matrix;            (** None: not an array or DataFrame *)
  a_omega : omega_arg;
  a_conf : conf_arg;
  a_tau : R;
  a_ra : R;
  a_caps : option (dict R);
  a_rf : R }.

(** black_litterman.py 231: [list.index] *)
Fixpoint index_of (l : label) (ls : list label) : option nat :=
  match ls with
  | [] => None
  | x :: ls' => if label_eqb l x then Some O else option_map S (index_of l ls')
  end.
(** black_litterman.py 208-235 [_parse_views]: the rows of the picking matrix next to the views *)
Definition pick_row (n i : nat) : list R := map (fun j => if Nat.eqb i j then 1 else 0) (seq 0 n).
(** black_litterman.py 208-235 *)
Definition parse_views (n : nat) (tickers : list label) (views : dict R) : res (list R * matrix) :=
  do rows <- mapM (fun p => match index_of (fst p) tickers with
                            | Some i => Ok (snd p, pick_row n i)
                            | None => Err ValueError end) views ;
  Ok (map fst rows, map snd rows).
(** black_litterman.py 237-254 [_set_Q_P] *)
Definition set_Q_P (n : nat) (Q : option (list R)) (P : option matrix) : res (list R * matrix) :=
  match Q with
  | None => Err TypeError
  | Some q =>
      match P with
      | Some p => Ok (q, p)
      | None => if Nat.eqb (List.length q) n then Ok (q, array n n delta) else Err TypeError
      end
  end.
(** black_litterman.py 256-279 [_set_pi]; with an ndarray for covariance [market_implied_prior_returns] returns an ndarray,
    which has no attribute [values] (275) *)
Definition set_pi (n : nat) (pi : pi_arg) (cov : cov_arg) (risk_aversion : R) (caps : option (dict R)) (rf : R)
    : res (list R) :=
  match pi with
  | PiNone => Ok (repeat 0 n)
  | PiArr l => Ok l
  | PiMarket =>
      match caps with
      | None => Err ValueError
      | Some c =>
          do prior <- market_implied_prior_returns c risk_aversion cov rf ;
          match cov with CovFrame _ _ => Ok prior | CovArray _ => Err AttributeError end
      end
  | PiEqual => Ok (repeat (1 / INR n) n)
  | PiBad => Err TypeError
  end.
(** black_litterman.py 341-343 *)
Definition has_shape (r c : nat) (m : matrix) : bool :=
  Nat.eqb (List.length m) r && forallb (fun row => Nat.eqb (List.length row) c) m.
(** black_litterman.py 332-343 [_check_attribute_dimensions] *)
Definition check_dimensions (n : nat) (Q : list R) (P : matrix) (pi : list R) (sigma : matrix) : res unit :=
  if Nat.eqb (List.length pi) n && has_shape (List.length Q) n P && has_shape n n sigma then Ok tt
  else Err AssertionError.

(** black_litterman.py 355, 385: variance of a view portfolio, [P_view @ cov_matrix @ P_view.T] *)
Definition view_variance (n : nat) (sigma P : matrix) (a b : nat) : R :=
  sumn n (fun i => sumn n (fun j => entry P a i * entry sigma i j * entry P b j)).
(** black_litterman.py 355, 388 *)
Definition diag_matrix (k : nat) (f : nat -> R) : matrix :=
  array k k (fun a b => if Nat.eqb a b then f a else 0).
(** black_litterman.py 345-355 [default_omega] *)
Definition default_omega (n k : nat) (sigma P : matrix) (tau : R) : matrix :=
  diag_matrix k (fun a => tau * view_variance n sigma P a a).
(** black_litterman.py 357-388 [idzorek_method]; [confs[view_idx]] beyond the end raises IndexError *)
Definition idzorek_entry (n : nat) (sigma P : matrix) (tau : R) (confs : list R) (a : nat) : res R :=
  match nth_error confs a with
  | None => Err IndexError
  | Some c =>
      if Rltb c 0 || Rltb 1 c then Err ValueError
      else if Reqb c 0 then Ok (10 ^ 6)
      else Ok (tau * ((1 - c) / c) * view_variance n sigma P a a)
  end.
(** black_litterman.py 357-388 *)
Definition idzorek_method (n k : nat) (sigma P : matrix) (tau : R) (confs : list R) : res matrix :=
  do l <- mapM (idzorek_entry n sigma P tau confs) (seq 0 k) ;
  Ok (diag_matrix k (fun a => nth a l 0)).
(** black_litterman.py 291-330 [_set_omega]; an ndarray of confidences is not checked *)
Definition set_omega (n : nat) (sigma : matrix) (Q : list R) (P : matrix) (tau : R) (om : omega_arg) (conf : conf_arg)
    : res matrix :=
  let k := List.length Q in
  do m <- match om with
          | OmArr m => Ok m
          | OmIdzorek =>
              do confs <- match conf with
                          | ConfNone => Err ValueError
                          | ConfList l => if Nat.eqb (List.length l) k then Ok l else Err ValueError
                          | ConfArr l => Ok l
                          end ;
              idzorek_method n k sigma P tau confs
          | OmDefault => Ok (default_omega n k sigma P tau)
          | OmBad => Err TypeError
          end ;
  if has_shape k k m then Ok m else Err AssertionError.

(** black_litterman.py 127-206 [__init__] *)
Definition cov_tickers (cov : cov_arg) : list label :=
  match cov with CovFrame cols _ => cols | CovArray m => range_labels (List.length m) end.
(** black_litterman.py 127-206 *)
Definition bl_init (a : bl_args) : res bl :=
  let sigma := cov_values (a_cov a) in
  let n := List.length sigma in
  let b := base_init n (Some (cov_tickers (a_cov a))) in
  do (Q, P) <- match a_views a with
               | VNone => set_Q_P n (a_Q a) (a_P a)
               | VDict d => parse_views n (b_tickers b) d
               | VBad => Err TypeError
               end ;
  do ra <- (if Rleb (a_ra a) 0 then Err ValueError else Ok (a_ra a)) ;
  do pi <- set_pi n (a_pi a) (a_cov a) ra (a_caps a) (a_rf a) ;
  do tau <- (if Rleb (a_tau a) 0 || Rltb 1 (a_tau a) then Err ValueError else Ok (a_tau a)) ;
  do _ <- check_dimensions n Q P pi sigma ;
  do omega <- set_omega n sigma Q P tau (a_omega a) (a_conf a) ;
  Ok (mkBL b sigma n Q P pi omega tau ra None None None None).

(** ** Methods; each returns the new state of the object and its result *)

(** black_litterman.py 399-404 and 426-429: fill the caches *)
Definition tau_sigma_P (o : bl) : matrix :=
  array (bl_n o) (List.length (bl_Q o))
    (fun i b => sumn (bl_n o) (fun j => bl_tau o * entry (bl_sigma o) i j * entry (bl_P o) b j)).
(** black_litterman.py 404, 429 *)
Definition system_matrix (o : bl) (tsp : matrix) : matrix :=
  let k := List.length (bl_Q o) in
  array k k (fun a b => sumn (bl_n o) (fun i => entry (bl_P o) a i * entry tsp i b) + entry (bl_omega o) a b).
(** black_litterman.py 399-404 *)
Definition with_caches (o : bl) (tsp A : matrix) : bl :=
  mkBL (bl_base o) (bl_sigma o) (bl_n o) (bl_Q o) (bl_P o) (bl_pi o) (bl_omega o) (bl_tau o) (bl_ra o)
       (Some tsp) (Some A) (bl_rets o) (bl_pcov o).
(** black_litterman.py 399-404, 426-429 *)
Definition fill (o : bl) : bl * (matrix * matrix) :=
  let tsp := match bl_tsp o with Some t => t | None => tau_sigma_P o end in
  let A := match bl_A o with Some a => a | None => system_matrix o tsp end in
  (with_caches o tsp A, (tsp, A)).

(** black_litterman.py 406-412: the [try: solve … except LinAlgError: lstsq] blocks 406-412, 432-438 *)
Definition solve_or_lstsq (la : linalg) (A : matrix) (b : list R) : list R :=
  match la_solve la A b with Some x => x | None => la_lstsq la A b end.

(** black_litterman.py 390-414 [bl_returns]: the values; the index is [self.tickers] *)
Definition bl_returns (la : linalg) (o : bl) : bl * list R :=
  let '(o', (tsp, A)) := fill o in
  let n := bl_n o in
  let k := List.length (bl_Q o) in
  let b := map (fun a => nth a (bl_Q o) 0 - sumn n (fun j => entry (bl_P o) a j * nth j (bl_pi o) 0)) (seq 0 k) in
  let x := solve_or_lstsq la A b in
  (o', map (fun i => nth i (bl_pi o) 0 + sumn k (fun a => entry tsp i a * nth a x 0)) (seq 0 n)).

(** black_litterman.py 416-441 [bl_cov]: one right hand side for each asset.  numpy decides singularity once, from the
    matrix; [la_solve] is called for each column, which is the same for a solver whose failures depend
    only on the matrix. *)
Definition bl_cov (la : linalg) (o : bl) : bl * matrix :=
  let '(o', (tsp, A)) := fill o in
  let n := bl_n o in
  let k := List.length (bl_Q o) in
  let X := map (fun j => solve_or_lstsq la A (map (fun a => entry tsp j a) (seq 0 k))) (seq 0 n) in
  (o', array n n (fun i j => entry (bl_sigma o) i j +
        (bl_tau o * entry (bl_sigma o) i j - sumn k (fun a => entry tsp i a * nth a (nth j X []) 0)))).

(** black_litterman.py 462 *)
Definition with_rets (o : bl) (r : dict R) : bl :=
  mkBL (bl_base o) (bl_sigma o) (bl_n o) (bl_Q o) (bl_P o) (bl_pi o) (bl_omega o) (bl_tau o) (bl_ra o)
       (bl_tsp o) (bl_A o) (Some r) (bl_pcov o).
(** black_litterman.py 473 *)
Definition with_weights (o : bl) (w : list R) : bl :=
  mkBL (mkBase (b_tickers (bl_base o)) (Some w)) (bl_sigma o) (bl_n o) (bl_Q o) (bl_P o) (bl_pi o) (bl_omega o)
       (bl_tau o) (bl_ra o) (bl_tsp o) (bl_A o) (bl_rets o) (bl_pcov o).
(** black_litterman.py 499 *)
Definition with_pcov (o : bl) (m : matrix) : bl :=
  mkBL (bl_base o) (bl_sigma o) (bl_n o) (bl_Q o) (bl_P o) (bl_pi o) (bl_omega o) (bl_tau o) (bl_ra o)
       (bl_tsp o) (bl_A o) (bl_rets o) (Some m).

(** black_litterman.py 443-474 [bl_weights] and 476-480 [optimize]: the fallback solves with [self._A] (469), not with the
    matrix [A] of 463; [lstsq] raises LinAlgError when the dimensions differ *)
Definition bl_weights (la : linalg) (o : bl) (risk_aversion : option R) : bl * res (dict R) :=
  let delta := match risk_aversion with None => bl_ra o | Some d => d end in
  let '(o1, post) := bl_returns la o in
  let o2 := with_rets o1 (combine (b_tickers (bl_base o)) post) in
  let solution :=
    match la_solve la (map (map (fun x => delta * x)) (bl_sigma o)) post with
    | Some x => Ok x
    | None =>
        match bl_A o1 with
        | Some A => if Nat.eqb (List.length A) (List.length post) then Ok (la_lstsq la A post) else Err LinAlgError
        | None => Err TypeError
        end
    end in
  match solution with
  | Err e => (o2, Err e)
  | Ok raw =>
      let s := vsum raw in
      if Reqb s 0 then (o2, Err FloatSpecial) else
      let o3 := with_weights o2 (map (fun x => x / s) raw) in
      (o3, make_output_weights (bl_base o3))
  end.

(** black_litterman.py 482-506 [portfolio_performance] *)
Definition bl_performance (la : linalg) (o : bl) (risk_free_rate : R) : bl * res (option R * R * option R) :=
  let o1 := match bl_pcov o with Some _ => o | None => let '(o', m) := bl_cov la o in with_pcov o' m end in
  let m := match bl_pcov o1 with Some m => m | None => [] end in
  (o1, portfolio_performance
         (match b_weights (bl_base o1) with Some w => WtArray w | None => WtNone end)
         (match bl_rets o1 with Some r => MuSeries r | None => MuNone end)
         (CovFrame (b_tickers (bl_base o1)) m) risk_free_rate).

(** ** Call sequences on one object *)
(** black_litterman.py 390-506 *)
Inductive bl_op :=
| OpReturns | OpCov | OpWeights (risk_aversion : option R) | OpPerformance (risk_free_rate : R)
| OpSetWeights (d : dict R).
(** black_litterman.py 390-506 *)
Definition bl_step (la : linalg) (o : bl) (op : bl_op) : bl :=
  match op with
  | OpReturns => fst (bl_returns la o)
  | OpCov => fst (bl_cov la o)
  | OpWeights d => fst (bl_weights la o d)
  | OpPerformance rf => fst (bl_performance la o rf)
  | OpSetWeights d =>
      mkBL (fst (set_weights (bl_base o) d)) (bl_sigma o) (bl_n o) (bl_Q o) (bl_P o) (bl_pi o) (bl_omega o) (bl_tau o)
           (bl_ra o) (bl_tsp o) (bl_A o) (bl_rets o) (bl_pcov o)
  end.
(** black_litterman.py 390-506 *)
Definition bl_run (la : linalg) (o : bl) (ops : list bl_op) : bl := fold_left (bl_step la) ops o.
(** black_litterman.py 127-506: objects the user can hold: constructed, then used in any way *)
Definition reachable (la : linalg) (o : bl) : Prop :=
  exists a o0 ops, bl_init a = Ok o0 /\ o = bl_run la o0 ops.
