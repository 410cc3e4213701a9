(** * Model of pypfopt/hierarchical_portfolio.py (HRPOpt) *)
From Coq Require Import ZArith List String Bool Reals.
From Verif Require Import Num Py MBase MFrame.
Import ListNotations.

Section Raw.
  Context {A : Type} {N : Num A}.
  Local Open Scope num_scope.

  (** hierarchical_portfolio.py 77-93 [_get_cluster_var].  A zero variance or zero sum gives inf or
      NaN in the real code; the model stops.  The product of three factors is taken from the right. *)
  Definition cluster_var (cov : frame A) (items : list label) : res A :=
    do slice <- mapM (fun t => mapM (fun u => loc cov t u) items) items ;
    do diag <- mapM (fun t => loc cov t t) items ;
    do inv <- mapM (fun d => if d =? n0 then Err FloatSpecial else Ok (n1 / d)) diag ;
    let s := vsum inv in
    if s =? n0 then Err FloatSpecial else
    Ok (quad slice (map (fun x => x / s) inv)).

  (** hierarchical_portfolio.py 138-139 [w[cluster] *= a] on a Series with distinct labels *)
  Definition scale_items (items : list label) (a : A) (w : dict A) : dict A :=
    map (fun kv => (fst kv, if existsb (label_eqb (fst kv)) items then snd kv * a else snd kv)) w.

  (** hierarchical_portfolio.py 130-139: one pair of clusters *)
  Definition split_share (cov : frame A) (first second : list label) : res A :=
    do v1 <- cluster_var cov first ;
    do v2 <- cluster_var cov second ;
    if v1 + v2 =? n0 then Err FloatSpecial else Ok (n1 - v1 / (v1 + v2)).
  (** hierarchical_portfolio.py 131-139 *)
  Fixpoint pair_steps (cov : frame A) (cl : list (list label)) (w : dict A) : res (dict A) :=
    match cl with
    | [] => Ok w
    | [_] => Err IndexError
    | first :: second :: rest =>
        do alpha <- split_share cov first second ;
        pair_steps cov rest (scale_items second (n1 - alpha) (scale_items first alpha w))
    end.

  (** hierarchical_portfolio.py 124-129: bisection of every cluster with more than one item *)
  Definition bisect (cl : list (list label)) : list (list label) :=
    flat_map (fun i => if (1 <? List.length i)%nat
                       then [firstn (List.length i / 2) i; skipn (List.length i / 2) i] else []) cl.

  (** hierarchical_portfolio.py 123-139: the while loop, with a bound on the number of rounds *)
  Fixpoint hrp_loop (fuel : nat) (cov : frame A) (cl : list (list label)) (w : dict A) : res (dict A) :=
    match fuel with
    | O => Err OutOfFuel
    | S fuel' =>
        match cl with
        | [] => Ok w
        | _ => do w' <- pair_steps cov (bisect cl) w ; hrp_loop fuel' cov (bisect cl) w'
        end
    end.

  (** hierarchical_portfolio.py 107-140 [_raw_hrp_allocation]; at most [length + 1] rounds plus the final test *)
  Definition raw_hrp_allocation (cov : frame A) (ts : list label) : res (dict A) :=
    hrp_loop (List.length ts + 2) cov [ts] (map (fun t => (t, n1)) ts).
End Raw.

(** ** Leaf order *)

(** hierarchical_portfolio.py 105: scipy ClusterNode *)
Inductive tree := Leaf (i : nat) | Node (l r : tree).
(** hierarchical_portfolio.py 105 *)
Fixpoint leaves (t : tree) : list nat :=
  match t with Leaf i => [i] | Node l r => leaves l ++ leaves r end.
(** hierarchical_portfolio.py 105 *)
Definition tree_size (t : tree) : nat := List.length (leaves t).

(** hierarchical_portfolio.py 105, 168: one row of a linkage matrix: the two clusters that are merged and the size of the result; the
    distance in the row is not used *)
Definition link_row : Type := nat * nat * nat.

(** hierarchical_portfolio.py 105: scipy.cluster.hierarchy.to_tree: [is_valid_linkage] (clusters must exist before they are used,
    and be used at most once) and the size check; [nodes] are the nodes built so far *)
Fixpoint build_tree (rows : list link_row) (nodes : list tree) (used : list nat) : res (list tree) :=
  match rows with
  | [] => Ok nodes
  | (a, b, c) :: rows' =>
      if existsb (Nat.eqb a) used || existsb (Nat.eqb b) used || Nat.eqb a b then Err ValueError else
      match nth_error nodes a, nth_error nodes b with
      | Some ta, Some tb =>
          if Nat.eqb (tree_size (Node ta tb)) c
          then build_tree rows' (nodes ++ [Node ta tb]) (a :: b :: used)
          else Err ValueError
      | _, _ => Err ValueError
      end
  end.
(** hierarchical_portfolio.py 105 *)
Definition to_tree (link : list link_row) : res tree :=
  match link with
  | [] => Err ValueError
  | _ => do nodes <- build_tree link (map Leaf (seq 0 (List.length link + 1))) [] ; Ok (last nodes (Leaf 0))
  end.

(** hierarchical_portfolio.py 95-105 [_get_quasi_diag]: [to_tree(link).pre_order()], the leaf
    numbers from left to right *)
Definition get_quasi_diag (link : list link_row) : res (list nat) :=
  do t <- to_tree link ; Ok (leaves t).

(** ** The object *)
Section Opt.
  Local Open Scope R_scope.

  (** hierarchical_portfolio.py 53, 61-68: the [cov_matrix] argument: None, a DataFrame, or something else *)
  Inductive hrp_cov := HCovNone | HCovFrame (f : frame R) | HCovOther.
  (** hierarchical_portfolio.py 53, 61-68: the [returns] argument: None, a DataFrame, or something else *)
  Inductive hrp_returns := HRetNone | HRetFrame (f : frame (option R)) | HRetOther.

  (** hierarchical_portfolio.py 67-75 *)
  Record hrp := mkHRP { h_returns : option (frame (option R)); h_cov : option (frame R);
                        h_base : base R; h_clusters : option (list link_row) }.

  (** hierarchical_portfolio.py 53-75 [__init__]; something that is not a DataFrame has no
      [columns]; [cov_matrix] is not looked at if [returns] is given *)
  Definition hrp_init (r : hrp_returns) (c : hrp_cov) : res hrp :=
    match r, c with
    | HRetNone, HCovNone => Err ValueError
    | HRetOther, _ => Err TypeError
    | HRetNone, HCovOther => Err AttributeError
    | HRetNone, HCovFrame f => Ok (mkHRP None (Some f) (base_init (List.length (f_cols f)) (Some (f_cols f))) None)
    | HRetFrame f, c => Ok (mkHRP (Some f) (match c with HCovFrame g => Some g | _ => None end)
                              (base_init (List.length (f_cols f)) (Some (f_cols f))) None)
    end.

  (** risk_models.py 320-335 [cov_to_corr] for a DataFrame: positions, not labels.  A diagonal entry
      that is not positive gives inf/NaN in the real code; the model stops. *)
  Definition diagonal (m : list (list R)) : list R := map (fun i => nth i (nth i m []) 0) (seq 0 (List.length m)).
  (** hierarchical_portfolio.py 157 (risk_models.py 320-335) *)
  Definition cov_to_corr (f : frame R) : res (frame R) :=
    if forallb (fun row => (List.length row =? List.length (f_rows f))%nat) (f_rows f) then
    let d := diagonal (f_rows f) in
    if forallb (fun x => Rltb 0 x) d then
      let dinv := map (fun x => 1 / sqrt x) d in
      Ok (mkFrame (f_index f) (f_index f)
            (map2 (fun di row => map2 (fun dj x => di * (x * dj)) dinv row) dinv (f_rows f)))
    else Err FloatSpecial
    else Err ShapeError.

  (** hierarchical_portfolio.py line 165: distance of a correlation; [np.clip] *)
  Definition clip01 (x : R) : R := if Rltb x 0 then 0 else if Rltb 1 x then 1 else x.
  (** hierarchical_portfolio.py 165 *)
  Definition corr_distance (x : R) : R := sqrt (clip01 ((1 - x) / 2)).
  (** hierarchical_portfolio.py 166: [ssd.squareform(matrix, checks=False)] of a square array: entries above the diagonal, row by row *)
  Fixpoint upper (i : nat) (rows : list (list R)) : list R :=
    match rows with
    | [] => []
    | row :: rows' => skipn (S i) row ++ upper (S i) rows'
    end.

  (** hierarchical_portfolio.py 168: scipy: the linkage algorithm, by name of the method; only called with at least one distance *)
  Definition linkage_oracle := string -> list R -> list link_row.
  (** hierarchical_portfolio.py 152: scipy [sch._LINKAGE_METHODS] *)
  Definition linkage_methods : list string :=
    ["single"; "complete"; "average"; "centroid"; "median"; "ward"; "weighted"]%string.

  (** hierarchical_portfolio.py 155-159: correlation and covariance.  NaN correlations make [sch.linkage] raise ValueError
      (the distances must be finite). *)
  Definition hrp_inputs (h : hrp) : res (frame R * frame R) :=
    match h_returns h with
    | None =>
        match h_cov h with
        | None => Err AttributeError
        | Some cov =>
            do corr <- cov_to_corr cov ;
            Ok (cov, mkFrame (f_index corr) (f_cols corr) (map (map (np_round 6)) (f_rows corr)))
        end
    | Some r =>
        let corr := frame_corr r in let cov := frame_cov r in
        match all_some (map all_some (f_rows corr)), all_some (map all_some (f_rows cov)) with
        | Some rc, Some rv => Ok (mkFrame (f_index cov) (f_cols cov) rv, mkFrame (f_index corr) (f_cols corr) rc)
        | _, _ => Err ValueError
        end
    end.

  (** hierarchical_portfolio.py 172: [hrp.sort_index()] *)
  Definition sort_index (d : dict R) : dict R := isort (fun a b => label_leb (fst a) (fst b)) d.

  (** hierarchical_portfolio.py 169-172: leaf order, allocation, sorting *)
  Definition hrp_weights (cov : frame R) (names : list label) (link : list link_row) : res (dict R) :=
    do ix <- get_quasi_diag link ;
    do ts <- mapM (fun i => match nth_error names i with Some t => Ok t | None => Err IndexError end) ix ;
    do w <- raw_hrp_allocation cov ts ;
    Ok (dict_of_pairs (sort_index w)).

  (** hierarchical_portfolio.py 142-174 [optimize]; [sch.linkage] raises ValueError for an empty list
      of distances (fewer than two assets) *)
  Definition hrp_optimize (lk : linkage_oracle) (method : string) (h : hrp) : hrp * res (dict R) :=
    if existsb (String.eqb method) linkage_methods then
      match hrp_inputs h with
      | Err e => (h, Err e)
      | Ok (cov, corr) =>
          match upper 0 (map (map corr_distance) (f_rows corr)) with
          | [] => (h, Err ValueError)
          | dist =>
              let link := lk method dist in
              let h1 := mkHRP (h_returns h) (h_cov h) (h_base h) (Some link) in
              match hrp_weights cov (f_index corr) link with
              | Err e => (h1, Err e)
              | Ok d =>
                  match set_weights (h_base h1) d with
                  | (b, Err e) => (mkHRP (h_returns h) (h_cov h) b (Some link), Err e)
                  | (b, Ok _) => (mkHRP (h_returns h) (h_cov h) b (Some link), Ok d)
                  end
              end
          end
      end
    else (h, Err ValueError).

  (** hierarchical_portfolio.py 176-204 [portfolio_performance] *)
  Definition hrp_performance (h : hrp) (rf frequency : R) : res (option R * R * option R) :=
    let wt := match b_weights (h_base h) with Some w => WtArray w | None => WtNone end in
    match h_returns h with
    | None =>
        match h_cov h with
        | None => Err AttributeError
        | Some cov => portfolio_performance wt MuNone (CovFrame (f_cols cov) (f_rows cov)) rf
        end
    | Some r =>
        match all_some (frame_mean r), all_some (map all_some (f_rows (frame_cov r))) with
        | Some mu, Some cov =>
            portfolio_performance wt (MuSeries (combine (f_cols r) (map (fun x => x * frequency) mu)))
              (CovFrame (f_cols r) (map (map (fun x => x * frequency)) cov)) rf
        | _, _ => Err FloatSpecial
        end
    end.
End Opt.
