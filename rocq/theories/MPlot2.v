(** * Model of the CLA branch of the frontier plot, the asset markers, the dendrogram and the covariance plot

    plotting.py 60-211, 276-298.  What is drawn is returned as data; drawing itself is not modelled. *)
From Coq Require Import ZArith List String Bool Reals.
From Verif Require Import Num Py MFrame MBase MCLA MConvex MEF MHRP.
Import ListNotations.
Local Open Scope R_scope.

(** plotting.py 187, 277: [np.sqrt(np.diag(cov_matrix))]; a negative number on the diagonal would give nan, the model stops *)
Definition asset_deviations (cov : list (list R)) : res (list R) :=
  mapM (fun v => if Rltb v 0 then Err FloatSpecial else Ok (sqrt v)) (diagonal cov).

(** plotting.py 134-211: the curve (sigmas, mus), the marker (risk, return), the asset markers and their labels *)
Record cla_picture := mkPic { p_sigmas : list R; p_mus : list R; p_marker : R * option R; p_assets : list (R * R); p_names : list label }.

(** plotting.py 141-142: weights for the marker, if there are none *)
Definition marker_weights (fuel : nat) (inv : list (list R) -> res (list (list R))) (ord : list nat -> list nat) (o : cla R) : cla R * res unit :=
  match b_weights (c_base o) with
  | Some _ => (o, Ok tt)
  | None => match cla_max_sharpe fuel inv ord o with (o1, Ok _) => (o1, Ok tt) | (o1, Err e) => (o1, Err e) end
  end.
(** plotting.py 145-148: the frontier, if there is none *)
Definition curve_values (fuel : nat) (inv : list (list R) -> res (list (list R))) (ord : list nat -> list nat) (points : nat) (o : cla R)
    : cla R * res (list R * list R * list (list R)) :=
  match c_frontier o with
  | Some v => (o, Ok v)
  | None => cla_frontier fuel inv ord points o
  end.
(** plotting.py 134-211 [_plot_cla]; 143: the default risk free rate of CLA is 0.0 *)
Definition plot_cla (fuel : nat) (inv : list (list R) -> res (list (list R))) (ord : list nat -> list nat) (points : nat) (o : cla R)
    : cla R * res cla_picture :=
  match marker_weights fuel inv ord o with
  | (o1, Err e) => (o1, Err e)
  | (o1, Ok _) =>
      match cla_performance 0 o1 with
      | Err e => (o1, Err e)
      | Ok (mu, sigma, _) =>
          match curve_values fuel inv ord points o1 with
          | (o2, Err e) => (o2, Err e)
          | (o2, Ok (mus, sigmas, _)) =>
              (o2, do sd <- asset_deviations (c_cov o2);
                   Ok (mkPic sigmas mus (sigma, mu) (combine sd (c_mean o2)) (b_tickers (c_base o2))))
          end
      end
  end.

(** plotting.py 276-298: the asset markers of [_plot_ef]; without expected returns there is nothing to draw, the model stops *)
Definition ef_assets (o : ef) : res (list (R * R)) :=
  do sd <- asset_deviations (e_cov o);
  match e_mu o with None => Err FloatSpecial | Some mu => Ok (combine sd mu) end.

(** plotting.py 97-131 [plot_dendrogram] with show_tickers: the linkage matrix and the names of its leaves;
    120: [optimize] has the default linkage method "single".  [sch.dendrogram] wants one label for each leaf. *)
Definition plot_dendrogram (lk : linkage_oracle) (h : hrp) : hrp * res (list link_row * list label) :=
  let '(h1, r) :=
    match h_clusters h with
    | Some _ => (h, Ok tt)
    | None => match hrp_optimize lk "single" h with (h1, Ok _) => (h1, Ok tt) | (h1, Err e) => (h1, Err e) end
    end in
  match r with
  | Err e => (h1, Err e)
  | Ok _ =>
      match h_clusters h1 with
      | None => (h1, Err TypeError)
      | Some link =>
          if Nat.eqb (List.length (b_tickers (h_base h1))) (List.length link + 1) then (h1, Ok (link, b_tickers (h_base h1)))
          else (h1, Err ValueError)
      end
  end.

(** plotting.py 60-67: a covariance matrix as DataFrame or array; risk_models.py 329-331: [pd.DataFrame(array)] *)
Inductive cov_like := LFrame (f : frame R) | LArray (m : list (list R)).
(** risk_models.py 329-331 *)
Definition as_frame (c : cov_like) : frame R :=
  match c with
  | LFrame f => f
  | LArray m => mkFrame (range_labels (List.length m)) (range_labels (List.length m)) m
  end.
(** plotting.py 60-94 [plot_covariance]: the numbers shown and the tick labels; an array has no [index] *)
Definition plot_covariance (c : cov_like) (correlation show_tickers : bool) : res (list (list R) * option (list label)) :=
  do matrix <- (if correlation then do f <- cov_to_corr (as_frame c); Ok (LFrame f) else Ok c);
  match matrix, show_tickers with
  | LFrame f, true => Ok (f_rows f, Some (f_index f))
  | LArray _, true => Err AttributeError
  | LFrame f, false => Ok (f_rows f, None)
  | LArray m, false => Ok (m, None)
  end.
