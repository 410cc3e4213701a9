(** * Model of plot_efficient_frontier for any object, and of _plot_io

    plotting.py 38-57, 302-382 with the parts of [_plot_cla] and [_plot_ef] that depend on
    [show_assets], [show_tickers] and [interactive] (188-211, 263-299).  What is handed to matplotlib
    or plotly is returned as data; the import of plotly (25-35) succeeds; colours, legends and axis
    titles are not modelled. *)
From Coq Require Import ZArith List String Bool Reals.
From Verif Require Import Num Py MBase MCLA MConvex MEF MDown MCalls MPlot MPlot2.
Import ListNotations.
Local Open Scope R_scope.

(** plotting.py 49-51: the keyword arguments; a missing [filename] is None, a missing [showfig] False, a missing [dpi] 300 *)
Record io_args := mkIO { io_filename : option string; io_showfig : bool; io_dpi : Z }.
(** plotting.py 53, 55, 57: the calls on matplotlib.pyplot *)
Inductive io_call := TightLayout | SaveFig (fname : string) (dpi : Z) | ShowFig.
(** plotting.py 38-57 [_plot_io]; line 54: the empty string is no file name *)
Definition plot_io (a : io_args) : list io_call :=
  [TightLayout] ++
  match io_filename a with
  | Some f => if String.eqb f "" then [] else [SaveFig f (io_dpi a)]
  | None => []
  end ++
  (if io_showfig a then [ShowFig] else []).

(** plotting.py 346, 355, 368: what [isinstance] tells apart; EfficientSemivariance, EfficientCVaR and EfficientCDaR are
    subclasses of EfficientFrontier (efficient_semivariance.py 13, efficient_cvar.py 15, efficient_cdar.py 15) *)
Inductive plotted := OptCLA (o : cla R) | OptEF (o : ef) | OptDown (k : dclass) (o : ef) | OptOther.

(** plotting.py 181-210, 264-298, 381: the curve as pairs (sigma, mu), where mu is None without expected returns; the marker of [_plot_cla];
    the asset markers (none if not shown), the labels written at the assets, and the calls of [_plot_io] *)
Record drawing := mkDraw { d_curve : list (R * option R); d_marker : option (R * option R); d_assets : list (R * R);
                           d_names : list (label * (R * R)); d_calls : list io_call }.

(** plotting.py 208-210, 296-298: a label at each asset; more tickers than assets: IndexError *)
Definition annotate (tickers : list label) (assets : list (R * R)) : res (list (label * (R * R))) :=
  if (List.length tickers <=? List.length assets)%nat then Ok (combine tickers assets) else Err IndexError.
(** plotting.py 188-210, 278-298 *)
Definition asset_markers (show_assets show_tickers interactive : bool) (tickers : list label) (assets : list (R * R))
    : res (list (R * R) * list (label * (R * R))) :=
  if show_assets then
    do names <- (if show_tickers && negb interactive then annotate tickers assets else Ok []) ;
    Ok (assets, names)
  else Ok ([], []).
(** plotting.py 371-382: only matplotlib figures go through [_plot_io] *)
Definition finish (interactive : bool) (io : io_args) : list io_call := if interactive then [] else plot_io io.

(** plotting.py 240-249 on the subclasses; their methods are those of MCalls.v with the default [market_neutral] *)
Definition g_methods (sv : solver_t) (k : dclass) (name : string) : option (R -> M ef unit) :=
  if String.eqb name "utility" then Some (fun v => drop (g_utility sv k v false))
  else if String.eqb name "risk" then Some (fun v => drop (g_risk sv k v false))
  else if String.eqb name "return" then Some (fun v => drop (g_return sv k v false))
  else None.
(** plotting.py 259: [ret, sigma, _ = ef.portfolio_performance()]: the two numbers of EfficientCVaR (efficient_cvar.py 244) and
    EfficientCDaR (efficient_cdar.py 237) cannot be unpacked into three names: ValueError *)
Definition g_point (k : dclass) (o : ef) : res (option R * R) :=
  match k with
  | DSemi d => do p <- semi_performance d o (2 / 100) ; Ok (Some (fst (fst p)), snd (fst p))
  | DCVaR _ | DCDaR _ => Err ValueError
  end.
(** plotting.py 214-225: [min_volatility] is forbidden in the subclasses (efficient_semivariance.py 103-104, efficient_cvar.py 107-108,
    efficient_cdar.py 107-108); it is called on a copy *)
Definition g_default_range : M ef (list R) := raise NotImplementedError.
(** plotting.py 355-366 on the subclasses *)
Definition plot_downside (sv : solver_t) (k : dclass) (ef_param : string) (range : option (list R)) : M ef (list (option R * R)) :=
  bind match range with Some vs => ret vs | None => g_default_range end
       (fun vs w o => plot_loop (g_methods sv k) (g_point k) ef_param vs w o).

(** plotting.py 263-299: the end of [_plot_ef] *)
Definition draw_ef (show_assets show_tickers interactive : bool) (io : io_args) (o : ef) (ps : list (option R * R)) : res drawing :=
  do assets <- (if show_assets then ef_assets o else Ok []) ;
  do m <- asset_markers show_assets show_tickers interactive (b_tickers (e_base o)) assets ;
  Ok (mkDraw (map (fun p => (snd p, fst p)) ps) None (fst m) (snd m) (finish interactive io)).
(** plotting.py 150-211: the end of [_plot_cla] *)
Definition draw_cla (show_assets show_tickers interactive : bool) (io : io_args) (p : cla_picture) : res drawing :=
  do m <- asset_markers show_assets show_tickers interactive (p_names p) (p_assets p) ;
  Ok (mkDraw (combine (p_sigmas p) (map Some (p_mus p))) (Some (p_marker p)) (fst m) (snd m) (finish interactive io)).

(** plotting.py 302-382 [plot_efficient_frontier]; the object after the call is returned as well.
    [fuel], [inv] and [ord] belong to the critical line algorithm, [sv] and [pinv] to cvxpy and numpy. *)
Section Plot.
  Context (fuel : nat) (inv : list (list R) -> res (list (list R))) (ord : list nat -> list nat)
          (sv : solver_t) (pinv : list (list R) -> list (list R)).
  (** plotting.py 302-382 *)
  Definition plot_efficient_frontier (opt : plotted) (ef_param : string) (range : option (list R)) (points : nat)
      (show_assets show_tickers interactive : bool) (io : io_args) (w : world) : world * plotted * res drawing :=
    match opt with
    | OptCLA o =>
        match plot_cla fuel inv ord points o with
        | (o1, Ok p) => (w, OptCLA o1, draw_cla show_assets show_tickers interactive io p)
        | (o1, Err e) => (w, OptCLA o1, Err e)
        end
    | OptEF o =>
        match plot_frontier sv pinv ef_param range points w o with
        | (w1, o1, Ok ps) => (w1, OptEF o1, draw_ef show_assets show_tickers interactive io o1 ps)
        | (w1, o1, Err e) => (w1, OptEF o1, Err e)
        end
    | OptDown k o =>
        match plot_downside sv k ef_param range w o with
        | (w1, o1, Ok ps) => (w1, OptDown k o1, draw_ef show_assets show_tickers interactive io o1 ps)
        | (w1, o1, Err e) => (w1, OptDown k o1, Err e)
        end
    | OptOther => (w, OptOther, Err NotImplementedError)
    end.
End Plot.
