(** * Specification: what a drawing of the frontier shows *)
From Coq Require Import ZArith List String Reals.
From Verif Require Import Num Py MBase MCLA MConvex MEF MDown MCalls MPlot3.
Import ListNotations.
Local Open Scope R_scope.

(** the same curve, the same marker and the same asset markers *)
Definition same_picture (d d' : drawing) : Prop :=
  d_curve d' = d_curve d /\ d_marker d' = d_marker d /\ d_assets d' = d_assets d.
(** the labels of an object *)
Definition labels_of (opt : plotted) : list label :=
  match opt with
  | OptCLA o => b_tickers (c_base o)
  | OptEF o | OptDown _ o => b_tickers (e_base o)
  | OptOther => []
  end.
(** a drawing saves to exactly the files [fs] *)
Definition files (l : list io_call) : list (string * Z) :=
  flat_map (fun c => match c with SaveFig f d => [(f, d)] | _ => [] end) l.
(** asset [i] at (standard deviation, expected return) *)
Definition asset_at (mu : list R) (cov : list (list R)) (l : list (R * R)) : Prop :=
  List.length l = List.length mu /\
  forall i, (i < List.length mu)%nat -> exists s, nth_error l i = Some (s, nth i mu 0) /\ 0 <= s /\ s * s = nth i (nth i cov []) 0.

(** an object as one of the three constructors returns it *)
Inductive constructed : dclass -> ef -> Prop :=
| made_semi : forall o mu r w0 w1 fr bm b d, semi_init mu r fr bm b w0 = (w1, Ok (o, d)) -> constructed (DSemi d) o
| made_cvar : forall o mu r w0 w1 beta b d, cvar_init mu r beta b w0 = (w1, Ok (o, d)) -> constructed (DCVaR d) o
| made_cdar : forall o mu r w0 w1 beta b d, cdar_init mu r beta b w0 = (w1, Ok (o, d)) -> constructed (DCDaR d) o.
