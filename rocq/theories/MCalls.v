(** * Sequences of calls on EfficientSemivariance, EfficientCVaR and EfficientCDaR objects

    The methods a user can call on such an object: the ones the classes define, the ones they inherit
    from EfficientFrontier and BaseConvexOptimizer, and the inherited ones they forbid. *)
From Coq Require Import ZArith List String Bool Reals.
From Verif Require Import Num Py MBase MConvex MEF MDown.
Import ListNotations.
Local Open Scope R_scope.
Local Open Scope m_scope.

(** efficient_semivariance.py 13, efficient_cvar.py 15, efficient_cdar.py 15: the class of the object with the attributes of MDown.v *)
Inductive dclass := DSemi (d : semi) | DCVaR (d : cvar_data) | DCDaR (d : cdar_data).

(** efficient_semivariance.py 103-247, efficient_cvar.py 93-218, efficient_cdar.py 93-202, base_optimizer.py 321-512,
    efficient_frontier.py 202-224; targets are numbers *)
Inductive dcall :=
| GAddObjective (f : nat -> expr)
| GAddConstraint (c : con_arg)
| GAddSector (mapper : dict string) (lower upper : list (string * R))
| GSetWeights (d : dict R)
| GMinVol
| GMaxSharpe (rf : num_arg)
| GMaxReturn
| GMin (mn : bool)
| GUtility (ra : R) (mn : bool)
| GRisk (t : R) (mn : bool)
| GReturn (t : R) (mn : bool)
| GConvex (f : nat -> expr) (sum_to_one : bool)
| GNonconvex (f : list R -> R) (sum_to_one : bool) (cons : list (list R -> Prop)) (guess : option (list R)).

(** base_optimizer.py 70-77, efficient_cvar.py 93-94, efficient_cdar.py 93-94 *)
Definition g_set_weights (k : dclass) (d : dict R) : M ef unit :=
  match k with
  | DSemi _ => fun w o => match set_weights (e_base o) d with (b, r) => (w, set_base b o, r) end
  | DCVaR _ | DCDaR _ => raise NotImplementedError
  end.
(** efficient_semivariance.py 109-129, efficient_cvar.py 116-139, efficient_cdar.py 116-135 *)
Definition g_min (sv : solver_t) (k : dclass) (mn : bool) : M ef (dict R) :=
  match k with
  | DSemi d => min_semivariance sv d mn
  | DCVaR d => min_cvar sv d mn
  | DCDaR d => min_cdar sv d mn
  end.
(** efficient_semivariance.py 131-167, efficient_cvar.py 113-114, efficient_cdar.py 113-114 *)
Definition g_utility (sv : solver_t) (k : dclass) (ra : R) (mn : bool) : M ef (dict R) :=
  match k with
  | DSemi d => semi_max_quadratic_utility sv d ra mn
  | DCVaR _ | DCDaR _ => raise NotImplementedError
  end.
(** efficient_semivariance.py 169-206, efficient_cvar.py 179-218, efficient_cdar.py 165-202 *)
Definition g_risk (sv : solver_t) (k : dclass) (t : R) (mn : bool) : M ef (dict R) :=
  match k with
  | DSemi d => semi_efficient_risk sv d t mn
  | DCVaR d => cvar_efficient_risk sv d t mn
  | DCDaR d => cdar_efficient_risk sv d t mn
  end.
(** efficient_semivariance.py 208-247, efficient_cvar.py 141-177, efficient_cdar.py 137-163 *)
Definition g_return (sv : solver_t) (k : dclass) (t : R) (mn : bool) : M ef (dict R) :=
  match k with
  | DSemi d => semi_efficient_return sv d (NFloat t) mn
  | DCVaR d => cvar_efficient_return sv d t mn
  | DCDaR d => cdar_efficient_return sv d t mn
  end.

(** efficient_semivariance.py 103-247, efficient_cvar.py 93-218, efficient_cdar.py 93-202, base_optimizer.py 321-512:
    one call; min_volatility and max_sharpe are forbidden in all three classes
    (efficient_semivariance.py 103-107, efficient_cvar.py 107-111, efficient_cdar.py 107-111) *)
Definition g_run (sv : solver_t) (ns : nlp_solver) (k : dclass) (c : dcall) : M ef unit :=
  match c with
  | GAddObjective f => add_objective f
  | GAddConstraint x => add_constraint x
  | GAddSector m l u => add_sector_constraints m l u
  | GSetWeights d => g_set_weights k d
  | GMinVol | GMaxSharpe _ => raise NotImplementedError
  | GMaxReturn => drop (max_return sv)
  | GMin mn => drop (g_min sv k mn)
  | GUtility ra mn => drop (g_utility sv k ra mn)
  | GRisk t mn => drop (g_risk sv k t mn)
  | GReturn t mn => drop (g_return sv k t mn)
  | GConvex f b => drop (convex_objective sv f b)
  | GNonconvex f b cs g => drop (nonconvex_objective ns f b cs g)
  end.
(** the same lines: a sequence of calls; exceptions are caught by the caller and the state is kept
    (efficient_semivariance.py 103-247, efficient_cvar.py 93-218, efficient_cdar.py 93-202) *)
Fixpoint g_run_all (sv : solver_t) (ns : nlp_solver) (k : dclass) (cs : list dcall) (w : world) (o : ef) {struct cs}
    : world * ef * list (res unit) :=
  match cs with
  | [] => (w, o, [])
  | c :: cs' => match g_run sv ns k c w o with
                | (w', o', r) => match g_run_all sv ns k cs' w' o' with (w2, o2, rs) => (w2, o2, r :: rs) end
                end
  end.

(** efficient_semivariance.py 249-279, efficient_cvar.py 220-244, efficient_cdar.py 213-237: what portfolio_performance
    returns: return, risk, and for the semivariance the Sortino ratio *)
Definition g_performance (k : dclass) (rf : R) (w : world) (o : ef) : res (R * option R * option R) :=
  match k with
  | DSemi d => match semi_performance d o rf with Ok (a, b, c) => Ok (a, Some b, c) | Err e => Err e end
  | DCVaR d => match cvar_performance d w o with Ok (a, b) => Ok (a, b, None) | Err e => Err e end
  | DCDaR d => match cdar_performance d w o with Ok (a, b) => Ok (a, b, None) | Err e => Err e end
  end.
