(** * Specification: call sequences on the downside-risk optimisers *)
From Coq Require Import ZArith List String Bool Reals.
From Verif Require Import Num Py MBase MConvex MEF MDown MCalls SConvex.
Import ListNotations.
Local Open Scope R_scope.

(** the same object with another covariance matrix *)
Definition with_cov (c : list (list R)) (o : ef) : ef :=
  mkEF (e_base o) (e_rf o) (e_w o) (e_obj o) (e_add o) (e_cons o) (e_lb o) (e_ub o) (e_opt o) c
       (e_mu o) (e_maxret o) (e_mn o).
(** calls that hand a problem to the solver if nothing goes wrong before *)
Definition g_attempts (k : dclass) (c : dcall) : Prop :=
  match c, k with
  | (GMaxReturn | GMin _ | GRisk _ _ | GReturn _ _ | GConvex _ _), _ => True
  | GUtility _ _, DSemi _ => True
  | _, _ => False
  end.
(** methods the class has disabled *)
Definition forbidden (k : dclass) (c : dcall) : Prop :=
  match c, k with
  | (GMinVol | GMaxSharpe _), _ => True
  | (GSetWeights _ | GUtility _ _), (DCVaR _ | DCDaR _) => True
  | _, _ => False
  end.
(** the parameter that holds the risk target *)
Definition risk_name (k : dclass) : string :=
  match k with DSemi _ => "target_semivariance" | DCVaR _ => "target_cvar" | DCDaR _ => "target_cdar" end.
(** after any earlier arguments, a call gives the result, weights and performance it gives on the untouched object *)
Definition reoptimises (k : dclass) (F : R -> M ef (dict R)) (w0 : world) (o0 : ef) : Prop :=
  forall ts w1 o1, after F ts w0 o0 = (w1, o1) ->
  forall t wf of rf wh oh rh, F t w0 o0 = (wf, of, rf) -> F t w1 o1 = (wh, oh, rh) ->
  rh = rf /\ (forall d, rf = Ok d -> e_weights oh = e_weights of /\
                forall r, g_performance k r wh oh = g_performance k r wf of).
(** the same world, the same object and the same exception if any; the value is disregarded *)
Definition same_effect {X Y : Type} (a : world * ef * res X) (b : world * ef * res Y) : Prop :=
  fst a = fst b /\ match snd a, snd b with Ok _, Ok _ => True | Err e, Err e' => e = e' | _, _ => False end.
