(** * Specification of units of measurement for the critical line algorithm (C137) *)
From Coq Require Import ZArith List Bool Reals.
From Verif Require Import Num Py MBase MCLA SLin SCLA SUnits.
Import ListNotations.
Local Open Scope R_scope.

(** [np.linalg.inv] raises no other error than the one for singular matrices *)
Definition singular_only (inv : list (list R) -> res (list (list R))) : Prop := forall M e, inv M = Err e -> e = LinAlgError.
(** two CLA objects made from the same data in two units: expected returns times [a], covariances times [k] *)
Definition measured_cla (a k : R) (labels : option (list label)) (mean : list R) (cov : list (list R)) (b : cla_bounds R) (o1 o2 : cla R) : Prop :=
  0 < a /\ 0 < k /\ square (length mean) cov /\ symmetric (length mean) cov /\
  cla_init (Some (labels, mean)) cov b = Ok o1 /\ cla_init (Some (labels, map (Rmult a) mean)) (cov_times k cov) b = Ok o2.
(** the same turning point: the same weights and free assets, lambda in units of variance over return, gamma in units of variance *)
Definition same_point (a k : R) (p q : tp R) : Prop :=
  t_w q = t_w p /\ t_f q = t_f p /\ t_l q = option_map (Rmult (k / a)) (t_l p) /\ t_g q = option_map (Rmult k) (t_g p).
(** the same frontier in two units *)
Definition same_frontier (a k : R) (r s : res (list R * list R * list (list R))) : Prop :=
  match r, s with
  | Ok (mu, sg, ws), Ok (mu', sg', ws') => mu' = map (Rmult a) mu /\ sg' = map (Rmult (sqrt k)) sg /\ ws' = ws
  | Err e, Err e' => e' = e
  | _, _ => False
  end.
(** the same figures in two units: return, volatility, and the ratio that compares them *)
Definition same_figures (a k : R) (r s : res (option R * R * option R)) : Prop :=
  match r, s with
  | Ok (mu, sg, sr), Ok (mu', sg', sr') => mu' = option_map (Rmult a) mu /\ sg' = sqrt k * sg /\ sr' = option_map (Rmult (a / sqrt k)) sr
  | Err e, Err e' => e' = e
  | _, _ => False
  end.
