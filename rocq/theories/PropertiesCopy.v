(** * Property theorems: copies of an optimizer *)
From Coq Require Import List String Reals.
From Verif Require Import Num Py MBase MConvex MEF MDown MCopy SLin SBase SConvex SDown SCopy PEFW PDownW PCopy PCopyW.
Import ListNotations.
Local Open Scope R_scope.

(** C40: programs that copy optimizers with deepcopy() and call methods on originals and copies *)
Theorem c40_copies_are_values : forall l w h xs w' h' xs' rs, own_lists h xs -> steps l w h xs = (w', h', xs', rs) ->
  own_lists h' xs' /\ values l w (map (load h) xs) = (w', map (load h') xs', rs).
Proof. exact copies_are_values. Qed.
Print Assumptions c40_copies_are_values.
Theorem c40_original_untouched : forall l w h xs w' h' xs' rs i x, own_lists h xs -> spares i l -> nth_error xs i = Some x ->
  steps l w h xs = (w', h', xs', rs) ->
  exists x', nth_error xs' i = Some x' /\ load h' x' = load h x.
Proof. exact original_untouched. Qed.
Print Assumptions c40_original_untouched.
Theorem c40_original_still_open : forall l w h xs w' h' xs' rs i x u, own_lists h xs -> spares i l -> all_growing l -> nth_error xs i = Some x ->
  steps l w h xs = (w', h', xs', rs) -> open_ef w (load h x) u ->
  exists x', nth_error xs' i = Some x' /\ load h' x' = load h x /\ open_ef w' (load h' x') u.
Proof. exact original_open. Qed.
Print Assumptions c40_original_still_open.
Theorem c40_methods_grow : forall sv ns pinv c, growing (run sv ns pinv c).
Proof. exact run_grows. Qed.
Print Assumptions c40_methods_grow.
(** optimizing the copy changes the CVaR the original reports *)
Theorem c40_values_shared : forall w o u d sv m mn t mn' w1 o1 d1 w2 o2 d2,
  open_ef w o u -> cvar_ready w o u d -> exact_solver sv -> e_mu o = Some m ->
  min_cvar sv d mn w o = (w1, o1, Ok d1) -> fresh_name w1 o "target_return" ->
  cvar_efficient_return sv d t mn' w1 (deepcopy o) = (w2, o2, Ok d2) ->
  exists r1 s1 s2 lb ub lb' ub', bounds_in_force mn o lb ub /\ bounds_in_force mn' o lb' ub' /\
    best_at w o u lb ub (if mn then 0 else 1) (fun _ => True) (cvar (cv_beta d) (cv_returns d)) (e_weights o1) d1 s1 /\
    best_at w1 o u lb' ub' (if mn' then 0 else 1) (fun x => t <= inner m x) (cvar (cv_beta d) (cv_returns d)) (e_weights o2) d2 s2 /\
    e_weights o1 = Some r1 /\
    cvar_performance d w1 o1 = Ok (inner m r1, Some (cvar (cv_beta d) (cv_returns d) (s1 (e_w o)))) /\
    cvar_performance d w2 o1 = Ok (inner m r1, Some (cvar (cv_beta d) (cv_returns d) (s2 (e_w o)))).
Proof. exact copy_overwrites. Qed.
Print Assumptions c40_values_shared.
Theorem c40_interference : forall sv, exact_solver sv -> complete_solver sv ->
  exists w1 h1 xs1 x1 w2 h2 xs2 x2,
    steps (firstn 2 (pair_program sv)) cvar2_world pair_heap [pair_obj] = (w1, h1, xs1, [Ok tt; Ok tt]) /\ nth_error xs1 0 = Some x1 /\
    steps (pair_program sv) cvar2_world pair_heap [pair_obj] = (w2, h2, xs2, [Ok tt; Ok tt; Ok tt]) /\ nth_error xs2 0 = Some x2 /\
    load h2 x2 = load h1 x1 /\ e_weights (load h1 x1) = Some [0; 1] /\
    cvar_performance pair_data w1 (load h1 x1) = Ok (1/10, Some (-1/10)) /\
    cvar_performance pair_data w2 (load h2 x2) = Ok (1/10, Some (1/10)).
Proof. exact pair_interference. Qed.
Print Assumptions c40_interference.
