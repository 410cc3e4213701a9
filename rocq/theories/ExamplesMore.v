(** * Non-trivial cases for the properties about further demands (C134) *)
From Coq Require Import ZArith List String Bool Reals Lra Lia.
From Verif Require Import Num Py MBase MConvex MEF MDown SLin SBase SObj SConvex SDown SCurve SUnique SMore Sums PBase PConvex PEF PEF2 PEF3 PEF4 PEFW PEF5 PRisk PDown2 PDown4 PDownW PUnique PUniqueW PMore ExamplesEF ExamplesUnique.
Import ListNotations.
Local Open Scope R_scope.

(** the first of two equally risky assets may have at most the share [k] *)
Definition cap (k : R) (v : nat) : con := CIneq (EIndex [0%nat] (EVar v)) (EScalar k).
Lemma cap_sat : forall k s ps x y, s 0%nat = [x; y] -> (sat s ps (cap k 0) <-> x <= k).
Proof. intros k s ps x y E. apply sat_ineq1; [cbn [eval]; rewrite E; reflexivity|reflexivity]. Qed.
Lemma capped_runs : forall k, 0 <= k -> exists w' o' d, min_volatility best_solver two_c_world (two_c (1/5) (1/10) (cap k)) = (w', o', Ok d).
Proof.
  intros k Hk. set (a := Rmin k (1/2)).
  assert (Ha : 0 <= a <= 1/2 /\ a <= k) by (unfold a; pose proof (Rmin_l k (1/2)); pose proof (Rmin_r k (1/2)); split; [split; [apply Rmin_glb; lra|lra]|lra]).
  apply (min_volatility_found best_solver _ _ [(2%nat, cap k 0)] (fun _ => [a; 1 - a])).
  - exact best_solver_complete.
  - apply two_c_open. reflexivity.
  - destruct id2_psd as [_ [_ Q]]. split; [|split; [exact I|]].
    + split; [intros v Hv; cbn in Hv; destruct v; [reflexivity|lia]|]. cbn [two_c set_cons two_ef e_lb e_ub e_w]. split; [split; apply Forall2_two; cbn; lra|].
      split; [cbn; lra|]. constructor; [cbn [snd]; rewrite (cap_sat k _ _ a (1 - a) eq_refl); lra|constructor].
    + intros s' [As [Aw [At Au]]] _. cbn [two_c set_cons two_ef e_lb e_ub e_w e_cov e_add] in *. unfold penalty. cbn [map total].
      specialize (As 0%nat ltac:(cbn; lia)). cbn in As. destruct (s' 0%nat) as [|x [|y [|]]] eqn:E; try discriminate As.
      inversion Au as [|? ? Hc _]; subst. cbn [snd] in Hc. rewrite (cap_sat k _ _ x y E) in Hc. cbn [total] in At. rewrite !Q.
      replace y with (1 - x) by lra. assert (Hx : a = k /\ k <= 1/2 \/ a = 1/2) by (unfold a, Rmin; destruct (Rle_dec k (1/2)); auto).
      destruct Hx as [[-> Hk2]|Hx].
      * assert (0 <= (k - x) * (1 - k - x)) by (apply Rmult_le_pos; lra). lra.
      * rewrite Hx. pose proof (Rle_0_sqr (x - 1/2)) as S. unfold Rsqr in S. lra.
Qed.
(** both problems have answers, for a cap that binds and for one that does not *)
Example ex_c134_constraints : forall k, 0 <= k ->
  exists u1, open_ef two_c_world (two_c (1/5) (1/10) (cap k)) u1 /\ (forall mn, tighter mn two_world o2 [] two_c_world (two_c (1/5) (1/10) (cap k)) u1) /\
    (exists w' o' d, min_volatility best_solver two_world o2 = (w', o', Ok d)) /\
    (exists w' o' d, min_volatility best_solver two_c_world (two_c (1/5) (1/10) (cap k)) = (w', o', Ok d)).
Proof.
  intros k Hk. destruct (constraints_added [cap k] two_world o2 [] two_c_world (two_c (1/5) (1/10) (cap k)) o2_open) as [u1 [O1 [_ T]]].
  - constructor; [unfold scoped_con; cbn; constructor|constructor].
  - reflexivity.
  - exists u1. split; [exact O1|]. split; [exact T|]. split; [exact ex_c25|exact (capped_runs k Hk)].
Qed.
(** bounds (0, 1) and (0, 3/4) *)
Example ex_c134_bounds : tighter false two_world (two_ef [1/5; 1/10] 0 1) [] two_world (two_ef [1/5; 1/10] 0 (3/4)) [].
Proof.
  apply (bounds_narrowed (MIn (MuArray [1/5; 1/10])) (CovArray [[1; 0]; [0; 1]]) (BPair (Some 0) (Some 1)) (BPair (Some 0) (Some (3/4))) empty_world); [reflexivity|reflexivity|].
  intros x [H1 H2]. cbn [two_ef e_lb e_ub] in *. split; [exact H1|]. inversion H2 as [|? a ? x' Ha H2']; subst. inversion H2' as [|? b ? x'' Hb H2'']; subst. inversion H2''; subst.
  cbn in Ha, Hb. apply Forall2_two. cbn. lra.
Qed.
(** the solver-independent case with a further constraint *)
Example ex_c134_convex : convex_problem two_c_world (two_c (1/5) (1/10) (cap (3/4))) [(2%nat, cap (3/4) 0)] /\ definite 2 (e_cov o2).
Proof.
  split; [|exact id2_definite]. split; [apply two_c_open; reflexivity|]. split; [|constructor]. constructor; [|constructor]. cbn [snd].
  intros s s' t Ht Hs Hs' A B. pose proof (Hs 0%nat ltac:(cbn; lia)) as L. pose proof (Hs' 0%nat ltac:(cbn; lia)) as L'. cbn in L, L'.
  destruct (s 0%nat) as [|x [|y [|]]] eqn:E; try discriminate L. destruct (s' 0%nat) as [|x' [|y' [|]]] eqn:E'; try discriminate L'.
  rewrite (cap_sat _ _ _ x y E) in A. rewrite (cap_sat _ _ _ x' y' E') in B. 
  rewrite (cap_sat (3/4) (mixed t s s') _ ((1 - t) * x + t * x') ((1 - t) * y + t * y')) by (unfold mixed; rewrite E, E'; reflexivity).
  assert (0 <= (1 - t) * (3/4 - x)) by (apply Rmult_le_pos; lra). assert (0 <= t * (3/4 - x')) by (apply Rmult_le_pos; lra). lra.
Qed.
