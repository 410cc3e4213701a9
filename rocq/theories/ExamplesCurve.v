(** * Non-vacuity: points of one frontier *)
From Coq Require Import ZArith List String Bool Reals Lra Lia.
From Verif Require Import Num Py RBase PBase MBase MConvex MEF MDown SLin SBase SHRP SObj SConvex SDown SPrep SExist SCurve PObj PConvex PEF PEF2 PEF3 PEF4 PEFW PDown2 PDown5 PDownW PPerm2 PExist4 PropertiesFound PropertiesPrep PropertiesExist PropertiesDown PropertiesCurve ExamplesFound ExamplesPrep ExamplesDown ExamplesExist.
Import ListNotations.
Local Open Scope R_scope.

(** a linear constraint admits what lies between two admitted points *)
Example ex_convex_con : forall sizes ps v a c, (v < List.length sizes)%nat -> convex_con sizes ps (CIneq (EDot a (EVar v)) (EConst [c])).
Proof.
  intros sizes ps v a c Hv s s' t Ht Hs Hs' H H'. specialize (Hs v Hv). specialize (Hs' v Hv).
  cbn [sat eval mixed] in *. cbn [bop map map2] in *. unfold mixed. rewrite !dot_inner in *. rewrite inner_blend by congruence.
  inversion H; subst. inversion H'; subst. constructor; [nra|constructor].
Qed.
Lemma best_exact : exact_solver best_solver. Proof. exact best_solver_exact. Qed.
(** two uncorrelated assets: the best portfolio of volatility 3/4 is found again from its return *)
Example ex_c113_round_trip :
  let by_risk t := efficient_risk best_solver (fun v => v) (NFloat t) false two_world oF in
  let by_ret r := efficient_return best_solver (NFloat r) false two_world oF in
  exists x y, reports (by_risk (3/4)) x /\ sqrt (qform [[1; 0]; [0; 1]] x) <= 3/4 /\
    reports (by_ret (inner [1/5; 1/10] x)) y /\ inner [1/5; 1/10] y = inner [1/5; 1/10] x.
Proof.
  cbv zeta. destruct (c113_round_trips _ _ _ _ _ _ [1/5; 1/10] ex_c102_init id2_square eq_refl (proj1 oF_bounded) (proj2 oF_bounded) eq_refl ltac:(cbn; lia) (proj1 id2_psd) (proj1 (proj2 id2_psd))
    best_solver (fun v => v) ltac:(split; [exact id2_square|]; intros x Hx; destruct x as [|a [|b [|? ?]]]; try discriminate Hx; cbn; f_equal; [ring|f_equal; ring])
    best_exact best_solver_complete ltac:(constructor) ltac:(constructor)) as [T _].
  destruct (ex_c106_risk best_solver best_exact best_solver_complete) as [(w3 & o3 & d & E) _].
  destruct (T (3/4) ltac:(lra)) as (x & y & H1 & H2 & H3 & H4 & _); [rewrite E; exact I|]. exists x, y. auto.
Qed.
Lemma id2_psd' : psd (e_n oF) (e_cov oF). Proof. exact (proj1 id2_psd). Qed.
Example ex_c113_utility : on_frontier (max_quadratic_utility best_solver 1 false two_world oF)
  (fun t => efficient_risk best_solver (fun v => v) (NFloat t) false two_world oF) (fun r => efficient_return best_solver (NFloat r) false two_world oF)
  (inner [1/5; 1/10]) (fun x => sqrt (qform [[1; 0]; [0; 1]] x)).
Proof.
  apply (c113_utility two_world oF [] false [1/5; 1/10] (two_open _ _ _ _) eq_refl eq_refl id2_psd' (oF_fresh _) (oF_fresh _) (oF_fresh _)); try exact best_exact.
  destruct ex_c29_found as (w' & o' & d & E). rewrite E. exact I.
Qed.
(** the least volatility is about 0.71, with a return of 15 percent: a demand for 10 percent gives the same volatility, one for 18 percent does not *)
Example ex_c113_start : frontier_start (min_volatility best_solver two_world oF)
  (fun t => efficient_risk best_solver (fun v => v) (NFloat t) false two_world oF) (fun r => efficient_return best_solver (NFloat r) false two_world oF)
  (fun t => 0 <= t) (inner [1/5; 1/10]) (fun x => sqrt (qform [[1; 0]; [0; 1]] x)).
Proof.
  apply (c113_min_volatility two_world oF [] [1/5; 1/10] (two_open _ _ _ _) eq_refl eq_refl id2_psd' (oF_fresh _) (oF_fresh _)); try exact best_exact.
  destruct ex_c25_found as (w' & o' & d & E). rewrite E. exact I.
Qed.
Example ex_c113_sharpe : exists x, reports (max_sharpe best_solver (NFloat 0) two_world oF) x.
Proof.
  destruct (c113_max_sharpe two_world oF [] [1/5; 1/10] (two_open _ _ _ _) eq_refl eq_refl id2_psd' (oF_fresh _) (oF_fresh _) ltac:(constructor) ltac:(constructor)
    best_solver best_solver best_solver (fun v => v) (NFloat 0) best_exact best_exact best_exact) as (x & H & _).
  - destruct ex_c30_found as (w' & o' & d & E). rewrite E. exact I.
  - exists x. exact H.
Qed.
(** the tables of C106: a return of at least 15 percent is found, and its semideviation leads back to it *)
Example ex_c113_semi : exists w1 o d, semi_init (MIn (MuArray [1/5; 1/10])) (RTable 2 rows) 252 0 (BPair (Some 0) (Some 1)) empty_world = (w1, Ok (o, d)) /\
  exists x, reports (semi_efficient_return best_solver d (NFloat (3/20)) false w1 o) x /\ 3/20 <= inner [1/5; 1/10] x.
Proof.
  destruct ex_c106_semi as (w1 & o & d & E & T). destruct (T best_solver best_exact best_solver_complete) as (_ & (w2 & o2 & x & R) & _).
  exists w1, o, d. split; [exact E|]. destruct (c34_constructor _ _ _ _ _ _ _ _ _ _ rows_good E) as (Ho & Hr & Hd). destruct (semi_new _ _ _ _ _ _ _ _ _ _ E) as [Ha Hp].
  assert (Em : e_mu o = Some [1/5; 1/10]) by (cbn in E; injection E as _ <- _; reflexivity).
  destruct (c113_semi_frontier w1 o [] d [1/5; 1/10] Ho Hr ltac:(constructor) Ha Em ltac:(rewrite Hd; cbn; lra) (new_fresh _ _ _ Hp) (new_fresh _ _ _ Hp)
    best_solver best_solver best_exact best_exact) as [_ _ _ L _ _].
  destruct (L (3/20)) as (y & H1 & H2 & _); [rewrite R; exact I|]. exists y. split; [exact H1|exact H2].
Qed.
Example ex_c113_cvar : exists w1 o d, cvar_init (MIn (MuArray [1/5; 1/10])) (RTable 2 rows) (1/2) (BPair (Some 0) (Some 1)) empty_world = (w1, Ok (o, d)) /\
  frontier_start (min_cvar best_solver d false w1 o) (fun t => cvar_efficient_risk best_solver d t false w1 o) (fun r => cvar_efficient_return best_solver d r false w1 o)
    (fun _ => True) (inner [1/5; 1/10]) (cvar (cv_beta d) (cv_returns d)).
Proof.
  destruct ex_c106_cvar as (w1 & o & d & E & T). destruct (T best_solver best_exact best_solver_complete) as ((w2 & o2 & x & R) & _).
  exists w1, o, d. split; [exact E|]. destruct (c36_constructor _ _ _ _ _ _ _ _ _ rows_good E) as (Ho & Hr & _). destruct (cvar_new _ _ _ _ _ _ _ _ _ E) as [Ha Hp].
  assert (Em : e_mu o = Some [1/5; 1/10]) by (unfold cvar_init in E; rewrite beta_half in E; cbn in E; injection E as _ <- _; reflexivity).
  apply (c113_min_cvar w1 o [] d _ false Ho Hr Ha Em (new_fresh _ _ _ Hp) (new_fresh _ _ _ Hp)); try exact best_exact. rewrite R. exact I.
Qed.
Example ex_c113_cdar : exists w1 o d, cdar_init (MIn (MuArray [1/5; 1/10])) (RTable 2 rows) (1/2) (BPair (Some 0) (Some 1)) empty_world = (w1, Ok (o, d)) /\
  frontier_start (min_cdar best_solver d false w1 o) (fun t => cdar_efficient_risk best_solver d t false w1 o) (fun r => cdar_efficient_return best_solver d r false w1 o)
    (fun _ => True) (inner [1/5; 1/10]) (cdar (cd_beta d) (cd_returns d)).
Proof.
  destruct ex_c106_cdar as (w1 & o & d & E & T). destruct (T best_solver best_exact best_solver_complete) as ((w2 & o2 & x & R) & _).
  exists w1, o, d. split; [exact E|]. destruct (c38_constructor _ _ _ _ _ _ _ _ _ rows_good E) as (Ho & Hr & _). destruct (cdar_new _ _ _ _ _ _ _ _ _ E) as [Ha Hp].
  assert (Em : e_mu o = Some [1/5; 1/10]) by (unfold cdar_init in E; rewrite beta_half in E; cbn in E; injection E as _ <- _; reflexivity).
  apply (c113_min_cdar w1 o [] d _ false Ho Hr Ha Em (new_fresh _ _ _ Hp) (new_fresh _ _ _ Hp)); try exact best_exact. rewrite R. exact I.
Qed.
