(** * C40: what optimizing a copy does to the original *)
From Coq Require Import ZArith String List Bool Reals Lra Lia.
From Verif Require Import Num Py RBase PyLemmas MBase MConvex MEF MDown MCopy SLin SBase SConvex SDown SCopy Sums Mat PBase PConvex PEF PEF2 PEFW
  PDown PDown2 PDown5 PDownW PCopy.
Import ListNotations.
Local Open Scope R_scope.

Definition keeps_mu (o o' : ef) : Prop := e_mu o' = e_mu o.
Lemma km_refl : forall o, keeps_mu o o. Proof. intros; reflexivity. Qed.
Lemma km_trans : forall a b c, keeps_mu a b -> keeps_mu b c -> keeps_mu a c. Proof. unfold keeps_mu. congruence. Qed.
Lemma min_cvar_mu : forall sv d mn, pres keeps_mu (min_cvar sv d mn).
Proof. intros. pres_go km_refl km_trans ltac:(apply pres_modify; reflexivity). Qed.
Lemma cvar_return_mu : forall sv d t mn, pres keeps_mu (cvar_efficient_return sv d t mn).
Proof. intros. pres_go km_refl km_trans ltac:(apply pres_modify; reflexivity). Qed.

(** the original, optimized with [min_cvar], afterwards reports the CVaR of the portfolio that
    [efficient_return] of the copy has chosen *)
Theorem copy_overwrites : forall w o u d sv m mn t mn' w1 o1 d1 w2 o2 d2,
  open_ef w o u -> cvar_ready w o u d -> exact_solver sv -> e_mu o = Some m ->
  min_cvar sv d mn w o = (w1, o1, Ok d1) -> fresh_name w1 o "target_return" ->
  cvar_efficient_return sv d t mn' w1 (deepcopy o) = (w2, o2, Ok d2) ->
  exists r1 s1 s2 lb ub lb' ub', bounds_in_force mn o lb ub /\ bounds_in_force mn' o lb' ub' /\
    best_at w o u lb ub (if mn then 0 else 1) (fun _ => True) (cvar (cv_beta d) (cv_returns d)) (e_weights o1) d1 s1 /\
    best_at w1 o u lb' ub' (if mn' then 0 else 1) (fun x => t <= inner m x) (cvar (cv_beta d) (cv_returns d)) (e_weights o2) d2 s2 /\
    e_weights o1 = Some r1 /\
    cvar_performance d w1 o1 = Ok (inner m r1, Some (cvar (cv_beta d) (cv_returns d) (s1 (e_w o)))) /\
    cvar_performance d w2 o1 = Ok (inner m r1, Some (cvar (cv_beta d) (cv_returns d) (s2 (e_w o)))).
Proof.
  intros w o u d sv m mn t mn' w1 o1 d1 w2 o2 d2 Hop Hr Hsv Em H1 Hf H2. unfold deepcopy in H2.
  destruct (min_cvar_best w o u d Hop Hr sv mn w1 o1 d1 Hsv H1) as [lb [ub [s1 [B1 [B2 B3]]]]].
  destruct (B3 m Em) as [r1 [Er1 P1]].
  assert (Hg : grows w w1). { eapply (proj1 (proj2 (proj2 (proj2 (down_grows sv)))) d mn). unfold drop, bind. rewrite H1. reflexivity. }
  destruct (cvar_return_best w1 o u d (open_grown _ _ _ _ Hg Hop) (cvar_ready_grown _ _ _ _ _ Hg Hr) sv mn' t m w2 o2 d2 Hsv Em Hf H2)
    as [lb' [ub' [s2 [C1 [C2 [r2 [Er2 P2]]]]]]].
  exists r1, s1, s2, lb, ub, lb', ub'. split; [exact B1|]. split; [exact C1|]. split; [exact B2|]. split; [exact C2|]. split; [exact Er1|].
  split; [exact P1|].
  pose proof (min_cvar_mu sv d mn _ _ _ _ _ H1) as M1. pose proof (cvar_return_mu sv d t mn' _ _ _ _ _ H2) as M2. unfold keeps_mu in M1, M2.
  unfold cvar_performance, tail_performance in *. rewrite Er1, M1, Em in P1 |- *. rewrite Er2, M2, Em in P2. cbv iota in *. congruence.
Qed.

(** ** A concrete case: the first asset loses 10% and has the higher expected return *)
Definition pair_rows : list (list (option R)) := [[Some (-1/10); Some (1/10)]].
Definition pair_data : cvar_data := mkCVaR [[-1/10; 1/10]] (1/2) 1 2.
Lemma pair_made : cvar_init (MIn (MuArray [1/5; 1/10])) (RTable 2 pair_rows) (1/2) (BPair (Some 0) (Some 1)) empty_world =
  (cvar2_world, Ok (semi2_ef 0 1, pair_data)).
Proof. unfold cvar_init. cbn -[validate_beta]. rewrite half_ok. reflexivity. Qed.
Lemma pair_ready : open_ef cvar2_world (semi2_ef 0 1) [] /\ cvar_ready cvar2_world (semi2_ef 0 1) [] pair_data.
Proof.
  destruct (cvar_init_ready _ _ _ _ _ _ _ _ _ ltac:(split; [repeat constructor|]; exists [Some (-1/10); Some (1/10)], [-1/10; 1/10]; split; [left; reflexivity|reflexivity]) pair_made)
    as [H1 [H2 _]]. auto.
Qed.
Definition pair_heap : heap := mkHeap [e_add (semi2_ef 0 1)] [e_cons (semi2_ef 0 1)].
Definition pair_obj : obj := mkObj (semi2_ef 0 1) 0 0.
Lemma pair_owns : own_lists pair_heap [pair_obj].
Proof. split; [|split]; repeat constructor; intros []. Qed.
Lemma pair_load : load pair_heap pair_obj = semi2_ef 0 1. Proof. reflexivity. Qed.
(** [copy = ef.deepcopy(); ef.min_cvar(); copy.efficient_return(0.2)] *)
Definition pair_program (sv : solver_t) : list op :=
  [OCopy 0; OCall 0 (drop (min_cvar sv pair_data false)) false; OCall 1 (drop (cvar_efficient_return sv pair_data (1/5) false)) false].

Lemma two_ints : forall a b r, Forall2 (rounded 16) [IZR a; IZR b] r -> r = [IZR a; IZR b].
Proof.
  intros a b r H. inversion H as [|? x ? l H1 H2]; subst. inversion H2 as [|? y ? l' H3 H4]; subst. inversion H4; subst.
  apply rounded_int in H1. apply rounded_int in H3. congruence.
Qed.
Lemma drop_run : forall X (m : M ef X) w o w' o' x, m w o = (w', o', Ok x) -> drop m w o = (w', o', Ok tt).
Proof. intros X m w o w' o' x H. unfold drop, bind, ret. rewrite H. reflexivity. Qed.
Lemma one_step : forall m1 w o w1 o1, m1 w o = (w1, o1, Ok tt) ->
  values [OCopy 0; OCall 0 m1 false] w [o] = (w1, [o1; o], [Ok tt; Ok tt]).
Proof. intros m1 w o w1 o1 H. cbn. rewrite H. reflexivity. Qed.
Lemma two_steps : forall m1 m2 w o w1 o1 w2 o2, m1 w o = (w1, o1, Ok tt) -> m2 w1 o = (w2, o2, Ok tt) ->
  values [OCopy 0; OCall 0 m1 false; OCall 1 m2 false] w [o] = (w2, [o1; o2], [Ok tt; Ok tt; Ok tt]).
Proof. intros m1 m2 w o w1 o1 w2 o2 H1 H2. cbn. rewrite H1. cbn. rewrite H2. reflexivity. Qed.
Theorem pair_interference : forall sv, exact_solver sv -> complete_solver sv ->
  exists w1 h1 xs1 x1 w2 h2 xs2 x2,
    steps (firstn 2 (pair_program sv)) cvar2_world pair_heap [pair_obj] = (w1, h1, xs1, [Ok tt; Ok tt]) /\ nth_error xs1 0 = Some x1 /\
    steps (pair_program sv) cvar2_world pair_heap [pair_obj] = (w2, h2, xs2, [Ok tt; Ok tt; Ok tt]) /\ nth_error xs2 0 = Some x2 /\
    load h2 x2 = load h1 x1 /\ e_weights (load h1 x1) = Some [0; 1] /\
    cvar_performance pair_data w1 (load h1 x1) = Ok (1/10, Some (-1/10)) /\
    cvar_performance pair_data w2 (load h2 x2) = Ok (1/10, Some (1/10)).
Proof.
  intros sv Hsv Hcs. destruct pair_ready as [Hop Hr]. set (o := semi2_ef 0 1) in *. set (w := cvar2_world) in *.
  assert (Hb : forall lb ub, bounds_in_force false o lb ub -> lb = [Some 0; Some 0] /\ ub = [Some 1; Some 1]).
  { intros lb ub [[E _]|[_ [-> ->]]]; [discriminate E|]. split; reflexivity. }
  assert (Hb' : bounds_in_force false o [Some 0; Some 0] [Some 1; Some 1]) by (right; split; [left; reflexivity|split; reflexivity]).
  assert (Hc : forall x y, cvar (cv_beta pair_data) (cv_returns pair_data) [x; y] = x/10 - y/10).
  { intros. cbn [pair_data cv_beta cv_returns]. rewrite cvar_one by lra. lra. }
  destruct (min_cvar_answers w o [] pair_data Hop Hr sv false Hcs) as [w1 [o1 [d1 E1]]].
  { exists [Some 0; Some 0], [Some 1; Some 1], (fun v => match v with 0%nat => [0; 1] | _ => [0] end). split; [exact Hb'|].
    split; [|split; [exact I|]].
    - apply admissible_two'; [reflexivity| |exists 0, 1; split; [reflexivity|lra]].
      intros v Hv. cbn in Hv. destruct v as [|[|[|v]]]; [reflexivity..|lia].
    - intros s' Ha _. apply admissible_two in Ha; [|reflexivity|reflexivity]. destruct Ha as [x [y [E [Hx [Hy Hs]]]]].
      change (e_w o) with 0%nat. rewrite E, !Hc. cbn. lra. }
  assert (Hg : grows w w1). { eapply (proj1 (proj2 (proj2 (proj2 (down_grows sv)))) pair_data false). unfold drop, bind. rewrite E1. reflexivity. }
  assert (Hf : fresh_name w1 o "target_return") by (intros q Hq; cbn in Hq; contradiction).
  destruct (cvar_return_answers w1 o [] pair_data (open_grown _ _ _ _ Hg Hop) (cvar_ready_grown _ _ _ _ _ Hg Hr) sv false (1/5) [1/5; 1/10] Hcs eq_refl Hf)
    as [w2 [o2 [d2 E2]]].
  { destruct Hg as [[a Ha] _]. change (w_sizes w) with [2; 1; 1]%nat in Ha.
    exists [Some 0; Some 0], [Some 1; Some 1], (fun v => match v with 0%nat => [1; 0] | _ => repeat 0 (nth v (w_sizes w1) 0%nat) end). split; [exact Hb'|].
    assert (Hz : nth_error (w_sizes w1) 0 = Some 2%nat) by (rewrite Ha; reflexivity).
    split; [|split].
    - split; [|split; [|split; [|constructor]]].
      + intros v Hv. destruct v as [|v]; [rewrite Ha; reflexivity|]. cbv iota. rewrite repeat_length. reflexivity.
      + change (e_w o) with 0%nat. cbv iota. split; rewrite Forall2_two; cbn; lra.
      + cbn. lra.
    - change (e_w o) with 0%nat. cbv iota. rewrite qret_two. lra.
    - intros s' [Hw [Hin [Hs _]]] Hok. specialize (Hw 0%nat ltac:(rewrite Ha; cbn; lia)). rewrite Ha in Hw. cbn in Hw.
      change (e_w o) with 0%nat in *. destruct (s' 0%nat) as [|x [|y [|]]]; try discriminate Hw. destruct Hin as [I1 I2]. rewrite Forall2_two in I1, I2.
      cbn in I1, I2, Hs. rewrite qret_two in Hok. cbv beta iota. rewrite !Hc. change (e_add o) with (@nil expr). unfold penalty. cbn [map total]. lra. }
  destruct (copy_overwrites w o [] pair_data sv [1/5; 1/10] false (1/5) false w1 o1 d1 w2 o2 d2 Hop Hr Hsv eq_refl E1 Hf E2)
    as [r1 [s1 [s2 [lb [ub [lb' [ub' [B1 [B2 [B3 [B4 [Er [P1 P2]]]]]]]]]]]]].
  destruct (Hb _ _ B1) as [-> ->]. destruct (Hb _ _ B2) as [-> ->].
  assert (S1 : s1 0%nat = [0; 1]).
  { destruct B3 as [r [_ [_ [_ [Ha [_ Hmin]]]]]]. apply admissible_two in Ha; [|reflexivity|reflexivity]. destruct Ha as [x [y [E [Hx [Hy Hs]]]]].
    specialize (Hmin (fun v => match v with 0%nat => [0; 1] | _ => [0] end)). change (e_w o) with 0%nat in Hmin. rewrite E, !Hc in Hmin.
    change (e_add o) with (@nil expr) in Hmin. unfold penalty in Hmin. cbn [map total] in Hmin. assert (Hle : x/10 - y/10 + 0 <= 0/10 - 1/10 + 0).
    { apply Hmin; [|exact I]. apply admissible_two'; [reflexivity| |exists 0, 1; split; [reflexivity|lra]].
      intros v Hv. cbn in Hv. destruct v as [|[|[|v]]]; [reflexivity..|lia]. }
    rewrite E. f_equal; [|f_equal]; lra. }
  assert (S2 : s2 0%nat = [1; 0]).
  { destruct B4 as [r [_ [_ [_ [[Hw [Hin [Hs _]]] [Hok _]]]]]]. destruct Hg as [[a Ha] _]. change (w_sizes w) with [2; 1; 1]%nat in Ha.
    specialize (Hw 0%nat ltac:(rewrite Ha; cbn; lia)). rewrite Ha in Hw. cbn in Hw. change (e_w o) with 0%nat in *.
    destruct (s2 0%nat) as [|x [|y [|]]]; try discriminate Hw. destruct Hin as [I1 I2]. rewrite Forall2_two in I1, I2.
    cbn in I1, I2, Hs. rewrite qret_two in Hok. f_equal; [|f_equal]; lra. }
  assert (R1 : r1 = [0; 1]).
  { destruct B3 as [r [Er' [Hrd _]]]. rewrite Er in Er'. inversion Er'; subst r. change (e_w o) with 0%nat in Hrd. rewrite S1 in Hrd. apply (two_ints 0 1) in Hrd. exact Hrd. }
  change (e_w o) with 0%nat in P1, P2. rewrite S1, Hc in P1. rewrite S2, Hc in P2. subst r1. rewrite qret_two in P1, P2.
  destruct (steps (firstn 2 (pair_program sv)) cvar2_world pair_heap [pair_obj]) as [[[wa ha] xsa] ra] eqn:Ea.
  destruct (steps (pair_program sv) cvar2_world pair_heap [pair_obj]) as [[[wb hb] xsb] rb] eqn:Eb.
  pose proof (proj2 (copies_are_values _ _ _ _ _ _ _ _ pair_owns Ea)) as Va.
  pose proof (proj2 (copies_are_values _ _ _ _ _ _ _ _ pair_owns Eb)) as Vb.
  change (map (load pair_heap) [pair_obj]) with [o] in Va, Vb.
  apply drop_run in E1. apply drop_run in E2.
  unfold pair_program in Va, Vb. fold w in Va, Vb. rewrite (two_steps _ _ _ _ _ _ _ _ E1 E2) in Vb. cbn [firstn] in Va. rewrite (one_step _ _ _ _ _ E1) in Va.
  inversion Va as [[X1 X2 X3]]. inversion Vb as [[Y1 Y2 Y3]].
  destruct xsa as [|xa [|xa' [|]]]; try discriminate X2. destruct xsb as [|xb [|xb' [|]]]; try discriminate Y2.
  cbn [map] in X2, Y2. assert (La : load ha xa = o1) by congruence. assert (Lb : load hb xb = o1) by congruence.
  exists wa, ha, [xa; xa'], xa, wb, hb, [xb; xb'], xb. subst wa wb ra rb. rewrite La, Lb.
  split; [exact Ea|]. split; [reflexivity|]. split; [exact Eb|]. split; [reflexivity|]. split; [reflexivity|]. split; [exact Er|]. split.
  - rewrite P1. f_equal. f_equal; [lra|]. f_equal. lra.
  - rewrite P2. f_equal. f_equal; [lra|]. f_equal. lra.
Qed.
