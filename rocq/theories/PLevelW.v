(** * The level of the returns matters to drawdowns: a witness (C140) *)
From Coq Require Import ZArith String List Bool Reals Lia Lra Permutation.
From Verif Require Import Num Py RBase PyLemmas SBL MBase MConvex MEF MDown SLin SBase SConvex SPerm SUnits SDown SDays SExist SShift SLevel Sums Mat PBase PConvex PEF PEF2 PDown5 PPerm PPerm2 PRisk PExist4 PDays PDays2 PDays3 PShift PTail PLevel PDownW.
Import ListNotations.
Local Open Scope R_scope.

Definition lv_rows : list (list (option R)) := [[Some 1; Some 3]; [Some 0; Some (-1)]].
Lemma lv_good : good_rows (length dd_mu) lv_rows.
Proof. split; [repeat constructor|]. exists [Some 1; Some 3], [1; 3]. split; [left; reflexivity|reflexivity]. Qed.
Ltac maxes := repeat match goal with |- context [Rmax ?u ?v] => lazymatch u with context [Rmax _ _] => fail | _ => lazymatch v with context [Rmax _ _] => fail | _ =>
  first [rewrite (Rmax_left u v) by lra | rewrite (Rmax_right u v) by lra] end end end.
Lemma lv_cdar : forall x y, 0 <= x -> 0 <= y -> x + y = 1 ->
  cdar 0 (dropna lv_rows) [x; y] = 1/2 + (-1/2) * x /\ cdar 0 (dropna (rows_plus (-10) lv_rows)) [x; y] = 25/2 + 3/2 * x.
Proof.
  intros x y Hx Hy Hs. replace y with (1 - x) in * by lra. unfold cdar. rewrite !worst_all. unfold lv_rows, rows_plus.
  cbn [dropna flat_map complete app period_returns map option_map inner drawdowns_from]. maxes. cbn [length INR total]. split; field.
Qed.
Lemma lv_made : exists w o d, cdar_init (MIn (MuSeries dd_mu)) (RTable (length dd_mu) lv_rows) 0 (BPair (Some 0) (Some 1)) (mkWorld [] (fun _ => None) [] 0) = (w, Ok (o, d)).
Proof. destruct (dd_runs lv_rows lv_good) as (w & o & d & E & _). exists w, o, d. exact E. Qed.
Lemma lv_answer : forall sv s rows w o d a k, exact_solver sv -> complete_solver sv -> map fst s = [tA; tB] -> good_rows (length s) rows ->
  cdar_init (MIn (MuSeries s)) (RTable (length s) rows) 0 (BPair (Some 0) (Some 1)) (mkWorld [] (fun _ => None) [] 0) = (w, Ok (o, d)) ->
  (forall x y, 0 <= x -> 0 <= y -> x + y = 1 -> cdar 0 (dropna rows) [x; y] = a + k * x) -> k <> 0 ->
  exists w' o' r, min_cdar sv d false w o = (w', o', Ok r) /\ dget tA r = Some (if Rlt_dec k 0 then 1 else 0).
Proof.
  intros sv s rows w o d a k Hex Hco Ht Hg Ei Hc Hk. assert (Ls : length s = 2%nat) by (rewrite <- (map_length fst s), Ht; reflexivity).
  destruct (cdar_run_facts _ _ _ _ _ _ _ _ Hg Ei) as (_ & _ & _ & _ & Rb & N). rewrite Ls in Rb, N. cbn in Rb. injection Rb as El Eu.
  assert (Hb : bounds_in_force false o [Some 0; Some 0] [Some 1; Some 1]) by (right; rewrite <- El, <- Eu; auto).
  assert (Bl : bounded (e_lb o)) by (rewrite <- El; repeat constructor; discriminate). assert (Bu : bounded (e_ub o)) by (rewrite <- Eu; repeat constructor; discriminate).
  destruct (proj2 (exist_min_cdar _ _ _ _ _ _ _ _ _ Hg Ei Bl Bu sv Hex Hco false _ _ Hb)) as (w' & o' & r & E).
  { exists [1; 0]. rewrite N. split; [reflexivity|]. split; [|cbn; lra]. repeat constructor; cbn; lra. }
  exists w', o', r. split; [exact E|].
  assert (Hnd : NoDup (map fst s)) by (rewrite Ht; repeat constructor; cbn; [intros [G|[]]; discriminate G|tauto]).
  destruct (cdar_min_run _ _ _ _ _ _ _ _ Hg Ei sv false Hex _ _ _ Hnd E) as (lb & ub & B & (x & q & (L & W & S & _ & M) & F & D)).
  destruct (in_force_unique _ _ _ _ _ _ B Hb) as [-> ->]. rewrite Ht in *. cbn [length] in L, M.
  destruct x as [|x [|y [|]]]; try discriminate L. cbn [total] in S.
  assert (Wx : 0 <= x /\ 0 <= y).
  { destruct W as [W _]. inversion W as [|? ? ? ? W1 W2]; subst. inversion W2 as [|? ? ? ? W3 W4]; subst. cbn in W1, W3. lra. }
  set (z := if Rlt_dec k 0 then 1 else 0). assert (Ez : z = 0 /\ 0 < k \/ z = 1 /\ k < 0) by (unfold z; destruct (Rlt_dec k 0); [right; auto|left; split; [reflexivity|lra]]).
  assert (X : x = z).
  { specialize (M [z; 1 - z] eq_refl). rewrite !Hc in M by (destruct Ez as [[-> _]|[-> _]]; lra). assert (Le : a + k * x <= a + k * z).
    { apply M; [|cbn; lra|exact I]. split; (constructor; [unfold above, below; lra|constructor; [unfold above, below; lra|constructor]]). }
    destruct Ez as [[-> G]|[-> G]]; nra. }
  destruct q as [|q1 [|q2 [|]]]; try (inversion F as [|? ? ? ? F1 F2]; inversion F2 as [|? ? ? ? F3 F4]; inversion F4; fail).
  inversion F as [|? ? ? ? F1 F2]; subst. rewrite D. change (Some q1 = Some z). f_equal. clear - Ez F1. destruct Ez as [[Ez _]|[Ez _]]; rewrite Ez in *; apply (rounded_int _ _ F1).
Qed.
Theorem level_matters_to_drawdowns : forall sv e, exact_solver sv -> complete_solver sv ->
  exists c s rows b v w1 w2 o1 o2 d1 d2 x1 y1 r1 x2 y2 r2, cdar_level_pair c e s rows 0 b v v w1 w2 o1 o2 d1 d2 /\
    min_cdar sv d1 false w1 o1 = (x1, y1, Ok r1) /\ min_cdar sv d2 false w2 o2 = (x2, y2, Ok r2) /\
    dget (LStr "A") r1 = Some 1 /\ dget (LStr "A") r2 = Some 0.
Proof.
  intros sv e Hex Hco. destruct lv_made as (w1 & o1 & d1 & E1). destruct (cdar_level_accepted (-10) e dd_mu lv_rows 0 _ _ (mkWorld [] (fun _ => None) [] 0) _ _ _ E1) as (w2 & o2 & d2 & E2).
  destruct (lv_answer sv dd_mu lv_rows w1 o1 d1 (1/2) (-1/2) Hex Hco eq_refl lv_good E1) as (x1 & y1 & r1 & C1 & G1).
  { intros x y Hx Hy Hs. apply (lv_cdar x y Hx Hy Hs). } { lra. }
  destruct (lv_answer sv (mu_plus e dd_mu) (rows_plus (-10) lv_rows) w2 o2 d2 (25/2) (3/2) Hex Hco eq_refl (good_plus _ _ _ lv_good) E2) as (x2 & y2 & r2 & C2 & G2).
  { intros x y Hx Hy Hs. apply (lv_cdar x y Hx Hy Hs). } { lra. }
  exists (-10), dd_mu, lv_rows, (BPair (Some 0) (Some 1)), (mkWorld [] (fun _ => None) [] 0), w1, w2, o1, o2, d1, d2, x1, y1, r1, x2, y2, r2.
  split; [split; [exact lv_good|split; [exact E1|exact E2]]|]. split; [exact C1|]. split; [exact C2|].
  destruct (Rlt_dec (-1/2) 0) as [_|Q]; [|lra]. destruct (Rlt_dec (3/2) 0) as [Q|_]; [lra|]. split; [exact G1|exact G2].
Qed.
