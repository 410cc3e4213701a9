(** * Concrete cases for the theorems in PropertiesDown.v *)
From Coq Require Import ZArith List String Bool Reals Lra Lia.
From Verif Require Import Num Py RBase PyLemmas MBase MConvex MEF MDown SLin SBase SConvex SDown Sums Mat PBase PConvex PEF PEF2 PEF3 PEF4 PEFW PRisk PDown PDown2 PDown3 PDown4 PDown5 PDown6 PDownW PropertiesDown.
Import ListNotations.
Local Open Scope R_scope.

(** an asset that loses 10% and then gains 10%, and one that gains 5% twice; a row with a gap *)
Definition rows : list (list (option R)) := [[Some (-1/10); Some (1/20)]; [None; Some (1/20)]; [Some (1/10); Some (1/20)]].
Lemma rows_good : good_rows 2 rows.
Proof.
  split; [repeat constructor|]. exists [Some (-1/10); Some (1/20)], [-1/10; 1/20]. split; [left; reflexivity|reflexivity].
Qed.
Definition o2 : ef := semi2_ef 0 1.
Lemma long_bounds : bounds_in_force false o2 [Some 0; Some 0] [Some 1; Some 1].
Proof. right. split; [left; reflexivity|split; reflexivity]. Qed.
Lemma fresh_any : forall w name, fresh_name w o2 name. Proof. intros w name q Hq. cbn in Hq. contradiction. Qed.

(** C34: benchmark 10%, an asset that returns 5% and one that returns 10% *)
Definition d34 : semi := semi2_data (1/10) (1/20, 1/10).
Example ex_c34_min : exists w' o' dd, min_semivariance best_solver d34 false two_world o2 = (w', o', Ok dd).
Proof.
  destruct (semi2_ready (1/10) 0 1 (1/20, 1/10)) as [Hop Hr].
  apply (c34_found two_world o2 [] d34 Hop Hr best_solver false best_solver_complete).
  exists [Some 0; Some 0], [Some 1; Some 1], (fun _ => [0; 1]). split; [exact long_bounds|]. split; [|split; [exact I|]].
  - apply admissible_two'; [reflexivity| |exists 0, 1; split; [reflexivity|lra]].
    intros v Hv. cbn in Hv. replace v with 0%nat by lia. reflexivity.
  - intros s' Ha _. apply admissible_two in Ha; [|reflexivity|reflexivity]. destruct Ha as [x [y [E [Hx [Hy Hs]]]]].
    cbn [o2 semi2_ef init_ef e_w e_add empty_world w_sizes List.length penalty map total d34 semi2_data sd_returns sd_bench fst snd].
    rewrite E, Rmult_1_r, !semi_one, (shortfall_0 (1/10) (1/20 * 0 + 1/10 * 1)) by lra.
    pose proof (Rle_0_sqr (shortfall (1/10) (1/20 * x + 1/10 * y))). unfold Rsqr in *. lra.
Qed.
(** efficient_risk: 2% below the benchmark allowed; the best is 40% in the first asset *)
Lemma short_val : forall x y, 0 <= x <= 1 -> x + y = 1 -> shortfall (1/10) (1/20 * x + 1/10 * y) = x / 20.
Proof. intros x y Hx Hs. unfold shortfall. destruct (Rlt_dec (1/20 * x + 1/10 * y) (1/10)); lra. Qed.
Example ex_c34_risk : exists w' o' dd, semi_efficient_risk best_solver d34 (1/50) false two_world o2 = (w', o', Ok dd).
Proof.
  destruct (semi2_ready (1/10) 0 1 (1/20, 1/10)) as [Hop Hr].
  apply (semi_risk_answers two_world o2 [] d34 Hop Hr best_solver false best_solver_complete (1/50) [1/5; 1/10] eq_refl (fresh_any _ _) ltac:(cbn; lra)).
  exists [Some 0; Some 0], [Some 1; Some 1], (fun _ => [2/5; 3/5]). split; [exact long_bounds|].
  unfold least. cbn [o2 semi2_ef init_ef e_w e_add empty_world w_sizes List.length penalty map total d34 semi2_data sd_returns sd_bench sd_freq fst snd].
  rewrite Rmult_1_r. split; [|split].
  - apply admissible_two'; [reflexivity| |exists (2/5), (3/5); split; [reflexivity|lra]].
    intros v Hv. cbn in Hv. replace v with 0%nat by lia. reflexivity.
  - rewrite semi_one, short_val by lra. lra.
  - intros s' Ha Hk. apply admissible_two in Ha; [|reflexivity|reflexivity]. destruct Ha as [x [y [E [Hx [Hy Hs]]]]].
    rewrite E in *. rewrite semi_one, short_val in Hk by lra. rewrite !qret_two.
    assert (x <= 2/5) by nra. lra.
Qed.
Example ex_c34_rows : Forall (fun row => total (map Rabs row) <= 3/20) (sd_returns d34).
Proof. apply Forall_cons; [|apply Forall_nil]. cbn [map total fst snd]. rewrite !Rabs_right by lra. lra. Qed.
(** C35: the solver of the witness exists *)
Example ex_c35 : exists sv, exact_solver sv /\ complete_solver sv.
Proof. exists best_solver. split; [exact best_solver_exact|exact best_solver_complete]. Qed.

(** C36-C38: two periods, beta = 1/2, so the worst period counts *)
Definition cv2 : cvar_data := mkCVaR [[-1/10; 1/20]; [1/10; 1/20]] (1/2) 1 2.
Definition w_cv : world := mkWorld [2; 1; 2]%nat (fun _ => None) [] 2.
Example ex_c36_constructor : cvar_init (MIn (MuArray [1/5; 1/10])) (RTable 2 rows) (1/2) (BPair (Some 0) (Some 1)) empty_world =
  (w_cv, Ok (o2, cv2)).
Proof. unfold cvar_init. cbn -[validate_beta]. rewrite half_ok. reflexivity. Qed.
Lemma cv_ready : open_ef w_cv o2 [] /\ cvar_ready w_cv o2 [] cv2.
Proof. destruct (c36_constructor _ _ _ _ _ _ _ _ _ rows_good ex_c36_constructor) as [H1 [H2 _]]. auto. Qed.
Lemma worst_two : forall a b, worst_mean (1/2) [a; b] = Rmax a b.
Proof.
  intros a b. unfold worst_mean. cbn [List.length sort_desc insert_desc]. replace (INR 2) with 2 by (cbn; lra).
  replace ((1 - 1/2) * 2) with 1 by lra. unfold Rmax. destruct (Rle_dec b a), (Rle_dec a b); cbn [first]; destruct (Rle_dec 1 1); lra.
Qed.
Lemma cv2_cvar : forall x y, cvar (1/2) (cv_returns cv2) [x; y] = Rmax (x/10 - y/20) (- x/10 - y/20).
Proof. intros. unfold cvar, period_returns. cbn [cv2 cv_returns map]. rewrite worst_two, !qret_two. f_equal; lra. Qed.
Example ex_c36 : exists w' o' dd, min_cvar best_solver cv2 false w_cv o2 = (w', o', Ok dd).
Proof.
  destruct cv_ready as [Hop Hr]. apply (c36_found w_cv o2 [] cv2 Hop Hr best_solver false best_solver_complete).
  exists [Some 0; Some 0], [Some 1; Some 1], (fun v => match v with 0%nat => [0; 1] | 1%nat => [0] | _ => [0; 0] end).
  split; [exact long_bounds|]. split; [|split; [exact I|]].
  - apply admissible_two'; [reflexivity| |exists 0, 1; split; [reflexivity|lra]].
    intros v Hv. cbn in Hv. destruct v as [|[|[|v]]]; [reflexivity..|lia].
  - intros s' Ha _. apply admissible_two in Ha; [|reflexivity|reflexivity]. destruct Ha as [x [y [E [Hx [Hy Hs]]]]].
    cbn [o2 semi2_ef init_ef e_w e_add empty_world w_sizes List.length penalty map total cv_beta cv2].
    rewrite E. change ([[-1/10; 1/20]; [1/10; 1/20]]) with (cv_returns cv2). rewrite !cv2_cvar.
    pose proof (Rmax_l (x/10 - y/20) (- x/10 - y/20)).
    assert (Rmax (0/10 - 1/20) (- 0/10 - 1/20) = -1/20) by (unfold Rmax; destruct (Rle_dec _ _); lra). lra.
Qed.
Example ex_c37 : exists w' o' dd, cvar_efficient_risk best_solver cv2 (1/10) false w_cv o2 = (w', o', Ok dd).
Proof.
  destruct cv_ready as [Hop Hr].
  apply (c37_found w_cv o2 [] cv2 Hop Hr best_solver false (1/10) [1/5; 1/10] best_solver_complete eq_refl (fresh_any _ _) ltac:(lra)).
  exists [Some 0; Some 0], [Some 1; Some 1], (fun v => match v with 0%nat => [1; 0] | 1%nat => [0] | _ => [0; 0] end).
  split; [exact long_bounds|]. unfold least.
  cbn [o2 semi2_ef init_ef e_w e_add empty_world w_sizes List.length penalty map total cv_beta cv2].
  change ([[-1/10; 1/20]; [1/10; 1/20]]) with (cv_returns cv2). split; [|split].
  - apply admissible_two'; [reflexivity| |exists 1, 0; split; [reflexivity|lra]].
    intros v Hv. cbn in Hv. destruct v as [|[|[|v]]]; [reflexivity..|lia].
  - rewrite cv2_cvar. apply Rmax_lub; lra.
  - intros s' Ha _. apply admissible_two in Ha; [|reflexivity|reflexivity]. destruct Ha as [x [y [E [Hx [Hy Hs]]]]].
    rewrite E, !qret_two. lra.
Qed.

Definition cd2 : cdar_data := mkCDaR [[-1/10; 1/20]; [1/10; 1/20]] (1/2) 1 2 3.
Definition w_cd : world := mkWorld [2; 1; 3; 2]%nat (fun _ => None) [] 2.
Example ex_c38_constructor : cdar_init (MIn (MuArray [1/5; 1/10])) (RTable 2 rows) (1/2) (BPair (Some 0) (Some 1)) empty_world =
  (w_cd, Ok (o2, cd2)).
Proof. unfold cdar_init. cbn -[validate_beta]. rewrite half_ok. reflexivity. Qed.
Lemma cd_ready : open_ef w_cd o2 [] /\ cdar_ready w_cd o2 [] cd2.
Proof. destruct (c38_constructor _ _ _ _ _ _ _ _ _ rows_good ex_c38_constructor) as [H1 [H2 _]]. auto. Qed.
Lemma cd2_cdar : forall x y, cdar (1/2) (cd_returns cd2) [x; y] =
  let d1 := Rmax (x/10 - y/20) 0 in Rmax d1 (Rmax (d1 - x/10 - y/20) 0).
Proof.
  intros. unfold cdar, period_returns. cbn [cd2 cd_returns map]. rewrite dd_from. cbn [dd]. rewrite worst_two, !qret_two.
  replace (0 - 0 - (-1/10 * x + 1/20 * y)) with (x/10 - y/20) by lra. cbv zeta. f_equal. f_equal. lra.
Qed.
Example ex_c38 : exists w' o' dd, min_cdar best_solver cd2 false w_cd o2 = (w', o', Ok dd).
Proof.
  destruct cd_ready as [Hop Hr]. apply (c38_found w_cd o2 [] cd2 Hop Hr best_solver false best_solver_complete).
  exists [Some 0; Some 0], [Some 1; Some 1], (fun v => match v with 0%nat => [0; 1] | 1%nat => [0] | 2%nat => [0; 0; 0] | _ => [0; 0] end).
  split; [exact long_bounds|]. split; [|split; [exact I|]].
  - apply admissible_two'; [reflexivity| |exists 0, 1; split; [reflexivity|lra]].
    intros v Hv. cbn in Hv. destruct v as [|[|[|[|v]]]]; [reflexivity..|lia].
  - intros s' Ha _. apply admissible_two in Ha; [|reflexivity|reflexivity]. destruct Ha as [x [y [E [Hx [Hy Hs]]]]].
    cbn [o2 semi2_ef init_ef e_w e_add empty_world w_sizes List.length penalty map total cd_beta cd2].
    rewrite E. change ([[-1/10; 1/20]; [1/10; 1/20]]) with (cd_returns cd2). rewrite !cd2_cdar. cbv zeta.
    rewrite (Rmax_right (0/10 - 1/20) 0) by lra. rewrite (Rmax_right (0 - 0/10 - 1/20) 0) by lra. rewrite (Rmax_left 0 0) by lra.
    eapply Rle_trans; [|apply Rplus_le_compat_r, Rmax_l]. pose proof (Rmax_r (x/10 - y/20) 0). lra.
Qed.
Example ex_c38_risk : exists w' o' dd, cdar_efficient_risk best_solver cd2 (1/10) false w_cd o2 = (w', o', Ok dd).
Proof.
  destruct cd_ready as [Hop Hr].
  apply (cdar_risk_answers w_cd o2 [] cd2 Hop Hr best_solver false (1/10) [1/5; 1/10] best_solver_complete eq_refl (fresh_any _ _) ltac:(lra)).
  exists [Some 0; Some 0], [Some 1; Some 1], (fun v => match v with 0%nat => [1; 0] | 1%nat => [0] | 2%nat => [0; 0; 0] | _ => [0; 0] end).
  split; [exact long_bounds|]. unfold least.
  cbn [o2 semi2_ef init_ef e_w e_add empty_world w_sizes List.length penalty map total cd_beta cd2].
  change ([[-1/10; 1/20]; [1/10; 1/20]]) with (cd_returns cd2). split; [|split].
  - apply admissible_two'; [reflexivity| |exists 1, 0; split; [reflexivity|lra]].
    intros v Hv. cbn in Hv. destruct v as [|[|[|[|v]]]]; [reflexivity..|lia].
  - rewrite cd2_cdar. cbv zeta. rewrite (Rmax_left (1/10 - 0/20) 0) by lra. apply Rmax_lub; [lra|]. apply Rmax_lub; lra.
  - intros s' Ha _. apply admissible_two in Ha; [|reflexivity|reflexivity]. destruct Ha as [x [y [E [Hx [Hy Hs]]]]].
    rewrite E, !qret_two. lra.
Qed.
(** C39 *)
Example ex_c39 : exists lb ub, read_bounds 2 (BPair (Some 0) (Some 1)) = Ok (lb, ub). Proof. eexists _, _. reflexivity. Qed.
