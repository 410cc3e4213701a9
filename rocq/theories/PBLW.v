(** * Black-Litterman: witnesses, and solvers meeting the contract exist *)
From Coq Require Import List Reals Lra Lia Arith Bool Classical ClassicalEpsilon ZArith.
From Verif Require Import Num Py RBase PyLemmas MBase SLin SBL Sums Mat MRisk MBL PBase PCov1 PCov2 PHRP2 PBL1 PBL2 PBL3 PBL4 PBL5 PBL6 PBL7 PBL8 PBL9.
Import ListNotations.
Local Open Scope R_scope.

(** ** The contract of the solvers can be met *)
Theorem exact_linalg_exists : exists la, exact_linalg la.
Proof.
  set (lsq := fun A b => epsilon (inhabits (@nil R)) (fun x => length x = length b /\ forall y, length y = length b ->
     sum_squares (minus_vec (mat_vec A x) b) <= sum_squares (minus_vec (mat_vec A y) b))).
  set (slv := fun A b => if excluded_middle_informative (invertible (length b) A) then Some (epsilon (inhabits (@nil R)) (fun x => length x = length b /\ mat_vec A x = b)) else None).
  exists (mkLinalg slv lsq). split.
  - intros k A b HA Hb. subst k. unfold la_solve, slv. destruct (excluded_middle_informative (invertible (length b) A)) as [H|H].
    + split; [|contradiction]. intros _. eexists. split; [reflexivity|]. apply epsilon_spec.
      destruct H as [B [HB HI]]. exists (mat_vec B b). split; [rewrite mat_vec_length; apply HB|]. apply HI. reflexivity.
    + split; [contradiction|reflexivity].
  - intros k A b HA Hb. subst k. unfold la_lstsq, lsq. apply (epsilon_spec (inhabits (@nil R)) (fun x => length x = length b /\ forall y, length y = length b ->
     sum_squares (minus_vec (mat_vec A x) b) <= sum_squares (minus_vec (mat_vec A y) b))). apply lstsq_exists; [exact HA|reflexivity].
Qed.

(** ** Construction from arrays *)
Definition identity (n : nat) : list (list R) := array n n delta.
Lemma has_shape_of : forall r c m, shaped r c m -> has_shape r c m = true.
Proof. intros. apply has_shape_true. assumption. Qed.
Lemma init_arrays : forall cov pi Q P om conf tau ra Om,
  let n := length (cov_values cov) in let k := length Q in
  shaped n n (cov_values cov) -> length pi = n -> shaped k n P -> 0 < tau <= 1 -> 0 < ra ->
  set_omega n (cov_values cov) Q P tau om conf = Ok Om ->
  bl_init (mkArgs cov (PiArr pi) VNone (Some Q) (Some P) om conf tau ra None 0) =
  Ok (mkBL (base_init n (Some (cov_tickers cov))) (cov_values cov) n Q P pi Om tau ra None None None None).
Proof.
  intros cov pi Q P om conf tau ra Om n k HS Hpi HP Ht Hra HO. unfold bl_init. cbv zeta. cbn [a_cov a_views a_Q a_P a_ra a_pi a_tau a_omega a_conf a_caps a_rf set_Q_P rbind]. fold n.
  rewrite (proj2 (Rleb_false ra 0)) by lra. cbn [rbind set_pi]. rewrite (proj2 (Rleb_false tau 0)) by lra. rewrite (proj2 (Rltb_false 1 tau)) by lra. cbn [orb rbind].
  unfold check_dimensions. rewrite Hpi, Nat.eqb_refl. fold k. rewrite (has_shape_of k n P HP), (has_shape_of n n _ HS). cbn [negb orb rbind]. rewrite HO. reflexivity.
Qed.
Lemma set_omega_arr : forall n s Q P tau m conf, shaped (length Q) (length Q) m -> set_omega n s Q P tau (OmArr m) conf = Ok m.
Proof. intros. unfold set_omega. cbv zeta. cbn [rbind]. rewrite has_shape_of by assumption. reflexivity. Qed.

Ltac shape := split; [reflexivity|repeat (apply Forall_cons; [reflexivity|]); apply Forall_nil].
Ltac lists := repeat match goal with |- _ :: _ = _ :: _ => apply f_equal2 | |- [] = [] => reflexivity end.
Lemma sum_squares_zero : forall x, sum_squares x = 0 -> Forall (fun a => a = 0) x.
Proof.
  unfold sum_squares. induction x as [|a x IH]; intros H; [constructor|]. cbn in H.
  assert (H1 : 0 <= a * a) by apply Rle_0_sqr. assert (H2 : forall y, 0 <= inner y y) by (induction y as [|b y IHy]; cbn; [lra|pose proof (Rle_0_sqr b); unfold Rsqr in *; lra]).
  specialize (H2 x). constructor; [apply Rsqr_0_uniq; unfold Rsqr; lra|apply IH; lra].
Qed.
Lemma minus_zero : forall x y, length x = length y -> Forall (fun a => a = 0) (minus_vec x y) -> x = y.
Proof.
  induction x as [|a x IH]; intros [|b y] HL H; try discriminate; [reflexivity|]. cbn in H. inversion H; subst. f_equal; [lra|apply IH; [cbn in HL; congruence|assumption]].
Qed.
(** least squares solve a solvable system *)
Lemma lstsq_solves : forall la k A b x, exact_linalg la -> square k A -> length b = k -> length x = k -> mat_vec A x = b -> mat_vec A (la_lstsq la A b) = b.
Proof.
  intros la k A b x [_ H] HA Hb Hx E. destruct (H k A b HA Hb) as [HL Hm]. specialize (Hm x Hx). rewrite E in Hm.
  assert (Z : sum_squares (minus_vec b b) = 0).
  { clear. induction b as [|a b IH]; [reflexivity|]. unfold sum_squares in *. cbn. rewrite IH. ring. }
  rewrite Z in Hm. apply minus_zero; [rewrite mat_vec_length; rewrite Hb; apply HA|]. apply sum_squares_zero. apply Rle_antisym; [exact Hm|].
  unfold sum_squares. generalize (minus_vec (mat_vec A (la_lstsq la A b)) b). induction l as [|c l IH]; cbn; [lra|]. pose proof (Rle_0_sqr c). unfold Rsqr in *. lra.
Qed.

(** ** C62: the fallback gives weights which do not solve the equation *)
Definition sing : matrix := [[1;0;0];[0;1;0];[0;0;0]].
Definition eye3 : matrix := [[1;0;0];[0;1;0];[0;0;1]].
Definition unc3 : matrix := [[1;0;0];[0;2;0];[0;0;1]].
Definition sing_args : bl_args := mkArgs (CovArray sing) (PiArr [1;1;0]) VNone (Some [1;1;0]) (Some eye3) (OmArr unc3) ConfNone 1 1 None 0.
Definition sing_bl : bl := mkBL (base_init 3 (Some (cov_tickers (CovArray sing)))) sing 3 [1;1;0] eye3 [1;1;0] unc3 1 1 None None None None.
Lemma sing_init : bl_init sing_args = Ok sing_bl.
Proof. apply (init_arrays (CovArray sing)); try lra; try reflexivity; try shape. Qed.
Lemma sing_regular : regular 3 3 sing_bl.
Proof.
  assert (HP : forall w : list R, length w = 3%nat -> exists a b c, w = [a; b; c]) by (intros [|a [|b [|c [|]]]] H; try discriminate H; eauto).
  constructor; [exact (init_wf _ _ sing_init)| | | |].
  1,3: split; [shape|]; intros w Hw; destruct (HP w Hw) as (a & b & c & ->); unfold qform, sing_bl, sing, unc3; cbn; pose proof (Rle_0_sqr a); pose proof (Rle_0_sqr b); pose proof (Rle_0_sqr c); unfold Rsqr in *; lra.
  all: intros i j Hi Hj; destruct i as [|[|[|]]]; try lia; destruct j as [|[|[|]]]; try lia; reflexivity.
Qed.
Lemma sing_not_invertible : ~ invertible 3 sing.
Proof.
  intros [B [HB H]]. specialize (H [0;0;1] eq_refl). destruct B as [|r1 [|r2 [|r3 [|]]]]; try (destruct HB as [HB _]; discriminate HB). unfold sing in H. cbn in H. injection H as _ _ H. lra.
Qed.
Theorem singular_wrong : forall la, exact_linalg la -> exists a o w post,
  bl_init a = Ok o /\ length (bl_Q o) = bl_n o /\ ~ invertible (bl_n o) (bl_sigma o) /\
  snd (bl_returns la o) = post /\ snd (bl_weights la o None) = Ok (combine (b_tickers (bl_base o)) w) /\ total w = 1 /\
  (forall c, mat_vec (scale_matrix c (bl_sigma o)) w <> post) /\
  exists v c, length v = bl_n o /\ total v = 1 /\ 0 < c /\ mat_vec (scale_matrix c (bl_sigma o)) v = post.
Proof.
  intros la Hla. exists sing_args, sing_bl, [3/5; 2/5; 0], [1;1;0].
  pose proof (init_caches la _ _ sing_init) as HC.
  assert (ER : snd (bl_returns la sing_bl) = [1;1;0]).
  { apply (returns_prior la 3 3 sing_bl Hla sing_regular HC). cbn. lists; lra. }
  split; [exact sing_init|]. split; [reflexivity|]. split; [exact sing_not_invertible|]. split; [exact ER|].
  split; [|split; [cbn; lra|split]].
  - assert (EA : system_matrix sing_bl (tau_sigma_P sing_bl) = [[2;0;0];[0;3;0];[0;0;1]]) by (cbn; lists; lra).
    assert (EN : la_solve la (scale_matrix 1 sing) [1;1;0] = None).
    { destruct Hla as [H1 _]. destruct (H1 3%nat (scale_matrix 1 sing) [1;1;0]) as [_ HN]; [shape|reflexivity|]. apply HN.
      rewrite (invertible_scale 3%nat sing 1) by (try lra; shape). exact sing_not_invertible. }
    assert (EL : la_lstsq la [[2;0;0];[0;3;0];[0;0;1]] [1;1;0] = [1/2;1/3;0]).
    { pose proof (lstsq_solves la 3 [[2;0;0];[0;3;0];[0;0;1]] [1;1;0] [1/2;1/3;0] Hla) as E. destruct Hla as [_ H2].
      destruct (H2 3%nat [[2;0;0];[0;3;0];[0;0;1]] [1;1;0]) as [HL _]; [shape|reflexivity|].
      destruct (la_lstsq la [[2;0;0];[0;3;0];[0;0;1]] [1;1;0]) as [|x [|y [|z [|]]]]; try discriminate HL.
      assert (E' : mat_vec [[2;0;0];[0;3;0];[0;0;1]] [x;y;z] = [1;1;0]) by (apply E; [shape|reflexivity|reflexivity|cbn; lists; lra]). cbn in E'. injection E' as E1 E2 E3. lists; lra. }
    pose proof (weights_eq la 3 3 sing_bl (init_wf _ _ sing_init) HC None) as EW. cbv zeta in EW. unfold raw in EW. rewrite ER, EA in EW.
    change (bl_ra sing_bl) with 1 in EW. change (bl_sigma sing_bl) with sing in EW. rewrite EN in EW. cbn [Nat.eqb] in EW. rewrite EL in EW.
    rewrite (proj2 (Reqb_false (total [1/2;1/3;0]) 0)) in EW by (cbn; lra). destruct EW as [EW _]. rewrite EW. f_equal.
    rewrite (dict_pairs 3 sing_bl); [|reflexivity|reflexivity|cbn; repeat constructor; cbn; intuition congruence]. cbn. lists; try reflexivity; f_equal; lra.
  - intros c H. cbn in H. injection H as H1 H2. lra.
  - exists [1/2;1/2;0], 2. split; [reflexivity|]. split; [cbn; lra|]. split; [lra|]. cbn. lists; lra.
Qed.

(** ** C59: certainty about everything makes the covariance matrix independent of tau *)
Definition sure_args (t : R) : bl_args := mkArgs (CovArray [[1]]) (PiArr [1]) VNone (Some [2]) (Some [[1]]) OmIdzorek (ConfList [1]) t 1 None 0.
Theorem tau_covariance_sure : forall la, exact_linalg la -> exists a, a_omega a = OmIdzorek /\ forall t, 0 < t <= 1 ->
  exists o, bl_init (with_tau a t) = Ok o /\ pos_def (bl_n o) (bl_sigma o) /\ snd (bl_cov la o) = [[1]].
Proof.
  intros la Hla. exists (sure_args 1). split; [reflexivity|]. intros t Ht.
  assert (EO : set_omega 1 [[1]] [2] [[1]] t OmIdzorek (ConfList [1]) = Ok (diag_matrix 1 (fun a => nth a [t * ((1 - 1) / 1) * view_variance 1 [[1]] [[1]] 0 0] 0))).
  { unfold set_omega, idzorek_method. cbv zeta. cbn [length Nat.eqb rbind seq mapM]. unfold idzorek_entry. cbn [nth_error].
    rewrite (proj2 (Rltb_false 1 0)) by lra. rewrite (proj2 (Rltb_false 1 1)) by lra. rewrite (proj2 (Reqb_false 1 0)) by lra. reflexivity. }
  eexists. split; [apply (init_arrays (CovArray [[1]])); [shape|reflexivity|shape|exact Ht|cbn; lra|exact EO]|]. cbn [bl_n bl_sigma cov_values].
  split; [split; [shape|]; intros [|x [|]] Hw Hx; try discriminate Hw; unfold qform; cbn; assert (x <> 0) by (intros ->; apply Hx; reflexivity); nra|].
  set (o := mkBL _ _ _ _ _ _ _ _ _ _ _ _ _). pose proof Hla as [H1 _].
  assert (EA : system_matrix o (tau_sigma_P o) = [[t]]) by (cbn; unfold view_variance; cbn; lists; field).
  assert (ET : tau_sigma_P o = [[t]]) by (cbn; lists; lra).
  unfold bl_cov, fill. change (bl_tsp o) with (@None matrix). change (bl_A o) with (@None matrix). cbv beta iota zeta. rewrite EA, ET.
  change (bl_n o) with 1%nat. change (length (bl_Q o)) with 1%nat. cbn [seq map snd]. change (entry [[t]] 0 0) with t. unfold solve_or_lstsq.
  destruct (H1 1%nat [[t]] [t]) as [HI _]; [shape|reflexivity|]. destruct HI as (x & Ex & Lx & Vx).
  { exists [[/ t]]. split; [shape|]. intros [|y [|]] Hy; try discriminate Hy. cbn. lists. field. lra. }
  rewrite Ex. destruct x as [|x [|]]; try discriminate Lx. cbn in Vx. injection Vx as Vx. unfold array. cbn. lists. unfold entry. cbn. lra.
Qed.
