(** * Views recombined, reordered and rescaled: construction and answers (C122) *)
From Coq Require Import List Reals Lra Lia Arith Bool Permutation.
From Verif Require Import Num Py RBase PyLemmas MBase SLin SBL Sums Mat MRisk MBL PCov1 PCov2 PHRP2 PBL1 PBL2 PBL3 PBL4 PBL5 PBL6 PBL8 PBL9 SViews PViews1.
Import ListNotations.
Local Open Scope R_scope.

(** the arguments other than the views are the same *)
Definition rest (a : bl_args) := (a_cov a, a_pi a, a_tau a, a_ra a, a_caps a, a_rf a).
Definition views_of (a : bl_args) : res (list R * list (list R)) :=
  let n := length (cov_values (a_cov a)) in
  match a_views a with VNone => set_Q_P n (a_Q a) (a_P a) | VDict d => parse_views n (cov_tickers (a_cov a)) d | VBad => Err TypeError end.
Lemma init_change : forall a o a' Q' P' Om', bl_init a = Ok o -> rest a' = rest a -> views_of a' = Ok (Q', P') ->
  shaped (length Q') (bl_n o) P' -> set_omega (bl_n o) (bl_sigma o) Q' P' (bl_tau o) (a_omega a') (a_conf a') = Ok Om' ->
  bl_init a' = Ok (mkBL (bl_base o) (bl_sigma o) (bl_n o) Q' P' (bl_pi o) Om' (bl_tau o) (bl_ra o) None None None None).
Proof.
  intros a o a' Q' P' Om' H HR HV HP HO. destruct (bl_init_inv a o H) as (E1 & E2 & E3 & E4 & E5 & Hra & Ht & EV & Epi & Hd & Ho & _).
  unfold rest in HR. injection HR as R1 R2 R3 R4 R5 R6. unfold views_of in HV. rewrite R1 in HV.
  unfold bl_init. cbv zeta. rewrite R1, R2, R3, R4, R5, R6. cbn [b_tickers base_init].
  assert (HV' : match a_views a' with VNone => set_Q_P (length (cov_values (a_cov a))) (a_Q a') (a_P a')
     | VDict d => parse_views (length (cov_values (a_cov a))) (cov_tickers (a_cov a)) d | VBad => Err TypeError end = Ok (Q', P')) by exact HV.
  rewrite HV'. cbn [rbind]. rewrite (proj2 (Rleb_false (a_ra a) 0)) by lra. cbn [rbind]. rewrite Epi. cbn [rbind].
  rewrite (proj2 (Rleb_false (a_tau a) 0)) by lra. rewrite (proj2 (Rltb_false 1 (a_tau a))) by lra. cbn [orb rbind].
  unfold check_dimensions in *. rewrite E2 in HP. apply has_shape_true in HP. rewrite HP.
  destruct (Nat.eqb (length (bl_pi o)) (length (cov_values (a_cov a)))); [|discriminate].
  destruct (has_shape (length (cov_values (a_cov a))) (length (cov_values (a_cov a))) (cov_values (a_cov a))); [|rewrite andb_false_r in Hd; discriminate].
  cbn [andb rbind]. rewrite E1, E2, E4 in HO. rewrite HO. cbn [rbind]. rewrite E1, E2, E3, E4, E5. reflexivity.
Qed.
Lemma init_views : forall a o, bl_init a = Ok o -> views_of a = Ok (bl_Q o, bl_P o).
Proof. intros a o H. destruct (bl_init_inv a o H) as (_ & _ & _ & _ & _ & _ & _ & EV & _). exact EV. Qed.

(** weights depend on the posterior returns only, when the covariance matrix is invertible *)
Lemma weights_from_returns : forall la n k k' o o', exact_linalg la -> wf n k o -> wf n k' o' -> caches_ok la o -> caches_ok la o' ->
  bl_sigma o' = bl_sigma o -> bl_ra o' = bl_ra o -> b_tickers (bl_base o') = b_tickers (bl_base o) -> snd (bl_returns la o') = snd (bl_returns la o) ->
  invertible n (bl_sigma o) -> forall ra, match ra with Some d => d <> 0 | None => True end ->
  snd (bl_weights la o' ra) = snd (bl_weights la o ra).
Proof.
  intros la n k k' o o' Hla W W' Hc Hc' Es Er Eb Ep HI ra Hra.
  pose proof (weights_eq la n k o W Hc ra) as H. pose proof (weights_eq la n k' o' W' Hc' ra) as H'. cbv zeta in H, H'. rewrite Er in H'.
  set (d := match ra with Some d => d | None => bl_ra o end) in *.
  assert (Hd : d <> 0) by (unfold d; destruct ra; [exact Hra|pose proof (wf_ra n k o W); lra]).
  unfold raw in H, H'. rewrite Es, Ep in H'. pose proof Hla as [A1 _].
  assert (QS : square n (scale_matrix d (bl_sigma o))) by (apply scale_matrix_square, square_shaped, (wf_sigma n k o W)).
  destruct (A1 n (scale_matrix d (bl_sigma o)) (snd (bl_returns la o)) QS (post_length la n k o W Hc)) as [Hi _].
  destruct Hi as (x & Ex & _); [apply invertible_scale; [apply square_shaped, (wf_sigma n k o W)|exact Hd|exact HI]|].
  rewrite Ex in H, H'. destruct (Reqb (total x) 0); [congruence|]. destruct H as [H _], H' as [H' _]. rewrite Eb in H'. congruence.
Qed.

Lemma answerable_solvable : forall n k o, regular n k o -> answerable o -> exists s, forall a, (a < k)%nat -> app k (oA o) s a = ob o a.
Proof.
  intros n k o Hr Ha. pose proof (rg_wf n k o Hr) as W. unfold answerable in Ha. rewrite (wf_n n k o W), (wf_Q n k o W) in Ha.
  rewrite (oA_core n k o Hr). destruct Ha as [Ha|(Hp & mu & Lm & Hm)].
  - apply solvable_sure_views; [apply (oS_sym n k o Hr)|apply (oS_psd n k o Hr)|apply (oOm_sym n k o Hr)|apply pos_def_posdef, Ha].
  - apply (solvable_consistent n k (oS o) _ _ _ (fun i => vec mu i - vec (bl_pi o) i)).
    + apply (oS_sym n k o Hr).
    + intros x Hx. rewrite oS_bil. apply Rmult_lt_0_compat; [apply (wf_tau n k o W)|]. apply (pos_def_posdef n _ Hp x Hx).
    + apply (oOm_sym n k o Hr).
    + apply (oOm_psd n k o Hr).
    + intros a Hk. rewrite app_minus. unfold ob. rewrite (wf_n n k o W). f_equal. rewrite <- Hm. apply (mat_vec_shaped k n); [exact (wf_P n k o W)|exact Lm|exact Hk].
Qed.

(** two constructed objects whose views are related by [D] *)
Section Pair.
  Variables (la : linalg) (a : bl_args) (o : bl) (Q' : list R) (P' Om' : list (list R)) (D : nat -> nat -> R).
  Let n := bl_n o.
  Let k := length (bl_Q o).
  Let k' := length Q'.
  Let o' := mkBL (bl_base o) (bl_sigma o) (bl_n o) Q' P' (bl_pi o) Om' (bl_tau o) (bl_ra o) None None None None.
  Hypothesis Hla : exact_linalg la.
  Hypothesis H : bl_init a = Ok o.
  Hypothesis Hp : psd n (bl_sigma o).
  Hypothesis Hs : symmetric n (bl_sigma o).
  Hypothesis Hop : psd k (bl_omega o).
  Hypothesis Hos : symmetric k (bl_omega o).
  Hypothesis HP : shaped k' n P'.
  Hypothesis HO : shaped k' k' Om'.
  Hypothesis EQ : forall a, (a < k')%nat -> vec Q' a = app k D (vec (bl_Q o)) a.
  Hypothesis EP : forall a j, (a < k')%nat -> (j < n)%nat -> entry P' a j = sumn k (fun b => D a b * entry (bl_P o) b j).
  Hypothesis EO : forall a c, (a < k')%nat -> (c < k')%nat -> entry Om' a c = sumn k (fun i => D a i * sumn k (fun j => entry (bl_omega o) i j * D c j)).
  Hypothesis D_inj : forall x, (forall a, (a < k')%nat -> app k D x a = 0) -> forall b, (b < k)%nat -> x b = 0.
  Lemma pair_wf : wf n k o. Proof. exact (init_wf a o H). Qed.
  Lemma pair_wf' : wf n k' o'.
  Proof. pose proof pair_wf as W. constructor; unfold o'; cbn; try apply W; try reflexivity; assumption. Qed.
  Lemma pair_regular : regular n k o.
  Proof. constructor; [exact pair_wf|exact Hp|exact Hs|exact Hop|exact Hos]. Qed.
  Lemma pair_caches : caches_ok la o. Proof. exact (init_caches la a o H). Qed.
  Lemma pair_caches' : caches_ok la o'. Proof. unfold caches_ok, o'. cbn. auto. Qed.
  Theorem pair_cov : same_covariance la o o'.
  Proof.
    exact (restated_cov la n k k' o o' D Hla pair_regular pair_wf' pair_caches pair_caches' eq_refl eq_refl EP EO D_inj).
  Qed.
  Lemma pair_weights : snd (bl_returns la o') = snd (bl_returns la o) -> same_returns la o o'.
  Proof.
    intros E. split; [exact E|]. intros HI. exact (weights_from_returns la n k k' o o' Hla pair_wf pair_wf' pair_caches pair_caches' eq_refl eq_refl eq_refl E HI).
  Qed.
  Theorem pair_returns : answerable o -> same_returns la o o'.
  Proof.
    intros Ha. apply pair_weights.
    exact (restated_returns la n k k' o o' D Hla pair_regular pair_wf' pair_caches pair_caches' eq_refl eq_refl eq_refl EQ EP EO D_inj (answerable_solvable n k o pair_regular Ha)).
  Qed.
  Theorem pair_returns_normal : (forall u b, (b < k)%nat -> back k' D (app k D u) b = u b) -> same_returns la o o'.
  Proof.
    intros Ha. apply pair_weights.
    exact (restated_returns_normal la n k k' o o' D Hla pair_regular pair_wf' pair_caches pair_caches' eq_refl eq_refl eq_refl EQ EP EO D_inj Ha).
  Qed.
End Pair.

(** ** Linear recombination *)
Theorem recombined : forall la a Q P Om c o D k', exact_linalg la -> bl_init (with_views a Q P (OmArr Om) c) = Ok o ->
  psd (bl_n o) (bl_sigma o) -> symmetric (bl_n o) (bl_sigma o) -> psd (length Q) Om -> symmetric (length Q) Om ->
  shaped k' (length Q) D -> one_to_one (length Q) D ->
  exists o', bl_init (with_views a (mat_vec D Q) (map (combine_rows (bl_n o) P) D) (OmArr (combined_omega D Om)) c) = Ok o' /\
    same_covariance la o o' /\ (answerable o -> same_returns la o o').
Proof.
  intros la a Q P Om c o D k' Hla H Hp Hs Hop Hos HD HI. pose proof (init_views _ _ H) as HV. unfold views_of in HV. cbn in HV. injection HV as EQ EP.
  assert (EOm : bl_omega o = Om).
  { destruct (bl_init_inv _ _ H) as (_ & _ & _ & _ & _ & _ & _ & _ & _ & _ & HO & _). cbn [with_views a_omega] in HO. unfold set_omega in HO. cbv zeta in HO.
    cbn [rbind] in HO. destruct (has_shape _ _ Om); [|discriminate]. injection HO as HO. symmetry. exact HO. }
  pose proof (init_wf _ _ H) as W. set (n := bl_n o) in *. set (k := length Q) in *.
  assert (Hk : length (bl_Q o) = k) by (rewrite <- EQ; reflexivity). rewrite Hk in W.
  assert (LD : length D = k') by apply HD.
  assert (HP' : shaped k' n (map (combine_rows n P) D)).
  { split; [rewrite map_length; exact LD|]. apply Forall_forall. intros r Hr. apply in_map_iff in Hr. destruct Hr as (x & <- & _).
    apply combine_rows_length. rewrite EP. apply (wf_P n k o W). }
  assert (HO' : shaped k' k' (combined_omega D Om)).
  { split; [unfold combined_omega; rewrite map_length; exact LD|]. apply Forall_forall. intros r Hr. unfold combined_omega in Hr. apply in_map_iff in Hr.
    destruct Hr as (x & <- & _). rewrite map_length. exact LD. }
  assert (LQ : length (mat_vec D Q) = k') by (rewrite mat_vec_length; exact LD).
  assert (QO : shaped k k Om) by (rewrite <- EOm; apply (wf_omega n k o W)).
  assert (Hrow : forall x, (x < k')%nat -> length (nth x D []) = k) by (intros x Hx; exact (shaped_row k' k D x HD Hx)).
  assert (FQ : forall x, (x < k')%nat -> vec (mat_vec D Q) x = app k (entry D) (vec (bl_Q o)) x).
  { intros x Hx. rewrite (mat_vec_shaped k' k) by (try assumption; reflexivity). rewrite EQ. reflexivity. }
  assert (FP : forall x j, (x < k')%nat -> (j < n)%nat -> entry (map (combine_rows n P) D) x j = sumn k (fun b => entry D x b * entry (bl_P o) b j)).
  { intros x j Hx Hj. unfold entry at 1. rewrite (nth_indep _ [] (combine_rows n P [])) by (rewrite map_length, LD; exact Hx).
    rewrite map_nth. change (nth j (combine_rows n P (nth x D [])) 0) with (vec (combine_rows n P (nth x D [])) j).
    rewrite (combine_rows_vec n P _ k j); [|rewrite EP; apply (wf_P n k o W)|apply Hrow, Hx|exact Hj]. unfold rows. apply sumn_ext. intros b Hb.
    rewrite EP. unfold vec, entry. ring. }
  assert (FO : forall x y, (x < k')%nat -> (y < k')%nat -> entry (combined_omega D Om) x y = sumn k (fun i => entry D x i * sumn k (fun j => entry (bl_omega o) i j * entry D y j))).
  { intros x y Hx Hy. unfold combined_omega, entry at 1. rewrite (nth_indep _ [] (map (fun r' => inner [] (mat_vec Om r')) D)) by (rewrite map_length, LD; exact Hx).
    rewrite (map_nth (fun r => map (fun r' => inner r (mat_vec Om r')) D)). rewrite (nth_indep _ 0 (inner (nth x D []) (mat_vec Om []))) by (rewrite map_length, LD; exact Hy).
    rewrite (map_nth (fun r' => inner (nth x D []) (mat_vec Om r'))). rewrite (inner_vec k); [|apply Hrow, Hx|rewrite mat_vec_length; apply QO].
    apply sumn_ext. intros i Hi. change (vec (nth x D []) i) with (entry D x i). f_equal. rewrite (mat_vec_shaped k k); [|exact QO|apply Hrow, Hy|exact Hi]. rewrite EOm. reflexivity. }
  assert (FI : forall x, (forall i, (i < k')%nat -> app k (entry D) x i = 0) -> forall b, (b < k)%nat -> x b = 0).
  { intros x Hx b Hb. assert (E : of_fun k x = repeat 0 k).
    { apply HI; [apply of_fun_length|]. apply Forall_forall. intros y Hy. apply (In_nth _ _ 0) in Hy. destruct Hy as (i & Hi & <-). rewrite mat_vec_length, LD in Hi.
      change (nth i (mat_vec D (of_fun k x)) 0) with (vec (mat_vec D (of_fun k x)) i). rewrite (mat_vec_shaped k' k); [|exact HD|apply of_fun_length|exact Hi].
      rewrite <- (Hx i Hi). apply app_ext. intros j Hj. apply vec_of_fun, Hj. }
    rewrite <- (vec_of_fun k x b Hb), E. unfold vec. apply nth_repeat. }
  eexists. split; [|split].
  - apply (init_change _ o _ (mat_vec D Q) (map (combine_rows n P) D) (combined_omega D Om) H); [reflexivity|reflexivity|rewrite LQ; exact HP'|].
    cbn [with_views a_omega a_conf]. unfold set_omega. cbv zeta. cbn [rbind]. rewrite LQ. apply has_shape_true in HO'. rewrite HO'. reflexivity.
  - apply (pair_cov la _ o _ _ _ (entry D) Hla H); rewrite ?Hk, ?LQ; first [assumption|rewrite EOm; assumption].
  - apply (pair_returns la _ o _ _ _ (entry D) Hla H); rewrite ?Hk, ?LQ; first [assumption|rewrite EOm; assumption].
Qed.
