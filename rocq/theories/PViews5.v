(** * Views as a dictionary; views that must not be restated (C122) *)
From Coq Require Import List Reals Lra Lia Arith Bool Permutation FinFun.
From Verif Require Import Num Py RBase PyLemmas MBase SLin SBL Sums Mat MRisk MBL PCov1 PCov2 PHRP2 PBL1 PBL2 PBL3 PBL4 PBL5 PBL6 PBL8 PBL9 SViews PViews1 PViews2 PViews3 PViews4.
Import ListNotations.
Local Open Scope R_scope.

(** ** Order of a dictionary *)
Lemma perm_pick : forall (X : Type) (d : X) l l', Permutation l l' -> exists s, Permutation s (seq 0 (length l)) /\ l' = pick d s l.
Proof.
  intros X d l l' H. destruct (proj1 (Permutation_nth l l' d) H) as (HL & f & Hb & Hi & Hf). exists (map f (seq 0 (length l))). split.
  - apply NoDup_Permutation_bis.
    + assert (G : forall q, NoDup q -> (forall x, In x q -> (x < length l)%nat) -> NoDup (map f q)).
      { induction q as [|x q IH]; intros HN HB; [constructor|]. inversion HN; subst. cbn. constructor; [|apply IH; [assumption|intros; apply HB; right; assumption]].
        intros HI. apply in_map_iff in HI. destruct HI as (y & E & Hy). assert (x = y) by (apply Hi; [apply HB; left; reflexivity|apply HB; right; exact Hy|symmetry; exact E]). subst. contradiction. }
      apply G; [apply seq_NoDup|]. intros x Hx. apply in_seq in Hx. lia.
    + rewrite map_length. lia.
    + intros y Hy. apply in_map_iff in Hy. destruct Hy as (x & <- & Hx). apply in_seq in Hx. apply in_seq. specialize (Hb x). lia.
  - apply (nth_ext _ _ d d); [rewrite pick_length, map_length, seq_length; exact HL|]. intros i Hi'. rewrite HL in Hi'.
    rewrite pick_nth by (rewrite map_length, seq_length; exact Hi'). rewrite Hf by exact Hi'. f_equal.
    rewrite (nth_indep _ O (f O)) by (rewrite map_length, seq_length; exact Hi'). rewrite (map_nth f), seq_nth by exact Hi'. reflexivity.
Qed.
Lemma mapM_Forall2 : forall (X Y : Type) (f : X -> res Y) l ys, mapM f l = Ok ys <-> Forall2 (fun x y => f x = Ok y) l ys.
Proof.
  intros X Y f. induction l as [|x l IH]; intros ys; cbn [mapM].
  - split; [intros H; injection H as <-; constructor|intros H; inversion H; reflexivity].
  - split.
    + destruct (f x) as [y|e] eqn:E; cbn [rbind]; [|discriminate]. destruct (mapM f l) as [q|e] eqn:Eq; cbn [rbind]; [|discriminate]. intros H; injection H as <-.
      constructor; [exact E|]. apply IH. reflexivity.
    + intros H. inversion H as [|? y ? q E1 E2]; subst. rewrite E1. cbn [rbind]. apply IH in E2. rewrite E2. reflexivity.
Qed.
Lemma Forall2_pick : forall (X Y : Type) (R0 : X -> Y -> Prop) dx dy l q s, Forall2 R0 l q -> (forall i, In i s -> (i < length l)%nat) -> Forall2 R0 (pick dx s l) (pick dy s q).
Proof.
  intros X Y R0 dx dy l q s H Hs. unfold pick. induction s as [|i s IH]; cbn; constructor; [|apply IH; intros; apply Hs; right; assumption].
  assert (Hi : (i < length l)%nat) by (apply Hs; left; reflexivity). clear - H Hi. revert i Hi. induction H; intros i Hi; cbn in Hi; [lia|]. destruct i; cbn; [assumption|]. apply IHForall2. lia.
Qed.
Lemma pick_map : forall (X Y : Type) (f : X -> Y) dx dy l s, (forall i, In i s -> (i < length l)%nat) -> map f (pick dx s l) = pick dy s (map f l).
Proof.
  intros X Y f dx dy l s H. unfold pick. rewrite map_map. apply map_ext_in. intros i Hi. rewrite (nth_indep _ dy (f dx)) by (rewrite map_length; apply H, Hi). symmetry. apply map_nth.
Qed.
Lemma parse_pick : forall n ts d Q P s, parse_views n ts d = Ok (Q, P) -> (forall i, In i s -> (i < length d)%nat) ->
  parse_views n ts (pick (LInt 0%Z, 0) s d) = Ok (pick 0 s Q, pick [] s P) /\ length Q = length d.
Proof.
  intros n ts d Q P s H Hs. unfold parse_views in *.
  set (f := fun p : label * R => match index_of (fst p) ts with Some i => Ok (snd p, pick_row n i) | None => Err ValueError end) in *.
  destruct (mapM f d) as [rs|e] eqn:E; cbn [rbind] in H; [|discriminate]. injection H as <- <-.
  apply mapM_Forall2 in E. assert (L : length d = length rs) by (clear - E; induction E; cbn; congruence).
  assert (E' : mapM f (pick (LInt 0%Z, 0) s d) = Ok (pick (0, []) s rs)) by (apply mapM_Forall2, Forall2_pick; assumption).
  rewrite E'. cbn [rbind]. split; [|rewrite map_length; symmetry; exact L].
  rewrite (pick_map _ _ fst (0, []) 0) by (intros; rewrite <- L; auto). rewrite (pick_map _ _ snd (0, []) []) by (intros; rewrite <- L; auto). reflexivity.
Qed.
Lemma dict_arrays : forall a d Q P om c, parse_views (length (cov_values (a_cov a))) (cov_tickers (a_cov a)) d = Ok (Q, P) ->
  bl_init (with_dict a d om c) = bl_init (with_views a Q P om c).
Proof.
  intros a d Q P om c H. unfold bl_init. cbn [with_dict with_views a_cov a_views a_Q a_P a_ra a_pi a_caps a_rf a_tau a_omega a_conf]. cbv zeta. cbn [b_tickers base_init set_Q_P].
  rewrite H. reflexivity.
Qed.
Theorem dict_order : forall la a d om c o s, exact_linalg la -> bl_init (with_dict a d om c) = Ok o ->
  psd (bl_n o) (bl_sigma o) -> symmetric (bl_n o) (bl_sigma o) -> psd (length d) (bl_omega o) -> symmetric (length d) (bl_omega o) ->
  Permutation s (seq 0 (length d)) ->
  exists o', bl_init (with_dict a (pick (LInt 0%Z, 0) s d) (pick_omega s om) (pick_conf s c)) = Ok o' /\ same_covariance la o o' /\ same_returns la o o'.
Proof.
  intros la a d om c o s Hla H Hp Hs Hop Hos HP. pose proof (init_views _ _ H) as HV. unfold views_of in HV. cbn [with_dict a_cov a_views] in HV.
  assert (Hin : forall i, In i s -> (i < length d)%nat) by (intros i Hi; apply (Permutation_in _ HP), in_seq in Hi; lia).
  destruct (parse_pick _ _ _ _ _ s HV Hin) as [HV' L]. rewrite (dict_arrays a d _ _ om c HV) in H. rewrite (dict_arrays a _ _ _ (pick_omega s om) (pick_conf s c) HV').
  apply (reordered la a); try assumption; rewrite L; assumption.
Qed.
Theorem dict_order_default : forall la a d d' c o, exact_linalg la -> bl_init (with_dict a d OmDefault c) = Ok o ->
  psd (bl_n o) (bl_sigma o) -> symmetric (bl_n o) (bl_sigma o) -> Permutation d d' ->
  exists o', bl_init (with_dict a d' OmDefault c) = Ok o' /\ same_covariance la o o' /\ same_returns la o o'.
Proof.
  intros la a d d' c o Hla H Hp Hs HP. destruct (perm_pick _ (LInt 0%Z, 0) d d' HP) as (s & Hs' & ->).
  pose proof (init_regular _ _ H (or_introl eq_refl) Hp Hs) as Hr.
  assert (L : length (bl_Q o) = length d).
  { pose proof (init_views _ _ H) as HV. unfold views_of in HV. cbn [with_dict a_cov a_views] in HV. apply (parse_pick _ _ _ _ _ [] HV). intros i []. }
  rewrite L in Hr.
  destruct (dict_order la a d OmDefault c o s Hla H Hp Hs (rg_omega _ _ _ Hr) (rg_omega_sym _ _ _ Hr) Hs') as (o' & Ho & HR).
  exists o'. split; [|exact HR]. rewrite <- Ho. unfold bl_init, with_dict, set_omega, pick_omega. cbn [a_cov a_views a_Q a_P a_ra a_pi a_caps a_rf a_tau a_omega a_conf]. reflexivity.
Qed.

(** ** A view without confidence is not free of its units *)
Theorem rescaled_zero : forall la a q p c o o' x, exact_linalg la -> bl_init (with_views a [q] [p] OmIdzorek c) = Ok o ->
  bl_init (with_views a [x * q] [map (Rmult x) p] OmIdzorek c) = Ok o' ->
  psd (bl_n o) (bl_sigma o) -> symmetric (bl_n o) (bl_sigma o) -> nth_error (conf_list c) 0 = Some 0 ->
  0 < qform (bl_sigma o) p -> q <> inner p (bl_pi o) -> x <> 0 -> x * x <> 1 -> snd (bl_returns la o') <> snd (bl_returns la o).
Proof.
  intros la a q p c o o' x Hla H H' Hp Hs Hc Hv Hq Hx Hx1 E.
  pose proof (init_views _ _ H) as HV. unfold views_of in HV. cbn in HV. injection HV as EQ EP.
  pose proof (init_views _ _ H') as HV'. unfold views_of in HV'. cbn in HV'. injection HV' as EQ' EP'.
  destruct (bl_init_inv _ _ H) as (F1 & F2 & _ & F4 & _ & _ & Ft & _ & F8 & _). destruct (bl_init_inv _ _ H') as (G1 & G2 & _ & G4 & _ & _ & _ & _ & G8 & _).
  cbn [with_views a_cov a_pi a_ra a_caps a_rf a_tau] in *. rewrite F8 in G8. injection G8 as G8.
  assert (Es : bl_sigma o' = bl_sigma o) by congruence. assert (En : bl_n o' = bl_n o) by congruence. assert (Et : bl_tau o' = bl_tau o) by congruence.
  destruct (idzorek_single la _ o 0 Hla H eq_refl) as [_ I1]; try assumption; try (rewrite <- EQ; reflexivity); try (rewrite <- EP; exact Hv).
  destruct (idzorek_single la _ o' 0 Hla H' eq_refl) as [_ I2]; try assumption; try (rewrite <- EQ'; reflexivity); try (rewrite En, Es; assumption).
  { rewrite <- EP', Es. cbn [nth]. change (map (Rmult x) p) with (vscale x p). rewrite qform_scale. apply Rmult_lt_0_compat; [|exact Hv]. nra. }
  specialize (I1 eq_refl). specialize (I2 eq_refl). cbv zeta in I1, I2. rewrite <- EP, <- EQ in I1. rewrite <- EP', <- EQ', Es, Et, <- G8, E in I2. cbn [nth] in I1, I2.
  change (map (Rmult x) p) with (vscale x p) in I2. rewrite qform_scale, !inner_scale_l, I1 in I2.
  set (g := q - inner p (bl_pi o)) in *. assert (Hg : g <> 0) by (unfold g; lra). set (v := bl_tau o * qform (bl_sigma o) p) in *.
  assert (Hv' : 0 < v) by (unfold v; rewrite F4; apply Rmult_lt_0_compat; [apply Ft|exact Hv]).
  replace (bl_tau o * (x * x * qform (bl_sigma o) p)) with (x * x * v) in I2 by (unfold v; ring).
  replace (x * q - x * inner p (bl_pi o)) with (x * g) in I2 by (unfold g; ring).
  assert (Hxx : 0 < x * x) by nra. assert (H6 : 0 < 10 ^ 6) by (apply pow_lt; lra). set (M := 10 ^ 6) in *. assert (0 < x * x * v) by (apply Rmult_lt_0_compat; assumption).
  assert (E1 : v / (v + M) = x * x * v / (x * x * v + M)).
  { apply Rmult_eq_reg_r with (x * g); [|apply Rmult_integral_contrapositive_currified; assumption]. lra. }
  assert (E2 : v * (x * x * v + M) = x * x * v * (v + M)).
  { apply (Rmult_eq_compat_r ((v + M) * (x * x * v + M))) in E1. field_simplify in E1; [|lra|lra]. nra. }
  apply Hx1. apply Rmult_eq_reg_l with (v * M); [|apply Rmult_integral_contrapositive_currified; lra]. nra.
Qed.
