(** * Idzorek confidences and tau (C58, C59) *)
From Coq Require Import List Reals Lra Lia Arith Bool.
From Verif Require Import Num Py RBase PyLemmas MBase SLin SBL Sums Mat MRisk MBL PCov1 PCov2 PHRP2 PBL1 PBL2 PBL3 PBL4.
Import ListNotations.
Local Open Scope R_scope.

(** ** Diagonal uncertainty matrices *)
Lemma diag_square : forall k f, square k (diag_matrix k f).
Proof. intros. apply array_square. Qed.
Lemma diag_entry : forall k f a b, (a < k)%nat -> (b < k)%nat -> entry (diag_matrix k f) a b = if Nat.eqb a b then f a else 0.
Proof. intros. unfold diag_matrix. rewrite array_entry by assumption. reflexivity. Qed.
Lemma diag_symmetric : forall k f, symmetric k (diag_matrix k f).
Proof.
  intros k f a b Ha Hb. rewrite !diag_entry by assumption. rewrite (Nat.eqb_sym b a). destruct (Nat.eqb_spec a b) as [->|]; reflexivity.
Qed.
Lemma diag_app : forall k f x a, (a < k)%nat -> app k (entry (diag_matrix k f)) x a = f a * x a.
Proof.
  intros k f x a Ha. unfold app. rewrite (sumn_single k _ a Ha).
  - rewrite diag_entry by assumption. rewrite Nat.eqb_refl. reflexivity.
  - intros b Hb Hne. rewrite diag_entry by assumption. destruct (Nat.eqb_spec a b) as [E|]; [congruence|ring].
Qed.
Lemma diag_bil : forall k f x, bil k (entry (diag_matrix k f)) x x = sumn k (fun a => f a * (x a * x a)).
Proof. intros k f x. rewrite bil_app. apply sumn_ext. intros a Ha. rewrite diag_app by exact Ha. ring. Qed.
Lemma diag_psd : forall k f, (forall a, (a < k)%nat -> 0 <= f a) -> psd k (diag_matrix k f).
Proof.
  intros k f H. apply psd_from_bil; [apply diag_square|]. intros x. rewrite diag_bil. apply sumn_nonneg. intros a Ha.
  apply Rmult_le_pos; [apply H; exact Ha|apply Rle_0_sqr].
Qed.

Lemma view_variance_bil : forall n sigma P a, view_variance n sigma P a a = bil n (entry sigma) (entry P a) (entry P a).
Proof. intros. unfold view_variance, bil. apply sumn_ext. intros i _. rewrite <- sumn_scal. apply sumn_ext. intros; ring. Qed.
Lemma view_variance_qform : forall n k sigma P a, square n sigma -> shaped k n P -> (a < k)%nat -> view_variance n sigma P a a = qform sigma (nth a P []).
Proof. intros n k sigma P a HS HP Ha. rewrite view_variance_bil. rewrite (qform_bil n) by (auto; apply (shaped_row k n); assumption). reflexivity. Qed.
Lemma view_variance_nonneg : forall n sigma P a, psd n sigma -> 0 <= view_variance n sigma P a a.
Proof. intros. rewrite view_variance_bil. apply psd_bil. assumption. Qed.

(** *** relative uncertainty of view [a] for a confidence *)
Definition idz (c : R) : R := (1 - c) / c.
Lemma idz_nonneg : forall c, 0 < c <= 1 -> 0 <= idz c.
Proof. intros c H. unfold idz. apply Rle_mult_inv_pos; lra. Qed.

Lemma idzorek_inv : forall n k sigma P tau l m, idzorek_method n k sigma P tau l = Ok m ->
  (k <= length l)%nat /\ (forall a, (a < k)%nat -> 0 <= nth a l 0 <= 1) /\
  m = diag_matrix k (fun a => if Reqb (nth a l 0) 0 then 10 ^ 6 else tau * idz (nth a l 0) * view_variance n sigma P a a).
Proof.
  intros n k sigma P tau l m H. unfold idzorek_method in H.
  destruct (mapM (idzorek_entry n sigma P tau l) (seq 0 k)) as [ys|e] eqn:E; cbn [rbind] in H; [|discriminate].
  assert (HF : Forall2 (fun a y => idzorek_entry n sigma P tau l a = Ok y) (seq 0 k) ys).
  { clear H. revert ys E. induction (seq 0 k) as [|a s IH]; intros ys E; cbn [mapM] in E; [injection E as <-; constructor|].
    destruct (idzorek_entry n sigma P tau l a) as [y|e] eqn:Ey; cbn [rbind] in E; [|discriminate].
    destruct (mapM (idzorek_entry n sigma P tau l) s) as [ys'|e] eqn:Es; cbn [rbind] in E; [|discriminate]. injection E as <-. constructor; [exact Ey|apply IH; reflexivity]. }
  assert (Hnth : forall a, (a < k)%nat -> idzorek_entry n sigma P tau l a = Ok (nth a ys 0)).
  { intros a Ha. pose proof (Forall2_length _ _ _ HF) as HL. rewrite seq_length in HL.
    assert (G : forall (s : list nat) (t : list R) b d, Forall2 (fun a y => idzorek_entry n sigma P tau l a = Ok y) s t -> (b < length s)%nat -> idzorek_entry n sigma P tau l (nth b s d) = Ok (nth b t 0)).
    { intros s t b d HF2. revert b. induction HF2; intros b Hb; cbn in Hb; [lia|]. destruct b; [assumption|]. cbn. apply IHHF2. lia. }
    specialize (G _ _ a O HF). rewrite seq_length in G. rewrite seq_nth in G by exact Ha. apply G. exact Ha. }
  assert (Hcase : forall a, (a < k)%nat -> (a < length l)%nat /\ 0 <= nth a l 0 <= 1 /\ nth a ys 0 = (if Reqb (nth a l 0) 0 then 10 ^ 6 else tau * idz (nth a l 0) * view_variance n sigma P a a)).
  { intros a Ha. specialize (Hnth a Ha). unfold idzorek_entry in Hnth. destruct (nth_error l a) as [c|] eqn:Ec; [|discriminate].
    rewrite (nth_error_nth l a 0 Ec). assert (Hl : (a < length l)%nat) by (apply nth_error_Some; congruence). split; [exact Hl|].
    destruct (Rltb c 0) eqn:E1; [discriminate|]. destruct (Rltb 1 c) eqn:E2; [discriminate|]. cbn [orb] in Hnth. apply Rltb_false in E1, E2.
    split; [lra|]. destruct (Reqb c 0) eqn:E3; injection Hnth as Hnth; rewrite <- Hnth; reflexivity. }
  split; [|split].
  - destruct k as [|k]; [lia|]. destruct (Hcase k (Nat.lt_succ_diag_r k)) as [H1 _]. lia.
  - intros a Ha. apply Hcase. exact Ha.
  - injection H as <-. unfold diag_matrix, array. apply map_ext_in. intros a Ha. apply map_ext_in. intros b Hb. apply in_seq in Ha. destruct (Nat.eqb a b); [|reflexivity].
    apply Hcase. lia.
Qed.

(** the uncertainty matrix chosen by the constructor, as a multiple of tau *)
Definition rel_omega (a : bl_args) (n : nat) (sigma P : matrix) (i : nat) : R :=
  match a_omega a with
  | OmIdzorek => idz (nth i (conf_list (a_conf a)) 0) * view_variance n sigma P i i
  | _ => view_variance n sigma P i i
  end.
Definition scale_free (a : bl_args) (k : nat) : Prop :=
  a_omega a = OmDefault \/ (a_omega a = OmIdzorek /\ forall i, (i < k)%nat -> 0 < nth i (conf_list (a_conf a)) 0).
Lemma omega_inv : forall a o, bl_init a = Ok o -> 
  match a_omega a with
  | OmDefault => bl_omega o = default_omega (bl_n o) (length (bl_Q o)) (bl_sigma o) (bl_P o) (bl_tau o)
  | OmIdzorek => idzorek_method (bl_n o) (length (bl_Q o)) (bl_sigma o) (bl_P o) (bl_tau o) (conf_list (a_conf a)) = Ok (bl_omega o)
  | OmArr m => bl_omega o = m
  | OmBad => False
  end.
Proof.
  intros a o H. destruct (bl_init_inv a o H) as (E1 & E2 & _ & E4 & _ & _ & _ & _ & _ & _ & Ho & _). rewrite E1, E2, E4. 
  unfold set_omega in Ho. cbv zeta in Ho. destruct (a_omega a); cbn [rbind] in Ho; [| | |discriminate].
  - destruct (has_shape _ _ _); [|discriminate]. injection Ho as Ho. symmetry. exact Ho.
  - destruct (has_shape _ _ _); [|discriminate]. injection Ho as Ho. symmetry. exact Ho.
  - destruct (a_conf a) as [|l|l]; cbn [rbind conf_list] in *; [discriminate| |].
    + destruct (Nat.eqb (length l) (length (bl_Q o))); cbn [rbind] in Ho; [|discriminate].
      destruct (idzorek_method _ _ _ _ _ l) as [m|e]; cbn [rbind] in Ho; [|discriminate].
      destruct (has_shape _ _ m); [|discriminate]. injection Ho as ->. reflexivity.
    + destruct (idzorek_method _ _ _ _ _ l) as [m|e]; cbn [rbind] in Ho; [|discriminate].
      destruct (has_shape _ _ m); [|discriminate]. injection Ho as ->. reflexivity.
Qed.
Lemma conf_range : forall a o, bl_init a = Ok o -> a_omega a = OmIdzorek -> forall i, (i < length (bl_Q o))%nat -> 0 <= nth i (conf_list (a_conf a)) 0 <= 1.
Proof. intros a o H HO i Hi. pose proof (omega_inv a o H) as H1. rewrite HO in H1. apply idzorek_inv in H1. apply H1. exact Hi. Qed.
Lemma omega_scale_free : forall a o, bl_init a = Ok o -> scale_free a (length (bl_Q o)) ->
  bl_omega o = diag_matrix (length (bl_Q o)) (fun i => bl_tau o * rel_omega a (bl_n o) (bl_sigma o) (bl_P o) i).
Proof.
  intros a o H Hf. pose proof (omega_inv a o H) as Ho. unfold rel_omega. destruct Hf as [E|[E Hp]]; rewrite E in *.
  - exact Ho.
  - apply idzorek_inv in Ho. destruct Ho as (_ & _ & Ho). rewrite Ho at 1. unfold diag_matrix, array. apply map_ext_in. intros i Hi. apply map_ext_in. intros j Hj.
    apply in_seq in Hi. destruct (Nat.eqb i j); [|reflexivity].
    destruct (Reqb (nth i (conf_list (a_conf a)) 0) 0) eqn:E0; [|ring]. apply Reqb_true in E0. specialize (Hp i). rewrite E0 in Hp. assert (0 < 0) by (apply Hp; lia). lra.
Qed.
Lemma rel_omega_nonneg : forall a o, bl_init a = Ok o -> scale_free a (length (bl_Q o)) -> psd (bl_n o) (bl_sigma o) ->
  forall i, (i < length (bl_Q o))%nat -> 0 <= rel_omega a (bl_n o) (bl_sigma o) (bl_P o) i.
Proof.
  intros a o H Hf Hp i Hi. unfold rel_omega. pose proof (view_variance_nonneg (bl_n o) (bl_sigma o) (bl_P o) i Hp).
  destruct Hf as [E|[E Hc]]; rewrite E; [assumption|]. apply Rmult_le_pos; [|assumption]. apply idz_nonneg. pose proof (conf_range a o H E i Hi). specialize (Hc i Hi). lra.
Qed.
Lemma init_regular : forall a o, bl_init a = Ok o -> a_omega a = OmDefault \/ a_omega a = OmIdzorek ->
  psd (bl_n o) (bl_sigma o) -> symmetric (bl_n o) (bl_sigma o) -> regular (bl_n o) (length (bl_Q o)) o.
Proof.
  intros a o H Hf Hp Hs. pose proof (init_wf a o H) as W. pose proof (omega_inv a o H) as Ho.
  assert (Ht : 0 < bl_tau o) by (apply W).
  constructor; auto.
  - destruct Hf as [E|E]; rewrite E in Ho.
    + rewrite Ho. apply diag_psd. intros i Hi. apply Rmult_le_pos; [lra|]. apply view_variance_nonneg. exact Hp.
    + apply idzorek_inv in Ho. destruct Ho as (_ & Hc & ->). apply diag_psd. intros i Hi. specialize (Hc i Hi). destruct (Reqb _ 0) eqn:E0; [simpl; lra|]. apply Reqb_false in E0.
      apply Rmult_le_pos; [|apply view_variance_nonneg; exact Hp]. apply Rmult_le_pos; [lra|]. apply idz_nonneg. lra.
  - destruct Hf as [E|E]; rewrite E in Ho.
    + rewrite Ho. apply diag_symmetric.
    + apply idzorek_inv in Ho. destruct Ho as (_ & _ & ->). apply diag_symmetric.
Qed.

(** ** C58: a single view *)
Theorem single_view : forall la n o, exact_linalg la -> regular n 1 o -> caches_ok la o ->
  let p := nth 0 (bl_P o) [] in let v := bl_tau o * qform (bl_sigma o) p in
  0 < v ->
  inner p (snd (bl_returns la o)) = inner p (bl_pi o) + v / (v + entry (bl_omega o) 0 0) * (nth 0 (bl_Q o) 0 - inner p (bl_pi o)).
Proof.
  intros la n o Hla Hr Hc p v Hv. pose proof (rg_wf n 1 o Hr) as W. destruct (returns_char la n 1 o Hla Hr Hc) as (s & _ & Hs & HL & Hm).
  assert (Hp : length p = n) by (apply (shaped_row 1 n); [apply (wf_P n 1 o W)|lia]).
  assert (Ev : v = bil n (oS o) (entry (bl_P o) 0) (entry (bl_P o) 0)).
  { unfold v. rewrite (oS_bil n), (qform_bil n) by (auto; apply (rg_sigma n 1 o Hr)). reflexivity. }
  assert (HT : sumn n (fun i => entry (bl_P o) 0 i * oT o i 0%nat) = v).
  { rewrite Ev, (oT_core n 1 o Hr). reflexivity. }
  assert (HA : oA o 0%nat 0%nat = v + entry (bl_omega o) 0 0).
  { rewrite (oA_core n 1 o Hr). unfold sysA. rewrite <- (oT_core n 1 o Hr). rewrite HT. reflexivity. }
  assert (Hom : 0 <= entry (bl_omega o) 0 0).
  { pose proof (oOm_psd n 1 o Hr (fun _ => 1)) as H. unfold bil in H. cbn [sumn] in H. lra. }
  assert (E : oA o 0%nat 0%nat * s 0%nat = ob o 0%nat).
  { assert (H1 : app 1 (oA o) s 0%nat = ob o 0%nat).
    { apply Hs; [|lia]. exists (fun _ => ob o 0%nat / oA o 0%nat 0%nat). intros a Ha. assert (a = 0%nat) by lia. subst a. unfold app. cbn [sumn]. rewrite HA. field. lra. }
    unfold app in H1. cbn [sumn] in H1. lra. }
  assert (Hpi : length (bl_pi o) = n) by (apply (wf_pi n 1 o W)).
  rewrite (inner_vec n p _ Hp HL), (inner_vec n p _ Hp Hpi).
  rewrite (sumn_ext n _ (fun i => vec p i * vec (bl_pi o) i + entry (bl_P o) 0 i * oT o i 0%nat * s 0%nat)).
  2: { intros i Hi. rewrite Hm by exact Hi. unfold app. cbn [sumn]. unfold entry, vec, p. ring. }
  rewrite sumn_plus, sumn_scal_r, HT. f_equal. rewrite HA in E.
  assert (Eb : ob o 0%nat = nth 0 (bl_Q o) 0 - sumn n (fun i => vec p i * vec (bl_pi o) i)).
  { unfold ob, vec at 1. rewrite (wf_n n 1 o W). reflexivity. }
  rewrite <- Eb, <- E. field. lra.
Qed.
Theorem idzorek_single : forall la a o c, exact_linalg la -> bl_init a = Ok o -> a_omega a = OmIdzorek -> length (bl_Q o) = 1%nat ->
  nth_error (conf_list (a_conf a)) 0 = Some c -> psd (bl_n o) (bl_sigma o) -> symmetric (bl_n o) (bl_sigma o) ->
  let p := nth 0 (bl_P o) [] in
  0 < qform (bl_sigma o) p ->
  (0 < c -> inner p (snd (bl_returns la o)) = (1 - c) * inner p (bl_pi o) + c * nth 0 (bl_Q o) 0) /\
  (c = 0 -> inner p (snd (bl_returns la o)) = inner p (bl_pi o) +
     bl_tau o * qform (bl_sigma o) p / (bl_tau o * qform (bl_sigma o) p + 10 ^ 6) * (nth 0 (bl_Q o) 0 - inner p (bl_pi o))).
Proof.
  intros la a o c Hla H HO HK Hc Hp Hs p Hv. pose proof (init_wf a o H) as W. pose proof (init_regular a o H (or_intror HO) Hp Hs) as Hr.
  pose proof (conf_range a o H HO O) as Hcr. rewrite HK in *. specialize (Hcr Nat.lt_0_1). rewrite (nth_error_nth _ _ 0 Hc) in Hcr.
  pose proof (wf_tau _ _ o W) as Ht.
  assert (Hv' : 0 < bl_tau o * qform (bl_sigma o) p) by (apply Rmult_lt_0_compat; lra).
  pose proof (single_view la (bl_n o) o Hla Hr (init_caches la a o H) Hv') as E. cbv zeta in E. fold p in E.
  pose proof (omega_inv a o H) as Ho. rewrite HO in Ho. rewrite HK in Ho. apply idzorek_inv in Ho. destruct Ho as (_ & _ & Ho).
  assert (Eo : entry (bl_omega o) 0 0 = if Reqb c 0 then 10 ^ 6 else bl_tau o * idz c * qform (bl_sigma o) p).
  { rewrite Ho, diag_entry by lia. cbn [Nat.eqb]. rewrite (nth_error_nth _ _ 0 Hc). rewrite (view_variance_qform (bl_n o) 1) by (try lia; apply W). reflexivity. }
  rewrite Eo in E. split; intros Hc0.
  - rewrite (proj2 (Reqb_false c 0)) in E by lra. rewrite E.
    replace (bl_tau o * qform (bl_sigma o) p / (bl_tau o * qform (bl_sigma o) p + bl_tau o * idz c * qform (bl_sigma o) p)) with c; [ring|].
    unfold idz. set (q := qform (bl_sigma o) p) in *. field. split; [lra|]. nra.
  - rewrite (proj2 (Reqb_true c 0)) in E by exact Hc0. exact E.
Qed.
Theorem zero_confidence : forall la a o, exact_linalg la -> bl_init a = Ok o -> a_omega a = OmIdzorek -> length (bl_Q o) = 1%nat ->
  nth_error (conf_list (a_conf a)) 0 = Some 0 -> psd (bl_n o) (bl_sigma o) -> symmetric (bl_n o) (bl_sigma o) ->
  let p := nth 0 (bl_P o) [] in
  0 < qform (bl_sigma o) p -> nth 0 (bl_Q o) 0 <> inner p (bl_pi o) ->
  inner p (snd (bl_returns la o)) <> inner p (bl_pi o).
Proof.
  intros la a o Hla H HO HK Hc Hp Hs p Hv Hne. destruct (idzorek_single la a o 0 Hla H HO HK Hc Hp Hs Hv) as [_ E]. specialize (E eq_refl). fold p in E.
  pose proof (wf_tau _ _ o (init_wf a o H)) as Ht. assert (Hv' : 0 < bl_tau o * qform (bl_sigma o) p) by (apply Rmult_lt_0_compat; lra).
  rewrite E. set (v := bl_tau o * qform (bl_sigma o) p) in *. intros E0.
  assert (H0 : v / (v + 10 ^ 6) * (nth 0 (bl_Q o) 0 - inner p (bl_pi o)) = 0) by lra.
  apply Rmult_integral in H0. destruct H0 as [H0|H0]; [|lra].
  assert (0 < v / (v + 10 ^ 6)) by (apply Rdiv_lt_0_compat; [exact Hv'|]; assert (0 < 10 ^ 6) by (apply pow_lt; lra); lra). lra.
Qed.
