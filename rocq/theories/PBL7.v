(** * tau (C59) *)
From Coq Require Import List Reals Lra Lia Arith Bool.
From Verif Require Import Num Py RBase PyLemmas MBase SLin SBL Sums Mat MRisk MBL PCov1 PCov2 PHRP2 PBL1 PBL2 PBL3 PBL4 PBL6.
Import ListNotations.
Local Open Scope R_scope.

Section Tau.
  Variables (la : linalg) (a : bl_args) (t1 t2 : R) (o1 o2 : bl).
  Hypothesis Hla : exact_linalg la.
  Hypothesis H1 : bl_init (with_tau a t1) = Ok o1.
  Hypothesis H2 : bl_init (with_tau a t2) = Ok o2.
  Lemma tau_same : bl_n o2 = bl_n o1 /\ bl_sigma o2 = bl_sigma o1 /\ bl_Q o2 = bl_Q o1 /\ bl_P o2 = bl_P o1 /\ bl_pi o2 = bl_pi o1 /\ bl_tau o1 = t1 /\ bl_tau o2 = t2.
  Proof.
    destruct (bl_init_inv _ _ H1) as (E1 & E2 & _ & E4 & _ & _ & _ & EV & EP & _).
    destruct (bl_init_inv _ _ H2) as (F1 & F2 & _ & F4 & _ & _ & _ & FV & FP & _).
    cbn [with_tau a_cov a_views a_Q a_P a_pi a_ra a_caps a_rf a_tau] in *. rewrite EV in FV. rewrite EP in FP.
    injection FV as -> ->. injection FP as ->. rewrite E1, E2, F1, F2. auto 10.
  Qed.
  Let n := bl_n o1.
  Let k := length (bl_Q o1).
  Hypothesis Hf : scale_free a k.
  Hypothesis Hp : psd n (bl_sigma o1).
  Hypothesis Hs : symmetric n (bl_sigma o1).

  Definition w0 := rel_omega a n (bl_sigma o1) (bl_P o1).
  Definition T0 := sysT n (entry (bl_sigma o1)) (entry (bl_P o1)).
  Definition A0 := sysA n (entry (bl_sigma o1)) (entry (bl_P o1)) (entry (diag_matrix k w0)).

  Lemma scale_free_tau : forall t, scale_free (with_tau a t) k.
  Proof. intros t. exact Hf. Qed.
  Lemma omega_tau : bl_omega o1 = diag_matrix k (fun i => t1 * w0 i) /\ bl_omega o2 = diag_matrix k (fun i => t2 * w0 i).
  Proof.
    destruct tau_same as (En & Es & EQ & EP & _ & Et1 & Et2). split.
    - rewrite (omega_scale_free _ _ H1 (scale_free_tau t1)). rewrite Et1. reflexivity.
    - rewrite (omega_scale_free _ _ H2) by (rewrite EQ; exact (scale_free_tau t2)). rewrite EQ, Et2, En, Es, EP. reflexivity.
  Qed.
  Lemma w0_nonneg : forall i, (i < k)%nat -> 0 <= w0 i.
  Proof. intros i Hi. exact (rel_omega_nonneg _ _ H1 (scale_free_tau t1) Hp i Hi). Qed.
  Lemma om_kind : a_omega a = OmDefault \/ a_omega a = OmIdzorek.
  Proof. destruct Hf as [E|[E _]]; auto. Qed.
  Lemma reg1 : regular n k o1.
  Proof. exact (init_regular _ _ H1 om_kind Hp Hs). Qed.
  Lemma reg2 : regular n k o2.
  Proof.
    destruct tau_same as (En & Es & EQ & _). unfold n, k. rewrite <- EQ, <- En.
    apply (init_regular _ _ H2 om_kind); rewrite En, Es; [exact Hp|exact Hs].
  Qed.
  Lemma T_tau : (forall i b, oT o1 i b = t1 * T0 i b) /\ (forall i b, oT o2 i b = t2 * T0 i b).
  Proof.
    destruct tau_same as (En & Es & EQ & EP & _ & Et1 & Et2). split; intros i b.
    - unfold oT, T0, sysT, oS. rewrite Et1, <- sumn_scal. apply sumn_ext. intros; ring.
    - unfold oT, T0, sysT, oS. rewrite Et2, En, Es, EP, <- sumn_scal. apply sumn_ext. intros; ring.
  Qed.
  Lemma A_tau : (forall b c, (b < k)%nat -> (c < k)%nat -> oA o1 b c = t1 * A0 b c) /\ (forall b c, (b < k)%nat -> (c < k)%nat -> oA o2 b c = t2 * A0 b c).
  Proof.
    destruct tau_same as (En & Es & EQ & EP & _ & Et1 & Et2). destruct T_tau as [HT1 HT2]. destruct omega_tau as [O1 O2]. split; intros b c Hb Hc.
    - unfold oA, A0, sysA. change (sysT (bl_n o1) (oS o1) (entry (bl_P o1))) with (oT o1). rewrite O1, !diag_entry by assumption.
      rewrite Rmult_plus_distr_l, <- sumn_scal. f_equal; [apply sumn_ext; intros; rewrite HT1; unfold T0; ring|destruct (Nat.eqb b c); ring].
    - unfold oA, A0, sysA. change (sysT (bl_n o2) (oS o2) (entry (bl_P o2))) with (oT o2). rewrite O2, !diag_entry by assumption.
      rewrite Rmult_plus_distr_l, <- sumn_scal, En, EP. f_equal; [apply sumn_ext; intros; rewrite HT2; unfold T0; ring|destruct (Nat.eqb b c); ring].
  Qed.
  Lemma app_A1 : forall x b, (b < k)%nat -> app k (oA o1) x b = t1 * app k A0 x b.
  Proof. intros x b Hb. unfold app. rewrite <- sumn_scal. apply sumn_ext. intros c Hc. rewrite (proj1 A_tau) by assumption. ring. Qed.
  Lemma app_A2 : forall x b, (b < k)%nat -> app k (oA o2) x b = t2 * app k A0 x b.
  Proof. intros x b Hb. unfold app. rewrite <- sumn_scal. apply sumn_ext. intros c Hc. rewrite (proj2 A_tau) by assumption. ring. Qed.
  Lemma app_T1 : forall x i, app k (oT o1) x i = t1 * app k T0 x i.
  Proof. intros x i. unfold app. rewrite <- sumn_scal. apply sumn_ext. intros c Hc. rewrite (proj1 T_tau). ring. Qed.
  Lemma app_T2 : forall x i, app k (oT o2) x i = t2 * app k T0 x i.
  Proof. intros x i. unfold app. rewrite <- sumn_scal. apply sumn_ext. intros c Hc. rewrite (proj2 T_tau). ring. Qed.
  Lemma t_pos : 0 < t1 /\ 0 < t2.
  Proof.
    destruct tau_same as (_ & _ & _ & _ & _ & Et1 & Et2). split; [rewrite <- Et1|rewrite <- Et2]; [apply (wf_tau n k o1 (rg_wf n k o1 reg1))|apply (wf_tau n k o2 (rg_wf n k o2 reg2))].
  Qed.
  Lemma Sig_psd : psdf n (entry (bl_sigma o1)).
  Proof. intros x. apply psd_bil, Hp. Qed.
  Lemma W_psd : psdf k (entry (diag_matrix k w0)).
  Proof. intros x. apply psd_bil, diag_psd, w0_nonneg. Qed.
  Lemma A0_sym : sym k A0.
  Proof. apply A_sym; [exact Hs|apply diag_symmetric]. Qed.

  Theorem tau_returns : snd (bl_returns la o1) = snd (bl_returns la o2).
  Proof.
    destruct tau_same as (En & Es & EQ & EP & Epi & Et1 & Et2). destruct t_pos as [P1 P2].
    destruct (returns_char la n k o1 Hla reg1 (init_caches la _ _ H1)) as (s1 & N1 & _ & L1 & V1).
    destruct (returns_char la n k o2 Hla reg2 (init_caches la _ _ H2)) as (s2 & N2 & _ & L2 & V2).
    assert (Eb : forall c, ob o2 c = ob o1 c) by (intros c; unfold ob; rewrite EQ, En, EP, Epi; reflexivity).
    set (y := fun c => t1 * s1 c - t2 * s2 c).
    assert (Hy2 : forall b, (b < k)%nat -> app k A0 (app k A0 y) b = 0).
    { intros b Hb.
      assert (F1 : app k A0 (fun c => t1 * app k A0 s1 c - ob o1 c) b = 0).
      { specialize (N1 b Hb). rewrite app_A1 in N1 by exact Hb.
        rewrite (app_ext k A0 _ (fun c => t1 * app k A0 s1 c - ob o1 c)) in N1 by (intros c Hc; rewrite app_A1 by exact Hc; reflexivity).
        apply Rmult_integral in N1. destruct N1; [lra|assumption]. }
      assert (F2 : app k A0 (fun c => t2 * app k A0 s2 c - ob o1 c) b = 0).
      { specialize (N2 b Hb). rewrite app_A2 in N2 by exact Hb.
        rewrite (app_ext k A0 _ (fun c => t2 * app k A0 s2 c - ob o1 c)) in N2 by (intros c Hc; rewrite app_A2, Eb by exact Hc; reflexivity).
        apply Rmult_integral in N2. destruct N2; [lra|assumption]. }
      rewrite (app_ext k A0 (app k A0 y) (fun c => (t1 * app k A0 s1 c - ob o1 c) - (t2 * app k A0 s2 c - ob o1 c))).
      - rewrite app_minus, F1, F2. ring.
      - intros c Hc. unfold y. rewrite app_minus, !app_scal. ring. }
    assert (Hy1 : forall b, (b < k)%nat -> app k A0 y b = 0).
    { apply sumn_sq_zero. change (bil k A0 (app k A0 y) y = 0). rewrite bil_sym by exact A0_sym. rewrite bil_app. apply sumn_zero. intros b Hb. rewrite Hy2 by exact Hb. ring. }
    apply (vec_ext n); [exact L1|exact L2|]. intros i Hi. rewrite V1, V2, Epi by exact Hi. f_equal. rewrite app_T1, app_T2.
    pose proof (A_null n k (entry (bl_sigma o1)) (entry (bl_P o1)) (entry (diag_matrix k w0)) Hs Sig_psd W_psd y Hy1 i Hi) as E. fold T0 in E.
    unfold y in E. rewrite app_minus, !app_scal in E. lra.
  Qed.

  (** the posterior variance of a portfolio is linear in tau *)
  Lemma tau_variance : forall w : nat -> R, exists r s,
    (forall b, (b < k)%nat -> app k A0 s b = sumn n (fun i => T0 i b * w i)) /\ r = sumn n (fun i => w i * app k T0 s i) /\
    bil n (entry (snd (bl_cov la o1))) w w = bil n (entry (bl_sigma o1)) w w + t1 * (bil n (entry (bl_sigma o1)) w w - r) /\
    bil n (entry (snd (bl_cov la o2))) w w = bil n (entry (bl_sigma o1)) w w + t2 * (bil n (entry (bl_sigma o1)) w w - r).
  Proof.
    intros w. destruct tau_same as (En & Es & EQ & EP & Epi & Et1 & Et2). destruct t_pos as [P1 P2].
    destruct (cov_form la n k o1 Hla reg1 (init_caches la _ _ H1) w) as (s1 & S1 & E1).
    destruct (cov_form la n k o2 Hla reg2 (init_caches la _ _ H2) w) as (s2 & S2 & E2).
    assert (F1 : forall b, (b < k)%nat -> app k A0 s1 b = sumn n (fun i => T0 i b * w i)).
    { intros b Hb. specialize (S1 b Hb). rewrite app_A1 in S1 by exact Hb. rewrite (sumn_ext n _ (fun i => t1 * (T0 i b * w i))) in S1 by (intros; rewrite (proj1 T_tau); ring).
      rewrite sumn_scal in S1. apply Rmult_eq_reg_l in S1; [exact S1|lra]. }
    assert (F2 : forall b, (b < k)%nat -> app k A0 s2 b = sumn n (fun i => T0 i b * w i)).
    { intros b Hb. specialize (S2 b Hb). rewrite app_A2 in S2 by exact Hb. rewrite (sumn_ext n _ (fun i => t2 * (T0 i b * w i))) in S2 by (intros; rewrite (proj2 T_tau); ring).
      rewrite sumn_scal in S2. apply Rmult_eq_reg_l in S2; [exact S2|lra]. }
    exists (sumn n (fun i => w i * app k T0 s1 i)), s1. split; [exact F1|]. split; [reflexivity|]. split.
    - rewrite E1. rewrite (oS_bil n), Et1. rewrite (sumn_ext n _ (fun i => t1 * (w i * app k T0 s1 i))) by (intros; rewrite app_T1; ring). rewrite sumn_scal. ring.
    - rewrite E2. rewrite (oS_bil n), Et2, Es. rewrite (sumn_ext n _ (fun i => t2 * (w i * app k T0 s1 i))).
      + rewrite sumn_scal. ring.
      + intros i Hi. rewrite app_T2. rewrite (T_unique n k (entry (bl_sigma o1)) (entry (bl_P o1)) (entry (diag_matrix k w0)) Hs Sig_psd W_psd s2 s1); [unfold T0; ring| |exact Hi].
        intros b Hb. fold A0. rewrite F1, F2 by exact Hb. reflexivity.
  Qed.
  (** a risky view has positive relative uncertainty *)
  Hypothesis Hunc : a_omega a = OmIdzorek -> forall i, (i < k)%nat -> nth i (conf_list (a_conf a)) 0 < 1.
  Theorem tau_covariance : t1 <> t2 -> forall w, length w = n -> 0 < qform (bl_sigma o1) w -> qform (snd (bl_cov la o1)) w <> qform (snd (bl_cov la o2)) w.
  Proof.
    intros Hne w Hw Hv. destruct (cov_char la n k o1 Hla reg1 (init_caches la _ _ H1)) as (_ & _ & C1 & _).
    destruct (cov_char la n k o2 Hla reg2 (init_caches la _ _ H2)) as (_ & _ & C2 & _).
    rewrite (qform_bil n _ _ C1 Hw), (qform_bil n _ _ C2 Hw). rewrite (qform_bil n _ _ (proj1 Hp) Hw) in Hv.
    destruct (tau_variance (vec w)) as (r & s & F & Er & V1 & V2). rewrite V1, V2. intros E.
    assert (E0 : (t1 - t2) * (bil n (entry (bl_sigma o1)) (vec w) (vec w) - r) = 0) by lra.
    apply Rmult_integral in E0. destruct E0 as [E0|E0]; [lra|].
    destruct (reduction_strict n k (entry (bl_sigma o1)) (entry (bl_P o1)) (entry (diag_matrix k w0)) Hs Sig_psd W_psd s (vec w)) as [HO HN]; [exact F|exact Hv|unfold T0 in Er; lra|].
    apply HN. rewrite diag_bil in HO. rewrite <- T_cross.
    assert (HZ : forall b, (b < k)%nat -> s b = 0 \/ forall i, (i < n)%nat -> T0 i b = 0).
    { intros b Hb. destruct (Req_dec (s b) 0) as [Es|Es]; [left; exact Es|right].
      assert (Hnn : forall c, (c < k)%nat -> 0 <= w0 c * (s c * s c)) by (intros c Hc; apply Rmult_le_pos; [apply w0_nonneg; exact Hc|apply Rle_0_sqr]).
      pose proof (sumn_term_le k (fun c => w0 c * (s c * s c)) b Hnn Hb) as Hle. cbv beta in Hle. rewrite HO in Hle. specialize (Hnn b Hb).
      assert (Hw0 : w0 b = 0) by (assert (0 < s b * s b) by (destruct (Rdichotomy _ _ Es); nra); nra).
      assert (Hvb : view_variance n (bl_sigma o1) (bl_P o1) b b = 0).
      { unfold w0, rel_omega in Hw0. destruct Hf as [EO|[EO Hc]]; rewrite EO in Hw0; [exact Hw0|].
        apply Rmult_integral in Hw0. destruct Hw0 as [Hw0|Hw0]; [exfalso|exact Hw0]. specialize (Hc b Hb). specialize (Hunc EO b Hb).
        unfold idz in Hw0. assert (0 < (1 - nth b (conf_list (a_conf a)) 0) / nth b (conf_list (a_conf a)) 0) by (apply Rdiv_lt_0_compat; lra). lra. }
      rewrite view_variance_bil in Hvb. intros i Hi. exact (null_app n (entry (bl_sigma o1)) (entry (bl_P o1) b) i Sig_psd Hs Hvb Hi). }
    apply sumn_zero. intros i Hi. unfold app at 1. rewrite (sumn_zero k); [ring|]. intros b Hb. destruct (HZ b Hb) as [->|E']; [ring|]. change (T0 i b * s b = 0). rewrite E' by exact Hi. ring.
  Qed.
End Tau.

(** with a zero confidence the posterior depends on tau *)
Theorem tau_zero_confidence : forall la a t1 t2 o1 o2, exact_linalg la -> bl_init (with_tau a t1) = Ok o1 -> bl_init (with_tau a t2) = Ok o2 ->
  a_omega a = OmIdzorek -> length (bl_Q o1) = 1%nat -> nth_error (conf_list (a_conf a)) 0 = Some 0 ->
  psd (bl_n o1) (bl_sigma o1) -> symmetric (bl_n o1) (bl_sigma o1) ->
  0 < qform (bl_sigma o1) (nth 0 (bl_P o1) []) -> nth 0 (bl_Q o1) 0 <> inner (nth 0 (bl_P o1) []) (bl_pi o1) ->
  t1 <> t2 -> snd (bl_returns la o1) <> snd (bl_returns la o2).
Proof.
  intros la a t1 t2 o1 o2 Hla H1 H2 HO HK Hc Hp Hs Hv Hne Ht E.
  destruct (tau_same a t1 t2 o1 o2 H1 H2) as (En & Es & EQ & EP & Epi & Et1 & Et2).
  destruct (idzorek_single la _ o1 0 Hla H1 HO HK Hc Hp Hs Hv) as [_ F1]. specialize (F1 eq_refl).
  assert (F2 := idzorek_single la _ o2 0 Hla H2 HO). rewrite EQ, En, Es, EP, Epi in F2. specialize (F2 HK Hc Hp Hs). cbv zeta in F2. specialize (F2 Hv).
  destruct F2 as [_ F2]. specialize (F2 eq_refl). rewrite <- E, F1 in F2. rewrite Et1, Et2 in F2.
  pose proof (wf_tau _ _ o1 (init_wf _ _ H1)) as P1. pose proof (wf_tau _ _ o2 (init_wf _ _ H2)) as P2. rewrite Et1 in P1. rewrite Et2 in P2.
  set (v := qform (bl_sigma o1) (nth 0 (bl_P o1) [])) in *. set (d := nth 0 (bl_Q o1) 0 - inner (nth 0 (bl_P o1) []) (bl_pi o1)) in *.
  assert (Hd : d <> 0) by (unfold d; lra).
  assert (F3 : t1 * v / (t1 * v + 10 ^ 6) * d = t2 * v / (t2 * v + 10 ^ 6) * d) by lra. apply Rmult_eq_reg_r in F3; [|exact Hd].
  assert (0 < 10 ^ 6) by (apply pow_lt; lra). set (M := 10 ^ 6) in *. assert (0 < t1 * v) by (apply Rmult_lt_0_compat; lra). assert (0 < t2 * v) by (apply Rmult_lt_0_compat; lra).
  assert (F4 : t1 * v * (t2 * v + M) = t2 * v * (t1 * v + M)).
  { replace (t1 * v * (t2 * v + M)) with (t1 * v / (t1 * v + M) * ((t1 * v + M) * (t2 * v + M))) by (field; lra). rewrite F3. field. lra. }
  apply Ht. assert (F5 : (t1 - t2) * (v * M) = 0) by lra. apply Rmult_integral in F5. destruct F5 as [F5|F5]; [lra|]. assert (0 < v * M) by (apply Rmult_lt_0_compat; lra). lra.
Qed.
