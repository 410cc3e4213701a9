(** * Restating the views of a Black-Litterman model, over functions and over objects (C122) *)
From Coq Require Import List Reals Lra Lia Arith Bool.
From Verif Require Import Num Py RBase PyLemmas MBase SLin SBL Sums Mat MRisk MBL PCov1 PCov2 PBL1 PBL2 PBL3 PBL4.
Import ListNotations.
Local Open Scope R_scope.

Section Restate.
  Variables (n k k' : nat) (S P Om P' Om' D : nat -> nat -> R).
  Hypothesis S_sym : sym n S.
  Hypothesis S_psd : psdf n S.
  Hypothesis Om_sym : sym k Om.
  Hypothesis Om_psd : psdf k Om.
  Hypothesis HP : forall a j, (a < k')%nat -> (j < n)%nat -> P' a j = sumn k (fun b => D a b * P b j).
  Hypothesis HO : forall a c, (a < k')%nat -> (c < k')%nat -> Om' a c = sumn k (fun i => D a i * sumn k (fun j => Om i j * D c j)).
  Hypothesis D_inj : forall x, (forall a, (a < k')%nat -> app k D x a = 0) -> forall b, (b < k)%nat -> x b = 0.
  Definition back (s : nat -> R) (b : nat) : R := sumn k' (fun a => D a b * s a).

  Lemma back_adjoint : forall s x, sumn k' (fun a => s a * app k D x a) = sumn k (fun b => back s b * x b).
  Proof.
    intros s x. unfold app, back.
    rewrite (sumn_ext k' _ (fun a => sumn k (fun j => D a j * s a * x j))).
    2: { intros a _. rewrite <- sumn_scal. apply sumn_ext. intros; ring. }
    rewrite sumn_swap. apply sumn_ext. intros j _. rewrite sumn_scal_r. reflexivity.
  Qed.
  Lemma rows_back : forall s j, (j < n)%nat -> rows k' P' s j = rows k P (back s) j.
  Proof.
    intros s j Hj. unfold rows, back.
    rewrite (sumn_ext k' _ (fun a => sumn k (fun b => P b j * (D a b * s a)))).
    2: { intros a Ha. rewrite HP by assumption. rewrite <- sumn_scal_r. apply sumn_ext. intros; ring. }
    rewrite sumn_swap. apply sumn_ext. intros b _. rewrite sumn_scal. reflexivity.
  Qed.
  Lemma app_P' : forall x a, (a < k')%nat -> app n P' x a = app k D (app n P x) a.
  Proof.
    intros x a Ha. unfold app.
    rewrite (sumn_ext n _ (fun j => sumn k (fun b => D a b * (P b j * x j)))).
    2: { intros j Hj. rewrite HP by assumption. rewrite <- sumn_scal_r. apply sumn_ext. intros; ring. }
    rewrite sumn_swap. apply sumn_ext. intros b _. rewrite sumn_scal. reflexivity.
  Qed.
  Lemma app_Om' : forall s a, (a < k')%nat -> app k' Om' s a = app k D (app k Om (back s)) a.
  Proof.
    intros s a Ha. unfold app, back.
    rewrite (sumn_ext k' _ (fun c => sumn k (fun i => D a i * sumn k (fun j => Om i j * (D c j * s c))))).
    2: { intros c Hc. rewrite HO by assumption. rewrite <- sumn_scal_r. apply sumn_ext. intros i _. rewrite Rmult_assoc. f_equal.
         rewrite <- sumn_scal_r. apply sumn_ext. intros; ring. }
    rewrite sumn_swap. apply sumn_ext. intros i _. rewrite sumn_scal. f_equal. rewrite sumn_swap. apply sumn_ext. intros j _.
    rewrite sumn_scal. reflexivity.
  Qed.
  Lemma sysA_back : forall s a, (a < k')%nat -> app k' (sysA n S P' Om') s a = app k D (app k (sysA n S P Om) (back s)) a.
  Proof.
    intros s a Ha. rewrite A_apply. rewrite app_P', app_Om' by exact Ha. rewrite <- app_plus. apply app_ext. intros b Hb.
    rewrite A_apply. f_equal. apply app_ext. intros i Hi. apply app_ext. intros j Hj. apply rows_back, Hj.
  Qed.
  Lemma sysT_back : forall s i, app k' (sysT n S P') s i = app k (sysT n S P) (back s) i.
  Proof. intros s i. rewrite !T_apply. apply app_ext. intros j Hj. apply rows_back, Hj. Qed.
  Lemma sysT_row : forall i a, (a < k')%nat -> sysT n S P' i a = app k D (fun b => sysT n S P i b) a.
  Proof.
    intros i a Ha. unfold sysT, app.
    rewrite (sumn_ext n _ (fun j => sumn k (fun b => D a b * (S i j * P b j)))).
    2: { intros j Hj. rewrite HP by assumption. rewrite <- sumn_scal. apply sumn_ext. intros; ring. }
    rewrite sumn_swap. apply sumn_ext. intros b _. rewrite sumn_scal. reflexivity.
  Qed.
  Lemma Om'_sym : sym k' Om'.
  Proof.
    intros a c Ha Hc. rewrite !HO by assumption.
    rewrite (sumn_ext k _ (fun i => sumn k (fun j => D a i * (Om i j * D c j)))) by (intros; rewrite sumn_scal; reflexivity).
    rewrite sumn_swap. apply sumn_ext. intros j Hj. rewrite <- sumn_scal. apply sumn_ext. intros i Hi.
    rewrite (Om_sym i j) by assumption. ring.
  Qed.
  Lemma Om'_bil : forall x, bil k' Om' x x = bil k Om (back x) (back x).
  Proof.
    intros x. rewrite !bil_app. rewrite (sumn_ext k' _ (fun a => x a * app k D (app k Om (back x)) a)).
    2: { intros a Ha. rewrite app_Om' by exact Ha. reflexivity. }
    apply back_adjoint.
  Qed.
  Lemma Om'_psd : psdf k' Om'.
  Proof. intros x. rewrite Om'_bil. apply Om_psd. Qed.

  (** the two systems lead to the same posterior *)
  Lemma same_solution : forall b s s', (forall a, (a < k)%nat -> app k (sysA n S P Om) s a = b a) ->
    (forall a, (a < k')%nat -> app k' (sysA n S P' Om') s' a = app k D b a) ->
    forall i, (i < n)%nat -> app k' (sysT n S P') s' i = app k (sysT n S P) s i.
  Proof.
    intros b s s' H H' i Hi. rewrite sysT_back. apply (T_unique n k S P Om); try assumption. intros a Ha. rewrite H by exact Ha.
    assert (E : app k (sysA n S P Om) (back s') a - b a = 0); [|lra].
    apply (D_inj (fun c => app k (sysA n S P Om) (back s') c - b c)); [|exact Ha]. intros c Hc. rewrite app_minus.
    rewrite <- sysA_back by exact Hc. rewrite H' by exact Hc. ring.
  Qed.
  Lemma still_solvable : forall b s, (forall a, (a < k)%nat -> app k (sysA n S P Om) s a = b a) ->
    exists s', forall a, (a < k')%nat -> app k' (sysA n S P' Om') s' a = app k D b a.
  Proof.
    intros b s H. apply psd_solvable; [apply (A_sym n k' S P' Om' S_sym Om'_sym)|apply (A_psd n k' S P' Om' S_psd Om'_psd)|].
    intros z Hz. rewrite back_adjoint.
    assert (Hn : forall a, (a < k)%nat -> app k (sysA n S P Om) (back z) a = 0).
    { apply D_inj. intros a Ha. rewrite <- sysA_back by exact Ha. apply Hz, Ha. }
    rewrite (sumn_ext k _ (fun a => back z a * app k (sysA n S P Om) s a)) by (intros a Ha; rewrite H by exact Ha; reflexivity).
    rewrite <- bil_app. rewrite bil_sym by (apply (A_sym n k S P Om S_sym Om_sym)). rewrite bil_app. apply sumn_zero. intros a Ha.
    rewrite Hn by exact Ha. ring.
  Qed.
  (** least squares as well, when the recombination preserves lengths *)
  Hypothesis D_orth : forall u b, (b < k)%nat -> back (app k D u) b = u b.
  Lemma same_normal : forall b s s', (forall a, (a < k)%nat -> app k (sysA n S P Om) (fun c => app k (sysA n S P Om) s c - b c) a = 0) ->
    (forall a, (a < k')%nat -> app k' (sysA n S P' Om') (fun c => app k' (sysA n S P' Om') s' c - app k D b c) a = 0) ->
    forall i, (i < n)%nat -> app k' (sysT n S P') s' i = app k (sysT n S P) s i.
  Proof.
    intros b s s' H H' i Hi. rewrite sysT_back. set (t := back s'). set (A := sysA n S P Om) in *.
    assert (Hu : forall a, (a < k)%nat -> app k A (fun c => app k A t c - b c) a = 0).
    { apply D_inj. intros a Ha. rewrite <- (H' a Ha). rewrite sysA_back by exact Ha. apply app_ext. intros c Hc. apply app_ext. intros e He.
      rewrite <- (D_orth (fun c => app k A t c - b c) e He). unfold back. apply sumn_ext. intros f Hf. rewrite app_minus. rewrite sysA_back by exact Hf. reflexivity. }
    assert (Hz : forall a, (a < k)%nat -> app k A (app k A (fun c => t c - s c)) a = 0).
    { intros a Ha. rewrite (app_ext k A _ (fun c => (app k A t c - b c) - (app k A s c - b c))) by (intros c Hc; rewrite app_minus; ring).
      rewrite app_minus. rewrite H, Hu by exact Ha. ring. }
    assert (SA : sym k A) by (apply A_sym; assumption).
    assert (Hn : forall a, (a < k)%nat -> app k A (fun c => t c - s c) a = 0).
    { apply sumn_sq_zero. rewrite <- bil_app with (n := k) (M := A) (x := app k A (fun c => t c - s c)).
      rewrite bil_sym by exact SA. rewrite bil_app. apply sumn_zero. intros a Ha. rewrite Hz by exact Ha. ring. }
    apply (T_unique n k S P Om); try assumption. intros a Ha. specialize (Hn a Ha). rewrite app_minus in Hn. fold A. lra.
  Qed.
End Restate.

(** ** When the system for the returns has a solution *)
Lemma solvable_sure_views : forall n k S P Om b, sym n S -> psdf n S -> sym k Om -> posdef k Om ->
  exists s, forall a, (a < k)%nat -> app k (sysA n S P Om) s a = b a.
Proof.
  intros n k S P Om b HS HSp HO HOp. apply psd_solvable; [apply A_sym; assumption|apply A_psd; [assumption|apply posdef_psdf, HOp]|].
  intros z Hz. apply sumn_zero. intros i Hi.
  assert (E : bil k (sysA n S P Om) z z = 0) by (rewrite bil_app; apply sumn_zero; intros a Ha; rewrite Hz by exact Ha; ring).
  rewrite A_bil in E. pose proof (HSp (rows k P z)). pose proof (posdef_psdf k Om HOp z).
  assert (E0 : bil k Om z z = 0) by lra.
  assert (Ez : z i = 0).
  { apply (posdef_null k Om z HOp); [|exact Hi]. intros a Ha. apply null_app; [apply posdef_psdf, HOp|exact HO|exact E0|exact Ha]. }
  rewrite Ez. ring.
Qed.
Lemma solvable_consistent : forall n k S P Om b x, sym n S -> posdef n S -> sym k Om -> psdf k Om ->
  (forall a, (a < k)%nat -> b a = app n P x a) ->
  exists s, forall a, (a < k)%nat -> app k (sysA n S P Om) s a = b a.
Proof.
  intros n k S P Om b x HS HSp HO HOp Hb. pose proof (posdef_psdf n S HSp) as HSq.
  apply psd_solvable; [apply A_sym; assumption|apply A_psd; assumption|].
  intros z Hz. rewrite (sumn_ext k _ (fun a => z a * app n P x a)) by (intros a Ha; rewrite Hb by exact Ha; reflexivity). rewrite rows_adjoint.
  assert (E : bil k (sysA n S P Om) z z = 0) by (rewrite bil_app; apply sumn_zero; intros a Ha; rewrite Hz by exact Ha; ring).
  rewrite A_bil in E. pose proof (HSq (rows k P z)). pose proof (HOp z). assert (E0 : bil n S (rows k P z) (rows k P z) = 0) by lra.
  apply sumn_zero. intros i Hi.
  assert (Ez : rows k P z i = 0).
  { apply (posdef_null n S (rows k P z) HSp); [|exact Hi]. intros a Ha. apply null_app; [exact HSq|exact HS|exact E0|exact Ha]. }
  rewrite Ez. ring.
Qed.

(** ** Objects *)
Section Objects.
  Variables (la : linalg) (n k k' : nat) (o o' : bl) (D : nat -> nat -> R).
  Hypothesis Hla : exact_linalg la.
  Hypothesis Hr : regular n k o.
  Hypothesis Hw' : wf n k' o'.
  Hypothesis Hc : caches_ok la o.
  Hypothesis Hc' : caches_ok la o'.
  Hypothesis Es : bl_sigma o' = bl_sigma o.
  Hypothesis Et : bl_tau o' = bl_tau o.
  Hypothesis Ep : bl_pi o' = bl_pi o.
  Hypothesis EQ : forall a, (a < k')%nat -> vec (bl_Q o') a = app k D (vec (bl_Q o)) a.
  Hypothesis EP : forall a j, (a < k')%nat -> (j < n)%nat -> entry (bl_P o') a j = sumn k (fun b => D a b * entry (bl_P o) b j).
  Hypothesis EO : forall a c, (a < k')%nat -> (c < k')%nat -> entry (bl_omega o') a c = sumn k (fun i => D a i * sumn k (fun j => entry (bl_omega o) i j * D c j)).
  Hypothesis D_inj : forall x, (forall a, (a < k')%nat -> app k D x a = 0) -> forall b, (b < k)%nat -> x b = 0.
  Let W := rg_wf n k o Hr.

  Lemma restated_regular : regular n k' o'.
  Proof.
    constructor; [exact Hw'|rewrite Es; apply (rg_sigma n k o Hr)|rewrite Es; apply (rg_sigma_sym n k o Hr)| |].
    - split; [apply (wf_omega n k' o' Hw')|]. intros w Hw.
      rewrite (qform_bil k') by (try exact Hw; apply square_shaped, (wf_omega n k' o' Hw')).
      apply (Om'_psd k k' (entry (bl_omega o)) (entry (bl_omega o')) D); [|exact EO]. exact (oOm_psd n k o Hr).
    - exact (Om'_sym k k' (entry (bl_omega o)) (entry (bl_omega o')) D (oOm_sym n k o Hr) EO).
  Qed.
  Lemma oS_same : forall i j, oS o' i j = oS o i j.
  Proof. intros i j. unfold oS. rewrite Es, Et. reflexivity. Qed.
  Lemma oT_same : forall s i, app k' (oT o') s i = app k' (sysT n (oS o) (entry (bl_P o'))) s i.
  Proof. intros s i. rewrite (oT_core n k' o' restated_regular). unfold app, sysT. apply sumn_ext. intros a _. f_equal. apply sumn_ext. intros j _. rewrite oS_same. reflexivity. Qed.
  Lemma oA_same : forall s a, app k' (oA o') s a = app k' (sysA n (oS o) (entry (bl_P o')) (entry (bl_omega o'))) s a.
  Proof.
    intros s a. rewrite (oA_core n k' o' restated_regular). unfold app, sysA, sysT. apply sumn_ext. intros b _. f_equal. f_equal. apply sumn_ext.
    intros i _. f_equal. apply sumn_ext. intros j _. rewrite oS_same. reflexivity.
  Qed.
  Lemma ob_same : forall a, (a < k')%nat -> ob o' a = app k D (ob o) a.
  Proof.
    intros a Ha. unfold ob. rewrite (wf_n n k' o' Hw'), (wf_n n k o W). rewrite app_minus. rewrite EQ by exact Ha. f_equal. rewrite Ep.
    apply (app_P' n k k' (entry (bl_P o)) (entry (bl_P o')) D EP). exact Ha.
  Qed.
  Theorem restated_returns : (exists s, forall a, (a < k)%nat -> app k (oA o) s a = ob o a) -> snd (bl_returns la o') = snd (bl_returns la o).
  Proof.
    intros (y & Hy). destruct (returns_char la n k o Hla Hr Hc) as (s & _ & Hs & HL & Hv).
    destruct (returns_char la n k' o' Hla restated_regular Hc') as (s' & _ & Hs' & HL' & Hv').
    specialize (Hs (ex_intro _ y Hy)).
    assert (H' : exists y', forall a, (a < k')%nat -> app k' (oA o') y' a = ob o' a).
    { destruct (still_solvable n k k' (oS o) (entry (bl_P o)) (entry (bl_omega o)) (entry (bl_P o')) (entry (bl_omega o')) D
        (oS_sym n k o Hr) (oS_psd n k o Hr) (oOm_sym n k o Hr) (oOm_psd n k o Hr) EP EO D_inj (ob o) y) as (y' & Hy').
      - intros a Ha. rewrite <- (oA_core n k o Hr). apply Hy, Ha.
      - exists y'. intros a Ha. rewrite oA_same, ob_same by exact Ha. apply Hy', Ha. }
    specialize (Hs' H'). apply (vec_ext n); [exact HL'|exact HL|]. intros i Hi. rewrite Hv, Hv' by exact Hi. rewrite Ep. f_equal.
    rewrite oT_same. rewrite (oT_core n k o Hr).
    apply (same_solution n k k' (oS o) (entry (bl_P o)) (entry (bl_omega o)) (entry (bl_P o')) (entry (bl_omega o')) D
      (oS_sym n k o Hr) (oS_psd n k o Hr) (oOm_psd n k o Hr) EP EO D_inj (ob o)); [| |exact Hi].
    - intros a Ha. rewrite <- (oA_core n k o Hr). apply Hs, Ha.
    - intros a Ha. rewrite <- oA_same, <- ob_same by exact Ha. apply Hs', Ha.
  Qed.
  Theorem restated_returns_normal : (forall u b, (b < k)%nat -> back k' D (app k D u) b = u b) -> snd (bl_returns la o') = snd (bl_returns la o).
  Proof.
    intros D_orth. destruct (returns_char la n k o Hla Hr Hc) as (s & Hs & _ & HL & Hv).
    destruct (returns_char la n k' o' Hla restated_regular Hc') as (s' & Hs' & _ & HL' & Hv').
    apply (vec_ext n); [exact HL'|exact HL|]. intros i Hi. rewrite Hv, Hv' by exact Hi. rewrite Ep. f_equal.
    rewrite oT_same. rewrite (oT_core n k o Hr).
    apply (same_normal n k k' (oS o) (entry (bl_P o)) (entry (bl_omega o)) (entry (bl_P o')) (entry (bl_omega o')) D
      (oS_sym n k o Hr) (oS_psd n k o Hr) (oOm_sym n k o Hr) (oOm_psd n k o Hr) EP EO D_inj D_orth (ob o)); [| |exact Hi].
    - intros a Ha. rewrite <- (oA_core n k o Hr). apply Hs, Ha.
    - intros a Ha. rewrite <- (Hs' a Ha). rewrite oA_same. apply app_ext. intros c Hc0. rewrite oA_same, ob_same by exact Hc0. reflexivity.
  Qed.
  Theorem restated_cov : snd (bl_cov la o') = snd (bl_cov la o).
  Proof.
    destruct (cov_char la n k o Hla Hr Hc) as (s & Hs & HL & Hv).
    destruct (cov_char la n k' o' Hla restated_regular Hc') as (s' & Hs' & HL' & Hv').
    assert (HE : forall i j, (i < n)%nat -> (j < n)%nat -> entry (snd (bl_cov la o')) i j = entry (snd (bl_cov la o)) i j).
    { intros i j Hi Hj. rewrite Hv, Hv' by assumption. rewrite Es, oS_same. f_equal. f_equal. rewrite oT_same, (oT_core n k o Hr).
      apply (same_solution n k k' (oS o) (entry (bl_P o)) (entry (bl_omega o)) (entry (bl_P o')) (entry (bl_omega o')) D
        (oS_sym n k o Hr) (oS_psd n k o Hr) (oOm_psd n k o Hr) EP EO D_inj (fun b => oT o j b)); [| |exact Hi].
      - intros a Ha. rewrite <- (oA_core n k o Hr). apply Hs; assumption.
      - intros a Ha. rewrite <- oA_same by exact Ha. rewrite Hs' by assumption. rewrite (oT_core n k' o' restated_regular), (oT_core n k o Hr).
        rewrite <- (sysT_row n k k' (oS o) (entry (bl_P o)) (entry (bl_P o')) D EP) by exact Ha. unfold sysT. apply sumn_ext. intros; rewrite oS_same; reflexivity. }
    destruct HL as [HL1 HL2], HL' as [HL1' HL2']. rewrite Forall_forall in HL2, HL2'.
    apply (nth_ext _ _ [] []); [congruence|]. intros i Hi. rewrite HL1' in Hi. apply nth_ext0.
    - rewrite (HL2 (nth i (snd (bl_cov la o)) [])), (HL2' (nth i (snd (bl_cov la o')) [])); [reflexivity| |]; apply nth_In; lia.
    - intros j Hj. rewrite (HL2' (nth i (snd (bl_cov la o')) [])) in Hj by (apply nth_In; lia). apply (HE i j Hi Hj).
  Qed.
End Objects.
