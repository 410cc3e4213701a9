(** * Posterior returns and covariance: C56, C57, C60 *)
From Coq Require Import List Reals Lra Lia Arith Bool.
From Verif Require Import Num Py RBase PyLemmas MBase SLin SBL Sums Mat MRisk MBL PCov1 PCov2 PBL1 PBL2 PBL3.
Import ListNotations.
Local Open Scope R_scope.

Definition oS (o : bl) (i j : nat) : R := bl_tau o * entry (bl_sigma o) i j.
Definition oT (o : bl) := sysT (bl_n o) (oS o) (entry (bl_P o)).
Definition oA (o : bl) := sysA (bl_n o) (oS o) (entry (bl_P o)) (entry (bl_omega o)).
Definition ob (o : bl) (a : nat) : R := vec (bl_Q o) a - app (bl_n o) (entry (bl_P o)) (vec (bl_pi o)) a.

(** hypotheses on the inputs shared by the theorems *)
Record regular (n k : nat) (o : bl) : Prop := {
  rg_wf : wf n k o;
  rg_sigma : psd n (bl_sigma o); rg_sigma_sym : symmetric n (bl_sigma o);
  rg_omega : psd k (bl_omega o); rg_omega_sym : symmetric k (bl_omega o) }.

Section Chars.
  Variables (la : linalg) (n k : nat) (o : bl).
  Hypothesis Hla : exact_linalg la.
  Hypothesis Hr : regular n k o.
  Hypothesis Hc : caches_ok la o.
  Let W := rg_wf n k o Hr.

  Lemma oS_sym : sym n (oS o).
  Proof. intros i j Hi Hj. unfold oS. rewrite (rg_sigma_sym n k o Hr i j Hi Hj). reflexivity. Qed.
  Lemma oS_bil : forall x y, bil n (oS o) x y = bl_tau o * bil n (entry (bl_sigma o)) x y.
  Proof.
    intros x y. unfold bil, oS. rewrite <- sumn_scal. apply sumn_ext. intros i _.
    rewrite (sumn_ext n _ (fun j => bl_tau o * (entry (bl_sigma o) i j * y j))) by (intros; ring). rewrite sumn_scal. ring.
  Qed.
  Lemma oS_psd : psdf n (oS o).
  Proof.
    intros x. rewrite oS_bil. pose proof (psd_bil n _ x (rg_sigma n k o Hr)). pose proof (wf_tau n k o W). apply Rmult_le_pos; lra.
  Qed.
  Lemma oOm_sym : sym k (entry (bl_omega o)).
  Proof. exact (rg_omega_sym n k o Hr). Qed.
  Lemma oOm_psd : psdf k (entry (bl_omega o)).
  Proof. intros x. apply psd_bil, (rg_omega n k o Hr). Qed.

  Lemma tsp_entry : forall i a, (i < n)%nat -> (a < k)%nat -> entry (tau_sigma_P o) i a = oT o i a.
  Proof.
    intros i a Hi Ha. unfold tau_sigma_P. rewrite array_entry; [reflexivity| |]; rewrite ?(wf_n n k o W), ?(wf_Q n k o W); assumption.
  Qed.
  Lemma sys_entry : forall a b, (a < k)%nat -> (b < k)%nat -> entry (system_matrix o (tau_sigma_P o)) a b = oA o a b.
  Proof.
    intros a b Ha Hb. unfold system_matrix. cbv zeta. rewrite array_entry by (rewrite (wf_Q n k o W); assumption).
    unfold oA, sysA. f_equal. rewrite (wf_n n k o W). apply sumn_ext. intros i Hi. rewrite tsp_entry by assumption. unfold oT. rewrite (wf_n n k o W). reflexivity.
  Qed.
  Lemma sys_square : square k (system_matrix o (tau_sigma_P o)).
  Proof. unfold system_matrix. cbv zeta. rewrite (wf_Q n k o W). apply array_square. Qed.
  Lemma sys_app : forall x a, (a < k)%nat -> app k (entry (system_matrix o (tau_sigma_P o))) x a = app k (oA o) x a.
  Proof. intros x a Ha. unfold app. apply sumn_ext. intros b Hb. rewrite sys_entry by assumption. reflexivity. Qed.
  Lemma oA_core : oA o = sysA n (oS o) (entry (bl_P o)) (entry (bl_omega o)).
  Proof. unfold oA. rewrite (wf_n n k o W). reflexivity. Qed.
  Lemma oT_core : oT o = sysT n (oS o) (entry (bl_P o)).
  Proof. unfold oT. rewrite (wf_n n k o W). reflexivity. Qed.
  Lemma sys_symmetric : symmetric k (system_matrix o (tau_sigma_P o)).
  Proof.
    intros a b Ha Hb. rewrite !sys_entry by assumption. rewrite oA_core. apply (A_sym n k); [exact oS_sym|exact oOm_sym|exact Ha|exact Hb].
  Qed.

  Lemma returns_char : exists s,
    (forall a, (a < k)%nat -> app k (oA o) (fun c => app k (oA o) s c - ob o c) a = 0) /\
    ((exists y, forall a, (a < k)%nat -> app k (oA o) y a = ob o a) -> forall a, (a < k)%nat -> app k (oA o) s a = ob o a) /\
    length (snd (bl_returns la o)) = n /\
    (forall i, (i < n)%nat -> vec (snd (bl_returns la o)) i = vec (bl_pi o) i + app k (oT o) s i).
  Proof.
    set (A := system_matrix o (tau_sigma_P o)).
    set (b := map (fun a => nth a (bl_Q o) 0 - sumn (bl_n o) (fun j => entry (bl_P o) a j * nth j (bl_pi o) 0)) (seq 0 (length (bl_Q o)))).
    assert (Hb : length b = k) by (unfold b; rewrite map_length, seq_length; apply (wf_Q n k o W)).
    assert (Hbv : forall a, (a < k)%nat -> vec b a = ob o a).
    { intros a Ha. unfold b. rewrite vec_map_seq by (rewrite (wf_Q n k o W); exact Ha). reflexivity. }
    exists (vec (solve_or_lstsq la A b)).
    pose proof sys_square as HA. pose proof sys_symmetric as HS. fold A in HA, HS.
    assert (E : snd (bl_returns la o) = map (fun i => nth i (bl_pi o) 0 + sumn (length (bl_Q o)) (fun a => entry (tau_sigma_P o) i a * nth a (solve_or_lstsq la A b) 0)) (seq 0 (bl_n o))).
    { unfold bl_returns. rewrite (fill_ok la) by exact Hc. reflexivity. }
    split; [|split; [|split]].
    - intros a Ha. rewrite <- (solution_normal la k A b Hla HA HS Hb a Ha). unfold A. rewrite sys_app by exact Ha. apply app_ext. intros c Hc'.
      rewrite sys_app, Hbv by exact Hc'. reflexivity.
    - intros (y & Hy) a Ha. rewrite <- Hbv by exact Ha. rewrite <- (solution_exact la k A b Hla HA HS Hb); [unfold A; rewrite sys_app by exact Ha; reflexivity| |exact Ha].
      exists y. intros c Hc'. unfold A. rewrite sys_app, Hbv by exact Hc'. apply Hy. exact Hc'.
    - rewrite E, map_length, seq_length. apply (wf_n n k o W).
    - intros i Hi. rewrite E, vec_map_seq by (rewrite (wf_n n k o W); exact Hi). rewrite (wf_Q n k o W). unfold vec at 1. f_equal. unfold app. apply sumn_ext. intros a Ha.
      rewrite tsp_entry by assumption. reflexivity.
  Qed.
  Lemma cov_char : exists s : nat -> nat -> R,
    (forall j, (j < n)%nat -> forall a, (a < k)%nat -> app k (oA o) (s j) a = oT o j a) /\
    square n (snd (bl_cov la o)) /\
    (forall i j, (i < n)%nat -> (j < n)%nat -> entry (snd (bl_cov la o)) i j = entry (bl_sigma o) i j + (oS o i j - app k (oT o) (s j) i)).
  Proof.
    set (A := system_matrix o (tau_sigma_P o)).
    set (b := fun j => map (fun a => entry (tau_sigma_P o) j a) (seq 0 (length (bl_Q o)))).
    assert (Hb : forall j, length (b j) = k) by (intros j; unfold b; rewrite map_length, seq_length; apply (wf_Q n k o W)).
    pose proof sys_square as HA. pose proof sys_symmetric as HS. fold A in HA, HS.
    assert (Hbv : forall j, (j < n)%nat -> forall a, (a < k)%nat -> vec (b j) a = oT o j a).
    { intros j Hj a Ha. unfold b. rewrite vec_map_seq by (rewrite (wf_Q n k o W); exact Ha). apply tsp_entry; assumption. }
    exists (fun j => vec (solve_or_lstsq la A (b j))).
    assert (E : snd (bl_cov la o) = array (bl_n o) (bl_n o) (fun i j => entry (bl_sigma o) i j +
        (bl_tau o * entry (bl_sigma o) i j - sumn (length (bl_Q o)) (fun a => entry (tau_sigma_P o) i a * nth a (nth j (map (fun j => solve_or_lstsq la A (b j)) (seq 0 (bl_n o))) []) 0)))).
    { unfold bl_cov. rewrite (fill_ok la) by exact Hc. reflexivity. }
    split; [|split].
    - intros j Hj a Ha. rewrite <- Hbv by assumption. rewrite <- (solution_exact la k A (b j) Hla HA HS (Hb j)); [unfold A; rewrite sys_app by exact Ha; reflexivity| |exact Ha].
      destruct (T_solvable n k (oS o) (entry (bl_P o)) (entry (bl_omega o)) oS_sym oS_psd oOm_sym oOm_psd (delta j)) as [y Hy]. exists y. intros c Hc'.
      unfold A. rewrite sys_app by exact Hc'. rewrite oA_core, Hy by exact Hc'. rewrite Hbv by assumption. rewrite <- oT_core.
      rewrite (sumn_ext n _ (fun i => delta j i * oT o i c)) by (intros; ring). apply (sumn_delta_r n j (fun i => oT o i c)). exact Hj.
    - rewrite E. rewrite (wf_n n k o W). apply array_square.
    - intros i j Hi Hj. rewrite E. rewrite array_entry by (rewrite (wf_n n k o W); assumption). unfold oS. f_equal. f_equal. rewrite (wf_Q n k o W).
      unfold app. apply sumn_ext. intros a Ha. rewrite tsp_entry by assumption. f_equal. unfold vec. f_equal.
      rewrite (nth_indep _ [] (solve_or_lstsq la A (b 0%nat))) by (rewrite map_length, seq_length, (wf_n n k o W); exact Hj).
      rewrite (map_nth (fun j => solve_or_lstsq la A (b j))), seq_nth by (rewrite (wf_n n k o W); exact Hj). reflexivity.
  Qed.

  (** *** C57: views equal to the prior *)
  Theorem returns_prior : mat_vec (bl_P o) (bl_pi o) = bl_Q o -> snd (bl_returns la o) = bl_pi o.
  Proof.
    intros HQ. destruct returns_char as (s & _ & Hs & HL & Hv).
    assert (Hb0 : forall a, (a < k)%nat -> ob o a = 0).
    { intros a Ha. unfold ob. rewrite <- HQ. rewrite (wf_n n k o W). rewrite (mat_vec_shaped k n _ _ a (wf_P n k o W) (wf_pi n k o W) Ha). ring. }
    assert (HA0 : forall a, (a < k)%nat -> app k (oA o) s a = 0).
    { intros a Ha. rewrite Hs; [apply Hb0; exact Ha| |exact Ha]. exists (fun _ => 0). intros c Hc'. rewrite Hb0 by exact Hc'. unfold app. apply sumn_zero. intros; ring. }
    apply (vec_ext n); [exact HL|apply (wf_pi n k o W)|]. intros i Hi. rewrite Hv by exact Hi.
    rewrite oT_core. rewrite (A_null n k (oS o) (entry (bl_P o)) (entry (bl_omega o)) oS_sym oS_psd oOm_psd); [ring| |exact Hi].
    intros a Ha. rewrite <- oA_core. apply HA0. exact Ha.
  Qed.
  (** *** C57: certain views *)
  Theorem returns_certain : pos_def n (bl_sigma o) -> bl_omega o = zero_matrix k ->
    (exists mu, length mu = n /\ mat_vec (bl_P o) mu = bl_Q o) ->
    mat_vec (bl_P o) (snd (bl_returns la o)) = bl_Q o.
  Proof.
    intros Hpd Hz (mu & Hmu & HQ). destruct returns_char as (s & _ & Hs & HL & Hv).
    assert (Hom : forall x a, (a < k)%nat -> app k (entry (bl_omega o)) x a = 0).
    { intros x a Ha. unfold app. apply sumn_zero. intros b Hb. rewrite Hz. unfold zero_matrix, entry. rewrite (nth_indep _ [] (repeat 0 k)) by (rewrite repeat_length; exact Ha).
      rewrite nth_repeat. rewrite nth_repeat. ring. }
    assert (Hsol : exists y, forall a, (a < k)%nat -> app k (oA o) y a = ob o a).
    { rewrite oA_core. apply psd_solvable; [apply A_sym; [exact oS_sym|exact oOm_sym]|apply A_psd; [exact oS_psd|exact oOm_psd]|].
      intros z Hz0. set (u := rows k (entry (bl_P o)) z).
      assert (Hu : forall i, (i < n)%nat -> u i = 0).
      { assert (Hpd' : posdef n (oS o)).
        { intros x Hx. rewrite oS_bil. pose proof (pos_def_posdef n _ Hpd x Hx). pose proof (wf_tau n k o W). apply Rmult_lt_0_compat; lra. }
        apply (posdef_null n (oS o)); [exact Hpd'|]. intros i Hi. unfold u. rewrite <- T_apply.
        apply (A_null n k (oS o) (entry (bl_P o)) (entry (bl_omega o)) oS_sym oS_psd oOm_psd); assumption. }
      rewrite (sumn_ext k _ (fun a => z a * app n (entry (bl_P o)) (fun j => vec mu j - vec (bl_pi o) j) a)).
      2: { intros a Ha. f_equal. rewrite app_minus. unfold ob. rewrite <- HQ, (wf_n n k o W). rewrite (mat_vec_shaped k n) by (try assumption; apply (wf_P n k o W)). reflexivity. }
      rewrite (rows_adjoint n k). apply sumn_zero. intros i Hi. fold u. rewrite Hu by exact Hi. ring. }
    specialize (Hs Hsol). apply (vec_ext k); [rewrite mat_vec_length; apply (wf_P n k o W)|apply (wf_Q n k o W)|]. intros a Ha.
    rewrite (mat_vec_shaped k n) by (try assumption; apply (wf_P n k o W)).
    rewrite (app_ext n _ _ (fun i => vec (bl_pi o) i + app n (oS o) (rows k (entry (bl_P o)) s) i)).
    2: { intros i Hi. rewrite Hv by exact Hi. f_equal. rewrite oT_core. apply T_apply. }
    rewrite app_plus. specialize (Hs a Ha). rewrite oA_core in Hs. rewrite A_apply in Hs. rewrite Hom in Hs by exact Ha. unfold ob in Hs. rewrite (wf_n n k o W) in Hs. lra.
  Qed.

  (** *** C60 *)
  Theorem cov_symmetric : symmetric n (snd (bl_cov la o)).
  Proof.
    destruct cov_char as (s & Hs & _ & He). intros i j Hi Hj. rewrite !He by assumption. rewrite (rg_sigma_sym n k o Hr i j Hi Hj), (oS_sym i j Hi Hj). f_equal. f_equal.
    assert (E : forall i j, (i < n)%nat -> (j < n)%nat -> app k (oT o) (s j) i = bil k (oA o) (s j) (s i)).
    { intros i' j' Hi' Hj'. rewrite bil_app. unfold app at 1. apply sumn_ext. intros a Ha. rewrite Hs by assumption. ring. }
    rewrite !E by assumption. apply bil_sym. rewrite oA_core. apply A_sym; [exact oS_sym|exact oOm_sym].
  Qed.
  Lemma cov_form : forall w : nat -> R, exists s, (forall a, (a < k)%nat -> app k (oA o) s a = sumn n (fun i => oT o i a * w i)) /\
    bil n (entry (snd (bl_cov la o))) w w = bil n (entry (bl_sigma o)) w w + (bil n (oS o) w w - sumn n (fun i => w i * app k (oT o) s i)).
  Proof.
    intros w. destruct cov_char as (s & Hs & _ & He). exists (fun b => sumn n (fun j => w j * s j b)). 
    assert (Hlin : forall M a, app k M (fun b => sumn n (fun j => w j * s j b)) a = sumn n (fun j => w j * app k M (s j) a)).
    { intros M a. unfold app. rewrite (sumn_ext k _ (fun b => sumn n (fun j => w j * (M a b * s j b)))) by (intros; rewrite <- sumn_scal; apply sumn_ext; intros; ring).
      rewrite sumn_swap. apply sumn_ext. intros j _. rewrite sumn_scal. reflexivity. }
    split.
    - intros a Ha. rewrite Hlin. apply sumn_ext. intros j Hj. rewrite Hs by assumption. ring.
    - rewrite (bil_ext_M n _ (fun i j => entry (bl_sigma o) i j + (oS o i j + - app k (oT o) (s j) i))).
      2: { intros i j Hi Hj. rewrite He by assumption. ring. }
      rewrite bil_plus_M, bil_plus_M. f_equal. unfold Rminus. f_equal. unfold bil.
      rewrite <- sumn_opp. apply sumn_ext. intros i Hi. rewrite Hlin.
      rewrite (sumn_ext n (fun j => - app k (oT o) (s j) i * w j) (fun j => - (w j * app k (oT o) (s j) i))) by (intros; ring).
      rewrite sumn_opp. ring.
  Qed.
  Theorem cov_between : forall w, length w = n ->
    qform (bl_sigma o) w <= qform (snd (bl_cov la o)) w <= (1 + bl_tau o) * qform (bl_sigma o) w.
  Proof.
    intros w Hw. destruct cov_char as (_ & _ & HC & _). rewrite (qform_bil n _ _ HC Hw), (qform_bil n _ _ (proj1 (rg_sigma n k o Hr)) Hw).
    destruct (cov_form (vec w)) as (s & Hs & E). rewrite E. rewrite oA_core, oT_core in Hs.
    pose proof (reduction n k (oS o) (entry (bl_P o)) (entry (bl_omega o)) oS_sym oS_psd oOm_psd s (vec w) Hs) as HR.
    rewrite oT_core. rewrite oS_bil in *. lra.
  Qed.
End Chars.
