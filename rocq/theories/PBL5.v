(** * The Bayesian estimate (C56) *)
From Coq Require Import List Reals Lra Lia Arith Bool.
From Verif Require Import Num Py RBase PyLemmas MBase SLin SBL Sums Mat MRisk MBL PCov1 PCov2 PBL1 PBL2 PBL3 PBL4.
Import ListNotations.
Local Open Scope R_scope.

Section Inverse.
  Variables (n : nat) (S B : nat -> nat -> R).
  Hypothesis S_sym : sym n S.
  Hypothesis S_pd : posdef n S.
  Hypothesis SB : forall f i, (i < n)%nat -> app n S (app n B f) i = f i.
  Lemma inv_left : forall f i, (i < n)%nat -> app n B (app n S f) i = f i.
  Proof.
    intros f i Hi. assert (E : app n B (app n S f) i - f i = 0).
    { apply (posdef_null n S (fun j => app n B (app n S f) j - f j) S_pd); [|exact Hi]. intros j Hj. rewrite app_minus, SB by exact Hj. ring. }
    lra.
  Qed.
  Lemma inv_bil : forall x y, bil n B x y = bil n S (app n B x) (app n B y).
  Proof.
    intros x y. rewrite (bil_sym n S) by exact S_sym. rewrite !bil_app. apply sumn_ext. intros i Hi. rewrite SB by exact Hi. ring.
  Qed.
  Lemma inv_bil_sym : forall x y, bil n B x y = bil n B y x.
  Proof. intros x y. rewrite !inv_bil. apply bil_sym. exact S_sym. Qed.
  Lemma inv_psd : forall x, 0 <= bil n B x x.
  Proof. intros x. rewrite inv_bil. apply posdef_psdf, S_pd. Qed.
  Lemma inv_pd : forall x, bil n B x x = 0 -> forall i, (i < n)%nat -> x i = 0.
  Proof.
    intros x E. rewrite inv_bil in E. destruct (nonzero_dec n (app n B x)) as [H|H]; [specialize (S_pd _ H); lra|].
    intros i Hi. rewrite <- SB by exact Hi. unfold app at 1. apply sumn_zero. intros j Hj. rewrite H by exact Hj. ring.
  Qed.
End Inverse.
Lemma right_inverse_app : forall n M B, square n M -> right_inverse n M B -> forall f i, (i < n)%nat -> app n (entry M) (app n (entry B) f) i = f i.
Proof.
  intros n M B HM [HB H] f i Hi. rewrite <- (vec_of_fun n f i Hi). rewrite <- (H (of_fun n f)) by apply of_fun_length.
  assert (HL : length (mat_vec B (of_fun n f)) = n) by (rewrite mat_vec_length; apply HB).
  rewrite (mat_vec_shaped n n) by assumption. apply app_ext. intros j Hj. rewrite (mat_vec_shaped n n) by (try assumption; apply of_fun_length).
  apply app_ext. intros c Hc. rewrite vec_of_fun by exact Hc. reflexivity.
Qed.
Lemma plus_vec_nth : forall x y n i, length x = n -> length y = n -> (i < n)%nat -> vec (plus_vec x y) i = vec x i + vec y i.
Proof.
  unfold vec. intros x. induction x as [|a x IH]; intros [|b y] [|n] i Hx Hy Hi; try discriminate; try lia. destruct i; [reflexivity|]. cbn. cbn in Hx, Hy.
  apply (IH y n); try lia.
Qed.
Lemma plus_vec_length : forall x y n, length x = n -> length y = n -> length (plus_vec x y) = n.
Proof. intros. unfold plus_vec. rewrite map_length, combine_length. lia. Qed.
Lemma combine_rows_length : forall n P y, Forall (fun row => length row = n) P -> length (combine_rows n P y) = n.
Proof.
  intros n P. induction P as [|r P IH]; intros y H; [apply repeat_length|]. inversion H; subst. destruct y; [apply repeat_length|]. cbn [combine_rows].
  apply plus_vec_length; [rewrite map_length; reflexivity|apply IH; assumption].
Qed.
Lemma combine_rows_vec : forall n P y k j, shaped k n P -> length y = k -> (j < n)%nat -> vec (combine_rows n P y) j = rows k (entry P) (vec y) j.
Proof.
  intros n P. induction P as [|r P IH]; intros y k j [HP HF] Hy Hj; cbn in HP; subst k.
  - destruct y; [|discriminate]. cbn. unfold rows. cbn. unfold vec. apply nth_repeat.
  - destruct y as [|c y]; [discriminate|]. inversion HF as [|? ? H1 H2]; subst. cbn [combine_rows]. cbn [length] in Hy. injection Hy as Hy.
    rewrite (plus_vec_nth _ _ (length r)) by (try exact Hj; rewrite ?map_length; auto; apply combine_rows_length; exact H2).
    unfold rows. rewrite sumn_split_first. f_equal.
    + unfold vec. rewrite (nth_indep _ 0 (c * 0)) by (rewrite map_length; exact Hj). rewrite map_nth. unfold entry. cbn. ring.
    + rewrite (IH y (length P)); [reflexivity|split; auto|congruence|exact Hj].
Qed.
Lemma scale_matrix_entry : forall c n M i j, square n M -> (i < n)%nat -> (j < n)%nat -> entry (scale_matrix c M) i j = c * entry M i j.
Proof.
  intros c n M i j HM Hi Hj. unfold entry, scale_matrix. rewrite (nth_indep _ [] (map (Rmult c) [])) by (rewrite map_length; destruct HM; lia).
  rewrite (map_nth (map (Rmult c))). rewrite (nth_indep _ 0 (c * 0)) by (rewrite map_length, (square_row n) by assumption; exact Hj). rewrite map_nth. reflexivity.
Qed.
Lemma scale_matrix_square : forall c n M, square n M -> square n (scale_matrix c M).
Proof. intros c n M [H1 H2]. split; [unfold scale_matrix; rewrite map_length; exact H1|]. unfold scale_matrix. apply Forall_map. eapply Forall_impl; [|exact H2]. intros r Hr. rewrite map_length. exact Hr. Qed.

Section Bayes.
  Variables (la : linalg) (n k : nat) (o : bl) (precS precO : list (list R)).
  Hypothesis Hla : exact_linalg la.
  Hypothesis Hw : wf n k o.
  Hypothesis Hc : caches_ok la o.
  Hypothesis HS : pos_def n (bl_sigma o).
  Hypothesis HSs : symmetric n (bl_sigma o).
  Hypothesis HO : pos_def k (bl_omega o).
  Hypothesis HOs : symmetric k (bl_omega o).
  Hypothesis HiS : right_inverse n (scale_matrix (bl_tau o) (bl_sigma o)) precS.
  Hypothesis HiO : right_inverse k (bl_omega o) precO.

  Lemma bayes_regular : regular n k o.
  Proof. constructor; auto; apply pos_def_psd; assumption. Qed.
  Let Hr := bayes_regular.
  Lemma oS_pd : posdef n (oS o).
  Proof.
    intros x Hx. rewrite (oS_bil n). pose proof (pos_def_posdef n _ HS x Hx). pose proof (wf_tau n k o Hw). apply Rmult_lt_0_compat; lra.
  Qed.
  Lemma precS_app : forall f i, (i < n)%nat -> app n (oS o) (app n (entry precS) f) i = f i.
  Proof.
    intros f i Hi. rewrite <- (right_inverse_app n _ precS (scale_matrix_square _ _ _ (proj1 HS)) HiS f i Hi). unfold app at 1 3. apply sumn_ext. intros j Hj.
    rewrite (scale_matrix_entry _ n) by (try assumption; apply HS). reflexivity.
  Qed.
  Lemma precO_app : forall f i, (i < k)%nat -> app k (entry (bl_omega o)) (app k (entry precO) f) i = f i.
  Proof. intros f i Hi. apply right_inverse_app; auto. apply HO. Qed.

  Lemma solution : exists s, length (snd (bl_returns la o)) = n /\
    (forall i, (i < n)%nat -> vec (snd (bl_returns la o)) i - vec (bl_pi o) i = app n (oS o) (rows k (entry (bl_P o)) s) i) /\
    (forall a, (a < k)%nat -> vec (bl_Q o) a - app n (entry (bl_P o)) (vec (snd (bl_returns la o))) a = app k (entry (bl_omega o)) s a).
  Proof.
    destruct (returns_char la n k o Hla Hr Hc) as (s & _ & Hs & HL & Hv). exists s. split; [exact HL|].
    assert (HA : posdef k (oA o)).
    { intros x Hx. rewrite (oA_core n k o Hr). rewrite A_bil. pose proof (oS_psd n k o Hr (rows k (entry (bl_P o)) x)). pose proof (pos_def_posdef k _ HO x Hx). lra. }
    assert (Hsys : forall a, (a < k)%nat -> app k (oA o) s a = ob o a).
    { apply Hs. apply posdef_solvable; [|exact HA]. rewrite (oA_core n k o Hr). apply A_sym; [apply (oS_sym n k o Hr)|exact HOs]. }
    assert (Hd : forall i, (i < n)%nat -> vec (snd (bl_returns la o)) i - vec (bl_pi o) i = app n (oS o) (rows k (entry (bl_P o)) s) i).
    { intros i Hi. rewrite Hv by exact Hi. rewrite (oT_core n k o Hr), T_apply. ring. }
    split; [exact Hd|]. intros a Ha. specialize (Hsys a Ha). rewrite (oA_core n k o Hr), A_apply in Hsys. unfold ob in Hsys. rewrite (wf_n n k o Hw) in Hsys.
    rewrite (app_ext n _ (app n (oS o) (rows k (entry (bl_P o)) s)) (fun i => vec (snd (bl_returns la o)) i - vec (bl_pi o) i)) in Hsys by (intros i Hi; rewrite Hd by exact Hi; reflexivity).
    rewrite app_minus in Hsys. lra.
  Qed.

  Lemma precS_square : square n precS. Proof. apply HiS. Qed.
  Lemma precO_square : square k precO. Proof. apply HiO. Qed.
  Lemma loss_form : forall nu, length nu = n -> bayes_loss precS precO (bl_P o) (bl_pi o) (bl_Q o) nu =
    bil n (entry precS) (fun i => vec nu i - vec (bl_pi o) i) (fun i => vec nu i - vec (bl_pi o) i) +
    bil k (entry precO) (fun a => vec (bl_Q o) a - app n (entry (bl_P o)) (vec nu) a) (fun a => vec (bl_Q o) a - app n (entry (bl_P o)) (vec nu) a).
  Proof.
    intros nu Hnu. unfold bayes_loss.
    assert (HL : length (mat_vec (bl_P o) nu) = k) by (rewrite mat_vec_length; apply (wf_P n k o Hw)).
    rewrite (qform_bil n _ _ precS_square (minus_vec_length n _ _ Hnu (wf_pi n k o Hw))).
    rewrite (qform_bil k _ _ precO_square (minus_vec_length k _ _ (wf_Q n k o Hw) HL)).
    f_equal; apply bil_ext; intros i Hi.
    1,2: rewrite (minus_vec_vec n) by (try exact Hnu; apply (wf_pi n k o Hw)); reflexivity.
    1,2: rewrite (minus_vec_vec k) by (try exact HL; apply (wf_Q n k o Hw)); rewrite (mat_vec_shaped k n) by (try assumption; apply (wf_P n k o Hw)); reflexivity.
  Qed.
  Theorem bayes_minimum : let mu := snd (bl_returns la o) in
    length mu = n /\
    forall nu, length nu = n ->
      bayes_loss precS precO (bl_P o) (bl_pi o) (bl_Q o) mu <= bayes_loss precS precO (bl_P o) (bl_pi o) (bl_Q o) nu /\
      (bayes_loss precS precO (bl_P o) (bl_pi o) (bl_Q o) nu = bayes_loss precS precO (bl_P o) (bl_pi o) (bl_Q o) mu -> nu = mu).
  Proof.
    cbv zeta. destruct solution as (s & HL & Hd & Hq). split; [exact HL|]. intros nu Hnu. set (mu := snd (bl_returns la o)) in *.
    set (u := rows k (entry (bl_P o)) s). set (h := fun i => vec nu i - vec mu i). set (d := fun i => vec mu i - vec (bl_pi o) i).
    set (q := fun a => vec (bl_Q o) a - app n (entry (bl_P o)) (vec mu) a). set (g := app n (entry (bl_P o)) h).
    pose proof (inv_bil_sym n (oS o) (entry precS) (oS_sym n k o Hr) precS_app) as SymS.
    pose proof (inv_bil_sym k (entry (bl_omega o)) (entry precO) HOs precO_app) as SymO.
    assert (E1 : bil n (entry precS) h d = sumn n (fun i => h i * u i)).
    { rewrite bil_app. apply sumn_ext. intros i Hi. f_equal. rewrite (app_ext n _ d (app n (oS o) u)) by (intros j Hj; apply Hd; exact Hj).
      apply (inv_left n (oS o) (entry precS)); [exact oS_pd|exact precS_app|exact Hi]. }
    assert (E2 : bil k (entry precO) g q = sumn n (fun i => h i * u i)).
    { rewrite bil_app. rewrite (sumn_ext k _ (fun a => s a * g a)).
      - unfold g. rewrite (rows_adjoint n k). apply sumn_ext. intros i Hi. fold u. apply Rmult_comm.
      - intros a Ha. rewrite (app_ext k _ q (app k (entry (bl_omega o)) s)) by (intros c Hc'; apply Hq; exact Hc').
        rewrite (inv_left k (entry (bl_omega o)) (entry precO)); [ring|apply pos_def_posdef; exact HO|exact precO_app|exact Ha]. }
    assert (E : bayes_loss precS precO (bl_P o) (bl_pi o) (bl_Q o) nu = bayes_loss precS precO (bl_P o) (bl_pi o) (bl_Q o) mu + (bil n (entry precS) h h + bil k (entry precO) g g)).
    { rewrite !loss_form by assumption. fold d q.
      rewrite (bil_ext n (entry precS) (fun i => vec nu i - vec (bl_pi o) i) (fun i => vec nu i - vec (bl_pi o) i) (fun i => d i + h i) (fun i => d i + h i)) by (intros; unfold d, h; ring).
      rewrite (bil_ext k (entry precO) (fun a => vec (bl_Q o) a - app n (entry (bl_P o)) (vec nu) a) (fun a => vec (bl_Q o) a - app n (entry (bl_P o)) (vec nu) a) (fun a => q a - g a) (fun a => q a - g a)).
      2,3: intros a Ha; unfold q, g, h; rewrite app_minus; ring.
      rewrite bil_plus_l, !bil_plus_r, bil_minus_l, !bil_minus_r. rewrite (SymS d h), (SymO q g), E1, E2. ring. }
    pose proof (inv_psd n (oS o) (entry precS) (oS_sym n k o Hr) oS_pd precS_app h) as P1.
    pose proof (inv_psd k (entry (bl_omega o)) (entry precO) HOs (pos_def_posdef k _ HO) precO_app g) as P2.
    split; [lra|]. intros E'. assert (E0 : bil n (entry precS) h h = 0) by lra.
    apply (vec_ext n); [exact Hnu|exact HL|]. intros i Hi.
    pose proof (inv_pd n (oS o) (entry precS) (oS_sym n k o Hr) oS_pd precS_app h E0 i Hi) as H. unfold h in H. lra.
  Qed.
  (** the documented closed formula, multiplied out *)
  Theorem bayes_formula : let mu := snd (bl_returns la o) in
    plus_vec (mat_vec precS mu) (combine_rows n (bl_P o) (mat_vec precO (mat_vec (bl_P o) mu))) =
    plus_vec (mat_vec precS (bl_pi o)) (combine_rows n (bl_P o) (mat_vec precO (bl_Q o))).
  Proof.
    cbv zeta. destruct solution as (s & HL & Hd & Hq). set (mu := snd (bl_returns la o)) in *.
    pose proof precS_square as QS. pose proof precO_square as QO. pose proof (wf_P n k o Hw) as HP. pose proof (wf_Q n k o Hw) as HQ. pose proof (wf_pi n k o Hw) as Hpi.
    assert (L1 : forall x, length (mat_vec precS x) = n) by (intros; rewrite mat_vec_length; apply QS).
    assert (L2 : forall x, length (mat_vec precO x) = k) by (intros; rewrite mat_vec_length; apply QO).
    assert (L3 : forall y, length (combine_rows n (bl_P o) y) = n) by (intros; apply combine_rows_length; apply HP).
    assert (L4 : length (mat_vec (bl_P o) mu) = k) by (rewrite mat_vec_length; apply HP).
    apply (vec_ext n); [apply plus_vec_length; auto|apply plus_vec_length; auto|]. intros i Hi.
    rewrite !(plus_vec_nth _ _ n) by auto. rewrite !(combine_rows_vec n _ _ k) by auto.
    rewrite !(mat_vec_shaped n n) by auto.
    assert (E1 : app n (entry precS) (vec mu) i - app n (entry precS) (vec (bl_pi o)) i = rows k (entry (bl_P o)) s i).
    { rewrite <- app_minus. rewrite (app_ext n _ _ (app n (oS o) (rows k (entry (bl_P o)) s))) by (intros j Hj; apply Hd; exact Hj).
      apply (inv_left n (oS o) (entry precS)); [exact oS_pd|exact precS_app|exact Hi]. }
    assert (E2 : rows k (entry (bl_P o)) (vec (mat_vec precO (bl_Q o))) i - rows k (entry (bl_P o)) (vec (mat_vec precO (mat_vec (bl_P o) mu))) i = rows k (entry (bl_P o)) s i).
    { unfold rows. rewrite <- sumn_minus. apply sumn_ext. intros a Ha. rewrite !(mat_vec_shaped k k) by auto.
      rewrite <- Rmult_minus_distr_l. f_equal. rewrite <- app_minus.
      rewrite (app_ext k _ _ (app k (entry (bl_omega o)) s)).
      - apply (inv_left k (entry (bl_omega o)) (entry precO)); [apply pos_def_posdef; exact HO|exact precO_app|exact Ha].
      - intros c Hc'. rewrite (mat_vec_shaped k n) by auto. apply Hq. exact Hc'. }
    lra.
  Qed.
End Bayes.
