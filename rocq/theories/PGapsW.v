(** * Witness for C120: pairwise covariances that no portfolio can have *)
From Coq Require Import ZArith List String Bool Reals Lra Lia Arith.
From Verif Require Import Num Py RBase PyLemmas MFrame MHRP MReturns MRisk SLin SHRP SReturns SRisk SGaps Sums Mat PBase PHRP2 PHRP3 PFrame PReturns PReturns2 PReturns3 PCov1 PCov2 PCov3 PCov4 PGaps1 PGaps2 PGaps3 PGaps4.
Import ListNotations.
Local Open Scope R_scope.

Definition g_names : list label := [LStr "A"; LStr "B"].
Definition g_dates : list label := map LInt [0; 1; 2; 3]%Z.
Definition g_a : list (option R) := [Some 1; Some (-1); Some 0; Some 0].
Definition g_b : list (option R) := [Some 1; Some (-1); None; None].
Definition g_x (t : label) (k : nat) : option R := nth k (if label_eqb t (LStr "A") then g_a else g_b) None.
Definition g_c (t u : label) : R := if label_eqb t (LStr "A") then (if label_eqb u (LStr "A") then 2 / 3 else 2) else 2.
Lemma g_common : forall t u, In t g_names -> In u g_names -> common_covariance 4 (g_x t) (g_x u) = Some (g_c t u).
Proof.
  intros t u [<-|[<-|[]]] [<-|[<-|[]]]; unfold common_covariance, common; cbn; unfold sample_covariance, average, value; cbn; f_equal; field.
Qed.
Theorem gappy_repaired : exists T dates names x c, List.length dates = T /\
  (forall t u, In t names -> In u names -> common_covariance T (x t) (x u) = Some (c t u)) /\
  forall eigh fr log fm, 1 <= fr -> fm = "spectral"%string \/ fm = "diag"%string ->
  let C := labelled names (fun t u => c t u * fr) in
  eigen_of (List.length names) (f_rows C) (fst (eigh (f_rows C))) (snd (eigh (f_rows C))) ->
  exists F, sample_cov eigh (gappy T dates names x) true fr log fm = Ok F /\ F <> C.
Proof.
  exists 4%nat, g_dates, g_names, g_x, g_c. split; [reflexivity|]. split; [exact g_common|].
  intros eigh fr log fm Hfr Hfm C He.
  assert (Hw : whole (f_rows (frame_cov (gappy 4 g_dates g_names g_x))) = Ok (map (fun t => map (g_c t) g_names) g_names)).
  { rewrite frame_cov_gappy. cbn [f_rows].
    rewrite (map_ext_in _ (fun t => map (fun u => Some (g_c t u)) g_names)) by (intros t Ht; apply map_ext_in; intros u Hu; apply g_common; assumption).
    apply whole_table. }
  destruct (sample_cov_any eigh (gappy 4 g_dates g_names g_x) fr log fm _ Hw Hfm) as (rows & E & _ & [_ N]).
  { rewrite scale_table. exact He. }
  eexists. split; [exact E|]. intros EC. apply (f_equal f_rows) in EC. cbn [f_rows] in EC. rewrite EC in N.
  specialize (N [2; -1] eq_refl). assert (He16 : 0 < / 10 ^ 16 <= / 10).
  { split; [apply Rinv_0_lt_compat; apply pow_lt; lra|]. apply Rinv_le_contravar; [lra|]. pose proof (Rle_pow 10 1 16). lra || (assert (1 <= 16)%nat by lia; specialize (H ltac:(lra) H0); lra). }
  unfold eps16 in N. revert N He16. generalize (/ 10 ^ 16). intros e N He16. unfold C, labelled, qform, mat_vec, inner, g_names, g_c in N. cbn in N. lra.
Qed.
