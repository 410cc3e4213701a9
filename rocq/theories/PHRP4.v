(** * Hierarchical risk parity on a table of returns *)
From Coq Require Import ZArith List String Bool Reals Lra Lia Permutation Arith.
From Verif Require Import Num Py RBase PyLemmas MBase MFrame MHRP SLin SBase SHRP SHRP3 Sums PBase PHRP PHRP2 PHRP3 PFrame.
Import ListNotations.
Local Open Scope R_scope.

Lemma optimize_returns : forall lk m T dates names x cov, In m linkage_methods -> (2 <= List.length names)%nat -> NoDup names -> (2 <= T)%nat ->
  (forall t, In t names -> List.length (x t) = T) ->
  positive_risk (fun t u => sample_covariance (x t) (x u)) names -> linkage_valid lk m (List.length names) ->
  exists h0 h d, hrp_init (HRetFrame (history T dates names x)) cov = Ok h0 /\ hrp_optimize lk m h0 = (h, Ok d) /\ long_portfolio names d (h_base h).
Proof.
  intros lk m T dates names x cov Hm Hn Hnd HT Hx Hp Hlk.
  set (c := fun t u => sample_covariance (x t) (x u)) in *.
  assert (Hdev : forall t, In t names -> 0 < dev_sum (x t) (x t)).
  { intros t Ht. pose proof (diag_pos c names Hp t Ht) as H. unfold c in H. rewrite sample_dev in H by (rewrite (Hx t Ht); exact HT).
    pose proof (INR_ge2 T HT). rewrite (Hx t Ht) in H. apply (Rmult_lt_reg_r (/ (INR T - 1))); [apply Rinv_0_lt_compat; lra|]. rewrite Rmult_0_l. exact H. }
  set (g := fun t u => dev_sum (x t) (x u) / sqrt (dev_sum (x t) (x t) * dev_sum (x u) (x u))).
  assert (E0 : exists h0, hrp_init (HRetFrame (history T dates names x)) cov = Ok h0 /\ h_returns h0 = Some (history T dates names x) /\
    b_tickers (h_base h0) = names) by (destruct cov; eexists; split; try reflexivity; split; reflexivity).
  destruct E0 as [h0 [E0 [Er Eb]]]. exists h0.
  destruct (optimize_core lk m h0 names c (labelled names g)) as [h' [d [E [Hl _]]]]; try assumption; try reflexivity.
  - unfold hrp_inputs. rewrite Er. rewrite (frame_cov_history T dates names x HT Hx), (frame_corr_history T dates names x Hx Hdev). cbn [f_rows f_index f_cols].
    rewrite (all_some_table (fun t u => sample_covariance (x t) (x u))), (all_some_table g). reflexivity.
  - cbn [f_rows labelled]. apply Forall_map, Forall_forall. intros t _. rewrite !map_length. reflexivity.
  - cbn [f_rows labelled]. rewrite !map_length. reflexivity.
  - exists h', d. split; [exact E0|]. split; [exact E|exact Hl].
Qed.
