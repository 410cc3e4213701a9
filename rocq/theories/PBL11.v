(** * Performance of the Black-Litterman portfolio (C63) *)
From Coq Require Import List Reals Lra Lia Arith Bool.
From Verif Require Import Num Py RBase PyLemmas MBase SLin SBL Sums Mat MRisk MBL PBase PFrame PCov1 PCov2 PHRP2 PBL1 PBL2 PBL3 PBL4 PBL5 PBL8 PBL10.
Import ListNotations.
Local Open Scope R_scope.

Lemma weights_rets : forall la o ra d, caches_ok la o -> snd (bl_weights la o ra) = Ok d ->
  bl_rets (fst (bl_weights la o ra)) = Some (combine (b_tickers (bl_base o)) (snd (bl_returns la o))).
Proof.
  intros la o ra d H. unfold bl_weights. cbv zeta. destruct (bl_returns la o) as [o1 post]. cbn [fst snd].
  destruct (match la_solve la _ post with Some x => _ | None => _ end) as [raw|e]; [|discriminate].
  destruct (Reqb (vsum raw) 0); [discriminate|]. intros _. reflexivity.
Qed.
Theorem performance_posterior : forall la o ra d rf, exact_linalg la -> reachable la o -> length (b_tickers (bl_base o)) = bl_n o ->
  snd (bl_weights la o ra) = Ok d ->
  let o' := fst (bl_weights la o ra) in let C := snd (bl_cov la o) in
  exists w, b_weights (bl_base o') = Some w /\
    (0 < qform C w -> exists r s sh, snd (bl_performance la o' rf) = Ok (Some r, s, Some sh) /\
       r = inner w (snd (bl_returns la o)) /\ 0 < s /\ s * s = qform C w /\ sh = (r - rf) / s).
Proof.
  intros la o ra d rf Hla H Ht E. cbv zeta. destruct (reachable_ok la o H) as [W C].
  destruct (use_weights_sum la o ra d Hla H E) as (w & Ew & Lw & _). exists w. split; [exact Ew|]. intros Hq.
  destruct (weights_good la o ra C) as [HI HC]. rewrite (performance_fresh la _ rf HC). rewrite Ew, (weights_rets la o ra d C E).
  rewrite (fresh_inputs _ _ HI), <- (cov_fresh la o C).
  apply perf_values; [|rewrite Lw; apply (post_length la _ _ o W C)| |exact Hq].
  - cbn [mu_values]. f_equal. apply combine_snd. rewrite Ht. symmetry. apply (post_length la _ _ o W C).
  - rewrite Lw. cbn [cov_values]. unfold bl_cov. rewrite (fill_ok la o C). cbn [snd]. apply array_square.
Qed.
