(** * Further demands never improve an answer: the downside optimizers (C134) *)
From Coq Require Import ZArith List String Bool Reals Lra Lia.
From Verif Require Import Num Py RBase PyLemmas MBase MConvex MEF MDown SLin SBase SHRP SObj SConvex SDown SCurve SUnique SMore Sums PBase PConvex PObj PRisk PEF PEF2 PEF3 PEF4 PEFW PDown2 PDown4 PDown5 PPerm2 PPerm4 PCurve PDown3 PDown6 PCurve2 PUnique PMore.
Import ListNotations.
Local Open Scope R_scope.

(** ** the answers of the methods *)
Section Answers.
  Variables (w : world) (o : ef) (u : list (nat * con)) (sv : solver_t) (mn : bool).
  Hypothesis Ho : open_ef w o u.
  Hypothesis Hsv : exact_solver sv.
  Lemma a_min_semivariance : forall d, semi_ready w o u d -> forall w' o' dd, min_semivariance sv d mn w o = (w', o', Ok dd) ->
    answer w o u mn (fun _ => True) (semivariance (sd_returns d) (sd_bench d * (if mn then 0 else 1))) (e_weights o') dd.
  Proof. intros d Hd w' o' dd E. destruct (min_semivariance_best w o u d Ho Hd sv mn Hsv w' o' dd E) as [lb [ub [B [A _]]]]. exists lb, ub. auto. Qed.
  Lemma a_min_cvar : forall d, cvar_ready w o u d -> forall w' o' dd, min_cvar sv d mn w o = (w', o', Ok dd) ->
    answer w o u mn (fun _ => True) (cvar (cv_beta d) (cv_returns d)) (e_weights o') dd.
  Proof. intros d Hd w' o' dd E. destruct (min_cvar_best w o u d Ho Hd sv mn w' o' dd Hsv E) as [lb [ub [s [B [A _]]]]]. exists lb, ub. split; [exact B|exists s; exact A]. Qed.
  Lemma a_min_cdar : forall d, cdar_ready w o u d -> forall w' o' dd, min_cdar sv d mn w o = (w', o', Ok dd) ->
    answer w o u mn (fun _ => True) (cdar (cd_beta d) (cd_returns d)) (e_weights o') dd.
  Proof. intros d Hd w' o' dd E. destruct (min_cdar_best w o u d Ho Hd sv mn w' o' dd Hsv E) as [lb [ub [s [B [A _]]]]]. exists lb, ub. split; [exact B|exists s; exact A]. Qed.
  Variable m : list R.
  Hypothesis Hm : e_mu o = Some m.
  Lemma a_semi_risk : forall d t, semi_ready w o u d -> fresh_name w o "target_semivariance" -> 0 <= sd_freq d -> forall w' o' dd, semi_efficient_risk sv d t mn w o = (w', o', Ok dd) ->
    answer w o u mn (fun x => sd_freq d * semivariance (sd_returns d) (sd_bench d * (if mn then 0 else 1)) x <= t * t) (fun x => - inner m x) (e_weights o') dd.
  Proof. intros d t Hd Hf Hq w' o' dd E. destruct (semi_risk_best w o u d Ho Hd sv mn Hsv t m w' o' dd Hm Hf Hq E) as [lb [ub [B [A _]]]]. exists lb, ub. auto. Qed.
  Lemma a_semi_return : forall d t, semi_ready w o u d -> fresh_name w o "target_return" -> forall w' o' dd, semi_efficient_return sv d (NFloat t) mn w o = (w', o', Ok dd) ->
    answer w o u mn (fun x => t <= inner m x) (semivariance (sd_returns d) (sd_bench d * (if mn then 0 else 1))) (e_weights o') dd.
  Proof. intros d t Hd Hf w' o' dd E. destruct (semi_return_best w o u d Ho Hd sv mn Hsv t m w' o' dd Hm Hf E) as [_ [lb [ub [B [A _]]]]]. exists lb, ub. auto. Qed.
  Lemma a_semi_utility : forall d k, semi_ready w o u d -> fresh_name w o "risk_aversion" -> forall w' o' dd, semi_max_quadratic_utility sv d k mn w o = (w', o', Ok dd) ->
    0 < k /\ answer w o u mn (fun _ => True) (fun x => - inner m x / sd_freq d + 1 / 2 * k * semivariance (sd_returns d) (sd_bench d * (if mn then 0 else 1)) x) (e_weights o') dd.
  Proof. intros d k Hd Hf w' o' dd E. destruct (semi_utility_best w o u d Ho Hd sv mn Hsv k m w' o' dd Hm Hf E) as [K [lb [ub [B [A _]]]]]. split; [exact K|exists lb, ub; auto]. Qed.
  Lemma a_cvar_risk : forall d t, cvar_ready w o u d -> fresh_name w o "target_cvar" -> forall w' o' dd, cvar_efficient_risk sv d t mn w o = (w', o', Ok dd) ->
    answer w o u mn (fun x => cvar (cv_beta d) (cv_returns d) x <= t) (fun x => - inner m x) (e_weights o') dd.
  Proof. intros d t Hd Hf w' o' dd E. destruct (cvar_risk_best w o u d Ho Hd sv mn t m w' o' dd Hsv Hm Hf E) as [_ [lb [ub [s [B [A _]]]]]]. exists lb, ub. split; [exact B|exists s; exact A]. Qed.
  Lemma a_cvar_return : forall d t, cvar_ready w o u d -> fresh_name w o "target_return" -> forall w' o' dd, cvar_efficient_return sv d t mn w o = (w', o', Ok dd) ->
    answer w o u mn (fun x => t <= inner m x) (cvar (cv_beta d) (cv_returns d)) (e_weights o') dd.
  Proof. intros d t Hd Hf w' o' dd E. destruct (cvar_return_best w o u d Ho Hd sv mn t m w' o' dd Hsv Hm Hf E) as [lb [ub [s [B [A _]]]]]. exists lb, ub. split; [exact B|exists s; exact A]. Qed.
  Lemma a_cdar_risk : forall d t, cdar_ready w o u d -> fresh_name w o "target_cdar" -> forall w' o' dd, cdar_efficient_risk sv d t mn w o = (w', o', Ok dd) ->
    answer w o u mn (fun x => cdar (cd_beta d) (cd_returns d) x <= t) (fun x => - inner m x) (e_weights o') dd.
  Proof. intros d t Hd Hf w' o' dd E. destruct (cdar_risk_best w o u d Ho Hd sv mn t m w' o' dd Hsv Hm Hf E) as [_ [lb [ub [s [B [A _]]]]]]. exists lb, ub. split; [exact B|exists s; exact A]. Qed.
  Lemma a_cdar_return : forall d t, cdar_ready w o u d -> fresh_name w o "target_return" -> forall w' o' dd, cdar_efficient_return sv d t mn w o = (w', o', Ok dd) ->
    answer w o u mn (fun x => t <= inner m x) (cdar (cd_beta d) (cd_returns d)) (e_weights o') dd.
  Proof. intros d t Hd Hf w' o' dd E. destruct (cdar_return_best w o u d Ho Hd sv mn t m w' o' dd Hsv Hm Hf E) as [_ [lb [ub [s [B [A _]]]]]]. exists lb, ub. split; [exact B|exists s; exact A]. Qed.
End Answers.

Section Downside.
  Variables (w : world) (o : ef) (u : list (nat * con)) (w1 : world) (o1 : ef) (u1 : list (nat * con)) (sv sv' : solver_t) (mn : bool).
  Hypothesis Ho : open_ef w o u.
  Hypothesis Ho1 : open_ef w1 o1 u1.
  Hypothesis Hsv : exact_solver sv.
  Hypothesis Hsv' : exact_solver sv'.
  Hypothesis Ht : tighter mn w o u w1 o1 u1.

  Local Notation both := (never_helps w o w1 o1 u1).
  Lemma both_from : forall ok cost before after,
    (forall w' o' d, before = (w', o', Ok d) -> answer w o u mn ok cost (e_weights o') d) ->
    (forall w' o' d, after = (w', o', Ok d) -> answer w1 o1 u1 mn ok cost (e_weights o') d) ->
    convex_set o1 ok -> convex_on (e_n o1) cost -> both cost before after.
  Proof.
    intros ok cost before after Hb Ha Hok Hc. split; [exact (no_gain_from w o u w1 o1 u1 mn Ht ok cost before after Hb Ha)|]. intros Hp HR.
    exact (idle_from w o u w1 o1 u1 mn Ht ok cost before after Hb Ha Hp Hok (regular_decides w1 o1 cost Hc HR)).
  Qed.
  Lemma cvar_cx : forall d, cvar_ready w1 o1 u1 d -> convex_on (e_n o1) (cvar (cv_beta d) (cv_returns d)).
  Proof. intros d [[Ht1 Ht2] [Hb _]]. apply cvar_convex; [exact Hb|auto]. Qed.
  Lemma cdar_cx : forall d, cdar_ready w1 o1 u1 d -> convex_on (e_n o1) (cdar (cd_beta d) (cd_returns d)).
  Proof. intros d [[Ht1 Ht2] [Hb _]]. apply cdar_convex; [exact Hb|auto]. Qed.

  Lemma more_min_downside :
    (forall d, semi_ready w o u d -> semi_ready w1 o1 u1 d -> both (semivariance (sd_returns d) (sd_bench d * (if mn then 0 else 1))) (min_semivariance sv d mn w o) (min_semivariance sv' d mn w1 o1)) /\
    (forall d, cvar_ready w o u d -> cvar_ready w1 o1 u1 d -> both (cvar (cv_beta d) (cv_returns d)) (min_cvar sv d mn w o) (min_cvar sv' d mn w1 o1)) /\
    (forall d, cdar_ready w o u d -> cdar_ready w1 o1 u1 d -> both (cdar (cd_beta d) (cd_returns d)) (min_cdar sv d mn w o) (min_cdar sv' d mn w1 o1)).
  Proof.
    split; [|split]; intros d R R1; apply both_from with (ok := fun _ => True); try apply set_true.
    - exact (a_min_semivariance w o u sv mn Ho Hsv d R).
    - exact (a_min_semivariance w1 o1 u1 sv' mn Ho1 Hsv' d R1).
    - apply semivariance_convex.
    - exact (a_min_cvar w o u sv mn Ho Hsv d R).
    - exact (a_min_cvar w1 o1 u1 sv' mn Ho1 Hsv' d R1).
    - apply cvar_cx, R1.
    - exact (a_min_cdar w o u sv mn Ho Hsv d R).
    - exact (a_min_cdar w1 o1 u1 sv' mn Ho1 Hsv' d R1).
    - apply cdar_cx, R1.
  Qed.
  Variable m : list R.
  Hypothesis Hm : e_mu o = Some m.
  Lemma more_semivariance : forall d, semi_ready w o u d -> semi_ready w1 o1 u1 d -> 0 <= sd_freq d ->
    (forall t, fresh_name w o "target_semivariance" -> fresh_name w1 o1 "target_semivariance" ->
       both (fun x => - inner m x) (semi_efficient_risk sv d t mn w o) (semi_efficient_risk sv' d t mn w1 o1)) /\
    (forall t, fresh_name w o "target_return" -> fresh_name w1 o1 "target_return" ->
       both (semivariance (sd_returns d) (sd_bench d * (if mn then 0 else 1))) (semi_efficient_return sv d (NFloat t) mn w o) (semi_efficient_return sv' d (NFloat t) mn w1 o1)) /\
    (forall k, fresh_name w o "risk_aversion" -> fresh_name w1 o1 "risk_aversion" ->
       both (fun x => - inner m x / sd_freq d + 1 / 2 * k * semivariance (sd_returns d) (sd_bench d * (if mn then 0 else 1)) x)
         (semi_max_quadratic_utility sv d k mn w o) (semi_max_quadratic_utility sv' d k mn w1 o1)).
  Proof.
    intros d R R1 Hq. pose proof (Hm1 w o u w1 o1 u1 mn m Ht Hm) as M1. split; [|split].
    - intros t F F1. eapply both_from; [exact (a_semi_risk w o u sv mn Ho Hsv m Hm d t R F Hq)|exact (a_semi_risk w1 o1 u1 sv' mn Ho1 Hsv' m M1 d t R1 F1 Hq)| |apply linear_convex].
      apply (set_below o1 (fun x => sd_freq d * semivariance (sd_returns d) (sd_bench d * (if mn then 0 else 1)) x)). intros x y k Lx Ly Hk.
      pose proof (semivariance_convex (e_n o1) (sd_returns d) (sd_bench d * (if mn then 0 else 1)) x y k Lx Ly Hk) as C. apply Rmult_le_compat_l with (r := sd_freq d) in C; [lra|exact Hq].
    - intros t F F1. eapply both_from; [exact (a_semi_return w o u sv mn Ho Hsv m Hm d t R F)|exact (a_semi_return w1 o1 u1 sv' mn Ho1 Hsv' m M1 d t R1 F1)|apply set_above|apply semivariance_convex].
    - intros k F F1. destruct (Rlt_dec 0 k) as [Hk|Hk].
      + apply both_from with (ok := fun _ => True); [intros w' o' dd E; exact (proj2 (a_semi_utility w o u sv mn Ho Hsv m Hm d k R F w' o' dd E))
          |intros w' o' dd E; exact (proj2 (a_semi_utility w1 o1 u1 sv' mn Ho1 Hsv' m M1 d k R1 F1 w' o' dd E))|apply set_true|].
        intros x y t Lx Ly Htt. pose proof (semivariance_convex (e_n o1) (sd_returns d) (sd_bench d * (if mn then 0 else 1)) x y t Lx Ly Htt) as C. apply Rmult_le_compat_l with (r := 1 / 2 * k) in C; [|lra].
        rewrite inner_blend by congruence. unfold Rdiv at 1 3 5. lra.
      + pose proof (a_semi_utility w o u sv mn Ho Hsv m Hm d k R F) as A. unfold never_helps, no_gain, idle.
        destruct (semi_max_quadratic_utility sv d k mn w o) as [[wb ob] [db|eb]]; [destruct (A _ _ _ eq_refl) as [K _]; contradiction|split; [exact I|intros; exact I]].
  Qed.
  Lemma more_tails : forall t,
    (forall d, cvar_ready w o u d -> cvar_ready w1 o1 u1 d -> fresh_name w o "target_cvar" -> fresh_name w1 o1 "target_cvar" ->
       both (fun x => - inner m x) (cvar_efficient_risk sv d t mn w o) (cvar_efficient_risk sv' d t mn w1 o1)) /\
    (forall d, cvar_ready w o u d -> cvar_ready w1 o1 u1 d -> fresh_name w o "target_return" -> fresh_name w1 o1 "target_return" ->
       both (cvar (cv_beta d) (cv_returns d)) (cvar_efficient_return sv d t mn w o) (cvar_efficient_return sv' d t mn w1 o1)) /\
    (forall d, cdar_ready w o u d -> cdar_ready w1 o1 u1 d -> fresh_name w o "target_cdar" -> fresh_name w1 o1 "target_cdar" ->
       both (fun x => - inner m x) (cdar_efficient_risk sv d t mn w o) (cdar_efficient_risk sv' d t mn w1 o1)) /\
    (forall d, cdar_ready w o u d -> cdar_ready w1 o1 u1 d -> fresh_name w o "target_return" -> fresh_name w1 o1 "target_return" ->
       both (cdar (cd_beta d) (cd_returns d)) (cdar_efficient_return sv d t mn w o) (cdar_efficient_return sv' d t mn w1 o1)).
  Proof.
    intros t. pose proof (Hm1 w o u w1 o1 u1 mn m Ht Hm) as M1. split; [|split; [|split]]; intros d R R1 F F1.
    - eapply both_from; [exact (a_cvar_risk w o u sv mn Ho Hsv m Hm d t R F)|exact (a_cvar_risk w1 o1 u1 sv' mn Ho1 Hsv' m M1 d t R1 F1)|apply set_below, cvar_cx, R1|apply linear_convex].
    - eapply both_from; [exact (a_cvar_return w o u sv mn Ho Hsv m Hm d t R F)|exact (a_cvar_return w1 o1 u1 sv' mn Ho1 Hsv' m M1 d t R1 F1)|apply set_above|apply cvar_cx, R1].
    - eapply both_from; [exact (a_cdar_risk w o u sv mn Ho Hsv m Hm d t R F)|exact (a_cdar_risk w1 o1 u1 sv' mn Ho1 Hsv' m M1 d t R1 F1)|apply set_below, cdar_cx, R1|apply linear_convex].
    - eapply both_from; [exact (a_cdar_return w o u sv mn Ho Hsv m Hm d t R F)|exact (a_cdar_return w1 o1 u1 sv' mn Ho1 Hsv' m M1 d t R1 F1)|apply set_above|apply cdar_cx, R1].
  Qed.
End Downside.
