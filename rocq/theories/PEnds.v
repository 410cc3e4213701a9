(** * The tail optimizers at the two ends of the confidence level (C139) *)
From Coq Require Import ZArith String List Bool Reals Lia Lra Permutation.
From Verif Require Import Num Py RBase PyLemmas SBL MBase MConvex MEF MDown SLin SBase SConvex SPerm SUnits SDown SDays SEnds Sums Mat PBase PConvex PEF PEF2 PDown5 PPerm PPerm2 PRisk PDays PDays2 PDays3 PTail.
Import ListNotations.
Local Open Scope R_scope.

Lemma largest_in : forall l x, In (fold_right Rmax x l) (x :: l).
Proof.
  induction l as [|a l IH]; intros x; [left; reflexivity|]. cbn [fold_right]. destruct (Rle_dec a (fold_right Rmax x l)) as [L|L].
  - rewrite Rmax_right by exact L. destruct (IH x) as [E|E]; [left; exact E|right; right; exact E].
  - rewrite Rmax_left by lra. right. left. reflexivity.
Qed.
Lemma largest_ge : forall l x y, In y (x :: l) -> y <= fold_right Rmax x l.
Proof.
  induction l as [|a l IH]; intros x y H; cbn [fold_right].
  - destruct H as [->|[]]. lra.
  - destruct H as [->|[->|H]].
    + apply Rle_trans with (fold_right Rmax y l); [apply IH; left; reflexivity|apply Rmax_r].
    + apply Rmax_l.
    + apply Rle_trans with (fold_right Rmax x l); [apply IH; right; exact H|apply Rmax_r].
Qed.
Theorem largest_spec : forall l, (0 < length l)%nat -> In (largest l) l /\ forall y, In y l -> y <= largest l.
Proof. intros [|x l] H; [cbn in H; lia|]. split; [apply largest_in|intros y; apply largest_ge]. Qed.

Lemma worst_one : forall beta l, (0 < length l)%nat -> beta < 1 -> (1 - beta) * INR (length l) <= 1 -> worst_mean beta l = largest l.
Proof.
  intros beta l Hl Hb Hk. unfold worst_mean. pose proof (lt_0_INR _ Hl) as Hp. set (k := (1 - beta) * INR (length l)) in *. assert (K : 0 < k) by (unfold k; nra).
  pose proof (sort_perm l) as Pm. pose proof (sort_is_desc l) as Ds. destruct (sort_desc l) as [|a q] eqn:Es.
  - apply Permutation_length in Pm. cbn in Pm. lia.
  - cbn [first]. destruct (Rle_dec k 1) as [_|N]; [|contradiction]. replace (k * a / k) with a by (field; lra).
    destruct (largest_spec l Hl) as [I G]. apply Rle_antisym.
    + apply G. apply (Permutation_in _ (Permutation_sym Pm)). left. reflexivity.
    + apply (Permutation_in _ Pm) in I. destruct I as [->|I]; [lra|]. destruct Ds as [Ds _]. rewrite Forall_forall in Ds. apply Ds. exact I.
Qed.
Lemma worst_end : forall beta l f, (0 < length l)%nat -> beta < 1 -> tail_end beta (length l) f -> worst_mean beta l = f l.
Proof. intros beta l f Hl Hb [[-> ->]|[Hk ->]]; [apply worst_all|apply worst_one; assumption]. Qed.
Lemma cvar_end : forall beta rets f x, (0 < length rets)%nat -> beta < 1 -> tail_end beta (length rets) f -> cvar beta rets x = f (day_losses rets x).
Proof.
  intros beta rets f x Hl Hb H. unfold cvar. replace (map Ropp (period_returns rets x)) with (day_losses rets x) by (unfold day_losses, period_returns; rewrite map_map; reflexivity).
  apply worst_end; unfold day_losses; rewrite ?map_length; assumption.
Qed.
Lemma cdar_end : forall beta rets f x, (0 < length rets)%nat -> beta < 1 -> tail_end beta (length rets) f -> cdar beta rets x = f (falls rets x).
Proof.
  intros beta rets f x Hl Hb H. unfold cdar. fold (falls rets x). assert (L : length (falls rets x) = length rets) by (unfold falls; rewrite drawdowns_length; apply map_length).
  apply worst_end; rewrite ?L; assumption.
Qed.
Lemma chosen_ext : forall n lb ub sum (ok ok' : list R -> Prop) cost cost' x, (forall y, ok y <-> ok' y) -> (forall y, cost y = cost' y) ->
  chosen n lb ub sum ok cost x -> chosen n lb ub sum ok' cost' x.
Proof.
  intros n lb ub sum ok ok' cost cost' x Ho Hc (L & W & T & O & H). split; [exact L|]. split; [exact W|]. split; [exact T|]. split; [apply Ho; exact O|].
  intros y Ly Wy Ty Oy. rewrite <- !Hc. apply H; try assumption. apply Ho. exact Oy.
Qed.
Lemma answers_ext : forall ts lb ub sum (ok ok' : list R -> Prop) cost cost' r, (forall y, ok y <-> ok' y) -> (forall y, cost y = cost' y) ->
  answers ts lb ub sum ok cost r -> answers ts lb ub sum ok' cost' r.
Proof. intros ts lb ub sum ok ok' cost cost' r Ho Hc (x & q & C & H). exists x, q. split; [exact (chosen_ext _ _ _ _ _ _ _ _ _ Ho Hc C)|exact H]. Qed.

Section cvar.
  Variables (s : list (label * R)) (rows : list (list (option R))) (beta : R) (b : bounds_arg) (v w : world) (o : ef) (d : cvar_data) (f : list R -> R).
  Hypothesis (Made : cvar_made s rows beta b v w o d) (End : tail_end beta (length (dropna rows)) f).
  Lemma cvar_at_end : forall x, cvar beta (dropna rows) x = f (day_losses (dropna rows) x).
  Proof.
    destruct Made as [Hg E]. destruct (cvar_run_facts _ _ _ _ _ _ _ _ Hg E) as (_ & ((T & _) & B & _) & (D1 & D2) & _). rewrite D1 in T. rewrite D2 in B.
    intros x. apply cvar_end; [exact T|lra|exact End].
  Qed.
  Variables (sv : solver_t) (mn : bool).
  Hypothesis X : exact_solver sv.
  Theorem cvar_min_end : forall x y r, NoDup (map fst s) -> min_cvar sv d mn w o = (x, y, Ok r) ->
  exists lb ub, bounds_in_force mn o lb ub /\ answers (map fst s) lb ub (if mn then 0 else 1) (fun _ => True) (fun x => f (day_losses (dropna rows) x)) r.
  Proof.
    intros x y r Hnd E1. destruct Made as [Hg E]. destruct (cvar_min_run _ _ _ _ _ _ _ _ Hg E sv mn X _ _ _ Hnd E1) as (lb & ub & B & A). exists lb, ub. split; [exact B|].
    refine (answers_ext _ _ _ _ _ _ _ _ _ _ _ A); [intros u0; tauto|intros u0; apply cvar_at_end].
  Qed.
  Theorem cvar_min_end_iff : complete_solver sv -> (succeeds (min_cvar sv d mn) w o <-> exists lb ub x, bounds_in_force mn o lb ub /\ chosen (length s) lb ub (if mn then 0 else 1) (fun _ => True) (fun x => f (day_losses (dropna rows) x)) x).
  Proof.
    intros K. destruct Made as [Hg E]. rewrite (cvar_min_iff _ _ _ _ _ _ _ _ Hg E sv mn X K).
    split; [intros (lb & ub & u & B & C); exists lb, ub, u; (split; [exact B|]); (refine (chosen_ext _ _ _ _ _ _ _ _ _ _ _ C); [intros u0; tauto|intros u0; apply cvar_at_end])|intros (lb & ub & u & B & C); exists lb, ub, u; (split; [exact B|]); (refine (chosen_ext _ _ _ _ _ _ _ _ _ _ _ C); [intros u0; tauto|intros u0; symmetry; apply cvar_at_end])].
  Qed.
  Theorem cvar_risk_end : forall t, forall x y r, NoDup (map fst s) -> cvar_efficient_risk sv d t mn w o = (x, y, Ok r) ->
  exists lb ub, bounds_in_force mn o lb ub /\ answers (map fst s) lb ub (if mn then 0 else 1) (fun x => f (day_losses (dropna rows) x) <= t) (fun x => - inner (map snd s) x) r.
  Proof.
    intros t x y r Hnd E1. destruct Made as [Hg E]. destruct (cvar_risk_run _ _ _ _ _ _ _ _ Hg E sv mn X _ _ _ _ Hnd E1) as (lb & ub & B & A). exists lb, ub. split; [exact B|].
    refine (answers_ext _ _ _ _ _ _ _ _ _ _ _ A); [intros u0; rewrite (cvar_at_end u0); tauto|intros u0; reflexivity].
  Qed.
  Theorem cvar_risk_end_iff : complete_solver sv -> forall t, (succeeds (cvar_efficient_risk sv d t mn) w o <-> 0 <= t /\ exists lb ub x, bounds_in_force mn o lb ub /\ chosen (length s) lb ub (if mn then 0 else 1) (fun x => f (day_losses (dropna rows) x) <= t) (fun x => - inner (map snd s) x) x).
  Proof.
    intros K t. destruct Made as [Hg E]. rewrite (cvar_risk_iff _ _ _ _ _ _ _ _ Hg E sv mn X K t).
    split; [intros (G & (lb & ub & u & B & C)); (split; [exact G|]); exists lb, ub, u; (split; [exact B|]); (refine (chosen_ext _ _ _ _ _ _ _ _ _ _ _ C); [intros u0; rewrite (cvar_at_end u0); tauto|intros u0; reflexivity])|intros (G & (lb & ub & u & B & C)); (split; [exact G|]); exists lb, ub, u; (split; [exact B|]); (refine (chosen_ext _ _ _ _ _ _ _ _ _ _ _ C); [intros u0; rewrite (cvar_at_end u0); tauto|intros u0; reflexivity])].
  Qed.
  Theorem cvar_return_end : forall t, forall x y r, NoDup (map fst s) -> cvar_efficient_return sv d t mn w o = (x, y, Ok r) ->
  exists lb ub, bounds_in_force mn o lb ub /\ answers (map fst s) lb ub (if mn then 0 else 1) (fun x => t <= inner (map snd s) x) (fun x => f (day_losses (dropna rows) x)) r.
  Proof.
    intros t x y r Hnd E1. destruct Made as [Hg E]. destruct (cvar_return_run _ _ _ _ _ _ _ _ Hg E sv mn X _ _ _ _ Hnd E1) as (lb & ub & B & A). exists lb, ub. split; [exact B|].
    refine (answers_ext _ _ _ _ _ _ _ _ _ _ _ A); [intros u0; tauto|intros u0; apply cvar_at_end].
  Qed.
  Theorem cvar_return_end_iff : complete_solver sv -> forall t, (succeeds (cvar_efficient_return sv d t mn) w o <-> exists lb ub x, bounds_in_force mn o lb ub /\ chosen (length s) lb ub (if mn then 0 else 1) (fun x => t <= inner (map snd s) x) (fun x => f (day_losses (dropna rows) x)) x).
  Proof.
    intros K t. destruct Made as [Hg E]. rewrite (cvar_return_iff _ _ _ _ _ _ _ _ Hg E sv mn X K t).
    split; [intros (lb & ub & u & B & C); exists lb, ub, u; (split; [exact B|]); (refine (chosen_ext _ _ _ _ _ _ _ _ _ _ _ C); [intros u0; tauto|intros u0; apply cvar_at_end])|intros (lb & ub & u & B & C); exists lb, ub, u; (split; [exact B|]); (refine (chosen_ext _ _ _ _ _ _ _ _ _ _ _ C); [intros u0; tauto|intros u0; symmetry; apply cvar_at_end])].
  Qed.
End cvar.

Section cdar.
  Variables (s : list (label * R)) (rows : list (list (option R))) (beta : R) (b : bounds_arg) (v w : world) (o : ef) (d : cdar_data) (f : list R -> R).
  Hypothesis (Made : cdar_made s rows beta b v w o d) (End : tail_end beta (length (dropna rows)) f).
  Lemma cdar_at_end : forall x, cdar beta (dropna rows) x = f (falls (dropna rows) x).
  Proof.
    destruct Made as [Hg E]. destruct (cdar_run_facts _ _ _ _ _ _ _ _ Hg E) as (_ & ((T & _) & B & _) & (D1 & D2) & _). rewrite D1 in T. rewrite D2 in B.
    intros x. apply cdar_end; [exact T|lra|exact End].
  Qed.
  Variables (sv : solver_t) (mn : bool).
  Hypothesis X : exact_solver sv.
  Theorem cdar_min_end : forall x y r, NoDup (map fst s) -> min_cdar sv d mn w o = (x, y, Ok r) ->
  exists lb ub, bounds_in_force mn o lb ub /\ answers (map fst s) lb ub (if mn then 0 else 1) (fun _ => True) (fun x => f (falls (dropna rows) x)) r.
  Proof.
    intros x y r Hnd E1. destruct Made as [Hg E]. destruct (cdar_min_run _ _ _ _ _ _ _ _ Hg E sv mn X _ _ _ Hnd E1) as (lb & ub & B & A). exists lb, ub. split; [exact B|].
    refine (answers_ext _ _ _ _ _ _ _ _ _ _ _ A); [intros u0; tauto|intros u0; apply cdar_at_end].
  Qed.
  Theorem cdar_min_end_iff : complete_solver sv -> (succeeds (min_cdar sv d mn) w o <-> exists lb ub x, bounds_in_force mn o lb ub /\ chosen (length s) lb ub (if mn then 0 else 1) (fun _ => True) (fun x => f (falls (dropna rows) x)) x).
  Proof.
    intros K. destruct Made as [Hg E]. rewrite (cdar_min_iff _ _ _ _ _ _ _ _ Hg E sv mn X K).
    split; [intros (lb & ub & u & B & C); exists lb, ub, u; (split; [exact B|]); (refine (chosen_ext _ _ _ _ _ _ _ _ _ _ _ C); [intros u0; tauto|intros u0; apply cdar_at_end])|intros (lb & ub & u & B & C); exists lb, ub, u; (split; [exact B|]); (refine (chosen_ext _ _ _ _ _ _ _ _ _ _ _ C); [intros u0; tauto|intros u0; symmetry; apply cdar_at_end])].
  Qed.
  Theorem cdar_risk_end : forall t, forall x y r, NoDup (map fst s) -> cdar_efficient_risk sv d t mn w o = (x, y, Ok r) ->
  exists lb ub, bounds_in_force mn o lb ub /\ answers (map fst s) lb ub (if mn then 0 else 1) (fun x => f (falls (dropna rows) x) <= t) (fun x => - inner (map snd s) x) r.
  Proof.
    intros t x y r Hnd E1. destruct Made as [Hg E]. destruct (cdar_risk_run _ _ _ _ _ _ _ _ Hg E sv mn X _ _ _ _ Hnd E1) as (lb & ub & B & A). exists lb, ub. split; [exact B|].
    refine (answers_ext _ _ _ _ _ _ _ _ _ _ _ A); [intros u0; rewrite (cdar_at_end u0); tauto|intros u0; reflexivity].
  Qed.
  Theorem cdar_risk_end_iff : complete_solver sv -> forall t, (succeeds (cdar_efficient_risk sv d t mn) w o <-> 0 <= t /\ exists lb ub x, bounds_in_force mn o lb ub /\ chosen (length s) lb ub (if mn then 0 else 1) (fun x => f (falls (dropna rows) x) <= t) (fun x => - inner (map snd s) x) x).
  Proof.
    intros K t. destruct Made as [Hg E]. rewrite (cdar_risk_iff _ _ _ _ _ _ _ _ Hg E sv mn X K t).
    split; [intros (G & (lb & ub & u & B & C)); (split; [exact G|]); exists lb, ub, u; (split; [exact B|]); (refine (chosen_ext _ _ _ _ _ _ _ _ _ _ _ C); [intros u0; rewrite (cdar_at_end u0); tauto|intros u0; reflexivity])|intros (G & (lb & ub & u & B & C)); (split; [exact G|]); exists lb, ub, u; (split; [exact B|]); (refine (chosen_ext _ _ _ _ _ _ _ _ _ _ _ C); [intros u0; rewrite (cdar_at_end u0); tauto|intros u0; reflexivity])].
  Qed.
  Theorem cdar_return_end : forall t, forall x y r, NoDup (map fst s) -> cdar_efficient_return sv d t mn w o = (x, y, Ok r) ->
  exists lb ub, bounds_in_force mn o lb ub /\ answers (map fst s) lb ub (if mn then 0 else 1) (fun x => t <= inner (map snd s) x) (fun x => f (falls (dropna rows) x)) r.
  Proof.
    intros t x y r Hnd E1. destruct Made as [Hg E]. destruct (cdar_return_run _ _ _ _ _ _ _ _ Hg E sv mn X _ _ _ _ Hnd E1) as (lb & ub & B & A). exists lb, ub. split; [exact B|].
    refine (answers_ext _ _ _ _ _ _ _ _ _ _ _ A); [intros u0; tauto|intros u0; apply cdar_at_end].
  Qed.
  Theorem cdar_return_end_iff : complete_solver sv -> forall t, (succeeds (cdar_efficient_return sv d t mn) w o <-> 0 <= t /\ exists lb ub x, bounds_in_force mn o lb ub /\ chosen (length s) lb ub (if mn then 0 else 1) (fun x => t <= inner (map snd s) x) (fun x => f (falls (dropna rows) x)) x).
  Proof.
    intros K t. destruct Made as [Hg E]. rewrite (cdar_return_iff _ _ _ _ _ _ _ _ Hg E sv mn X K t).
    split; [intros (G & (lb & ub & u & B & C)); (split; [exact G|]); exists lb, ub, u; (split; [exact B|]); (refine (chosen_ext _ _ _ _ _ _ _ _ _ _ _ C); [intros u0; tauto|intros u0; apply cdar_at_end])|intros (G & (lb & ub & u & B & C)); (split; [exact G|]); exists lb, ub, u; (split; [exact B|]); (refine (chosen_ext _ _ _ _ _ _ _ _ _ _ _ C); [intros u0; tauto|intros u0; symmetry; apply cdar_at_end])].
  Qed.
End cdar.
