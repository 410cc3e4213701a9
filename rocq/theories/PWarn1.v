(** * The methods with warnings do what the methods without do *)
From Coq Require Import ZArith List String Bool Reals Lia Lra.
From Verif Require Import Num RBase Py SLin Sums MConvex MEF MDown MCalls MPlot MFrame MBase MArray MWarn PEF2 PDown.
Import ListNotations.
Local Open Scope R_scope.
Local Open Scope m_scope.

(** ** The warnings come on top, the rest is the same *)
Definition erases {X} (mw : M wef X) (m : M ef X) : Prop :=
  forall w ws o, exists new, mw w (ws, o) = match m w o with (w', o', r) => (w', (ws ++ new, o'), r) end.
Lemma er_quietly : forall X (m : M ef X), erases (quietly m) m.
Proof. intros X m w ws o. exists []. unfold quietly. cbn [fst snd]. destruct (m w o) as [[w' o'] r]. rewrite app_nil_r. reflexivity. Qed.
Lemma er_raise : forall X e, erases (@raise wef X e) (raise e).
Proof. intros X e w ws o. exists []. unfold raise. rewrite app_nil_r. reflexivity. Qed.
Lemma er_ret : forall X (x : X), erases (ret x) (ret x).
Proof. intros X e w ws o. exists []. unfold ret. rewrite app_nil_r. reflexivity. Qed.
Lemma er_bind : forall X Y (mw : M wef X) m (kw : X -> M wef Y) k,
  erases mw m -> (forall x, erases (kw x) (k x)) -> erases (bind mw kw) (bind m k).
Proof.
  intros X Y mw m kw k Hm Hk w ws o. destruct (Hm w ws o) as [n1 E1]. unfold bind. rewrite E1. destruct (m w o) as [[w1 o1] [x|e]].
  - destruct (Hk x w1 (ws ++ n1) o1) as [n2 E2]. exists (n1 ++ n2). rewrite E2. destruct (k x w1 o1) as [[w2 o2] r]. rewrite app_assoc. reflexivity.
  - exists n1. reflexivity.
Qed.
Lemma er_warn : forall X x (mw : M wef X) m, erases mw m -> erases (warn x ;; mw) m.
Proof.
  intros X x mw m H w ws o. destruct (H w (ws ++ [x]) o) as [n E]. exists (x :: n). unfold bind, warn. cbn [fst snd]. rewrite E.
  destruct (m w o) as [[w' o'] r]. rewrite <- app_assoc. reflexivity.
Qed.
Lemma er_when_warn : forall X b x (mw : M wef X) m, erases mw m -> erases (when b (warn x) ;; mw) m.
Proof.
  intros X b x mw m H. destruct b; cbn [when]; [apply er_warn; exact H|]. intros w ws o. unfold bind, ret. apply H.
Qed.
Lemma er_when : forall b mw m, erases mw m -> erases (when b mw) (when b m).
Proof. intros b mw m H. destruct b; [exact H|apply er_ret]. Qed.
Lemma er_get : forall X (kw : ef -> M wef X) m, (forall o, erases (kw o) m) -> erases (o <- quietly get ;; kw o) m.
Proof. intros X kw m H w ws o. unfold bind, quietly, get. cbn [fst snd]. apply H. Qed.

Ltac er := repeat first
  [ progress intros
  | apply er_quietly | apply er_raise | apply er_ret | assumption
  | apply er_when_warn | apply er_warn | apply er_when
  | apply er_bind
  | match goal with |- erases (match ?x with _ => _ end) _ => destruct x eqn:? end
  | match goal with |- erases (if ?x then _ else _) _ => destruct x eqn:? end ].

Lemma er_sector : forall m l u, erases (add_sector_constraints_w m l u) (add_sector_constraints m l u).
Proof. intros m l u. apply er_get. intros o. apply er_when_warn. apply er_quietly. Qed.
Lemma er_sum : forall mn, erases (make_weight_sum_constraint_w mn) (make_weight_sum_constraint mn).
Proof. intros mn. unfold make_weight_sum_constraint_w, make_weight_sum_constraint. er. Qed.
Lemma er_sharpe : forall sv rf, erases (max_sharpe_w sv rf) (max_sharpe sv rf).
Proof. intros sv rf. unfold max_sharpe_w, max_sharpe. destruct rf; er. Qed.
Lemma er_utility : forall sv a mn, erases (max_quadratic_utility_w sv a mn) (max_quadratic_utility sv a mn).
Proof. intros sv a mn. pose proof (er_sum mn). unfold max_quadratic_utility_w, max_quadratic_utility. er. Qed.
Lemma er_risk : forall sv pinv t mn, erases (efficient_risk_w sv pinv t mn) (efficient_risk sv pinv t mn).
Proof. intros sv pinv t mn. pose proof (er_sum mn). unfold efficient_risk_w, efficient_risk. er. Qed.
Lemma er_return : forall sv t mn, erases (efficient_return_w sv t mn) (efficient_return sv t mn).
Proof. intros sv t mn. pose proof (er_sum mn). unfold efficient_return_w, efficient_return. destruct t; er. Qed.
Lemma er_run : forall sv ns pinv c, erases (run_w sv ns pinv c) (run sv ns pinv c).
Proof.
  intros sv ns pinv c. pose proof er_sector. pose proof er_sharpe. pose proof er_utility. pose proof er_risk. pose proof er_return.
  destruct c; cbn [run_w run]; unfold drop; auto using er_quietly, er_bind, er_ret; er; auto.
Qed.
Theorem same_calls : forall sv ns pinv cs w o ws, exists new,
  run_all_w sv ns pinv cs w (ws, o) = match run_all sv ns pinv cs w o with (w', o') => (w', (ws ++ new, o')) end.
Proof.
  intros sv ns pinv. induction cs as [|c cs IH]; intros w o ws; cbn [run_all_w run_all].
  - exists []. rewrite app_nil_r. reflexivity.
  - destruct (er_run sv ns pinv c w ws o) as [n1 E1]. rewrite E1. destruct (run sv ns pinv c w o) as [[w1 o1] r].
    destruct (IH w1 o1 (ws ++ n1)) as [n2 E2]. exists (n1 ++ n2). rewrite E2. destruct (run_all sv ns pinv cs w1 o1). rewrite app_assoc. reflexivity.
Qed.

Lemma er_g_min : forall sv k mn, erases (g_min_w sv k mn) (g_min sv k mn).
Proof. intros sv k mn. pose proof (er_sum mn). destruct k; unfold g_min_w, g_min, min_semivariance, min_cvar, min_cdar; er. Qed.
Lemma er_g_utility : forall sv k a mn, erases (g_utility_w sv k a mn) (g_utility sv k a mn).
Proof. intros sv k a mn. pose proof (er_sum mn). destruct k; unfold g_utility_w, g_utility, semi_max_quadratic_utility; er. Qed.
Lemma er_g_risk : forall sv k a mn, erases (g_risk_w sv k a mn) (g_risk sv k a mn).
Proof. intros sv k a mn. pose proof (er_sum mn). destruct k; unfold g_risk_w, g_risk, semi_efficient_risk, cvar_efficient_risk, cdar_efficient_risk; er. Qed.
Lemma er_g_return : forall sv k a mn, erases (g_return_w sv k a mn) (g_return sv k a mn).
Proof.
  intros sv k a mn. pose proof (er_sum mn). destruct k; unfold g_return_w, g_return, semi_efficient_return, cvar_efficient_return, cdar_efficient_return.
  - er.
  - er.
  - pose proof (er_g_min sv (DCDaR d) mn) as E. cbn [g_min] in E. er.
Qed.
Lemma er_g_run : forall sv ns k c, erases (g_run_w sv ns k c) (g_run sv ns k c).
Proof.
  intros sv ns k c. pose proof er_sector. pose proof er_g_min. pose proof er_g_utility. pose proof er_g_risk. pose proof er_g_return.
  destruct c; cbn [g_run_w g_run]; unfold drop; auto using er_quietly, er_bind, er_ret; er; auto.
Qed.
Theorem same_g_calls : forall sv ns k cs w o ws, exists new,
  g_run_all_w sv ns k cs w (ws, o) = match g_run_all sv ns k cs w o with (w', o', _) => (w', (ws ++ new, o')) end.
Proof.
  intros sv ns k. induction cs as [|c cs IH]; intros w o ws; cbn [g_run_all_w g_run_all].
  - exists []. rewrite app_nil_r. reflexivity.
  - destruct (er_g_run sv ns k c w ws o) as [n1 E1]. rewrite E1. destruct (g_run sv ns k c w o) as [[w1 o1] r].
    destruct (IH w1 o1 (ws ++ n1)) as [n2 E2]. exists (n1 ++ n2). rewrite E2. destruct (g_run_all sv ns k cs w1 o1) as [[? ?] ?]. rewrite app_assoc. reflexivity.
Qed.
