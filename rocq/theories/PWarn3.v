(** * One call and its warnings *)
From Coq Require Import ZArith List String Bool Reals Lia Lra.
From Verif Require Import Num RBase Py SLin Sums MConvex MEF MDown MCalls MPlot MFrame MBase MArray MWarn SConvex SWarn PEF PEF2 PDown PWarn1 PWarn2.
Import ListNotations.
Local Open Scope R_scope.
Local Open Scope m_scope.

Lemma long_iff : forall lb, any_negative lb = false <-> all_long lb.
Proof.
  intros lb. rewrite any_negative_iff. unfold no_short_allowed, all_long. rewrite Forall_forall. split; intros H b Hb.
  - specialize (H b Hb). destruct b as [x|]; [exists x; auto|contradiction].
  - destruct (H b Hb) as (x & -> & Hx). exact Hx.
Qed.
Lemma short_iff : forall lb, any_negative lb = true <-> ~ all_long lb.
Proof. intros lb. rewrite <- long_iff. destruct (any_negative lb); split; congruence. Qed.
Lemma widened_of : forall o o', e_lb o' = repeat (Some (-1)) (e_n o) -> e_ub o' = repeat (Some 1) (e_n o) -> widened o o'.
Proof.
  intros o o' A B. unfold widened. rewrite A, B, !repeat_length. repeat split; intros b Hb; apply repeat_spec in Hb; exact Hb.
Qed.

Lemma effect_silent : forall (neutral sectors sharpe : Prop) o ws s' r, fst s' = ws -> kb o (snd s') -> ~ sectors -> ~ sharpe ->
  exists new, fst s' = ws ++ new /\ effect neutral sectors sharpe o new (snd s') r.
Proof.
  intros n s h o ws s' r A (B & C & D) Hs Hh. exists []. rewrite app_nil_r. split; [exact A|]. unfold effect, same_bounds. cbn.
  repeat split; try tauto; try assumption; [intros x []|lia|unfold e_n; rewrite D; reflexivity].
Qed.
Lemma effect_amends : forall (neutral sectors sharpe : Prop) o ws s' r new, fst s' = ws ++ new -> amended o new (snd s') -> neutral -> ~ sectors -> ~ sharpe ->
  exists new, fst s' = ws ++ new /\ effect neutral sectors sharpe o new (snd s') r.
Proof.
  intros n s h o ws s' r new A B Hn Hs Hh. destruct B as [[-> B]|(-> & L & B & C & D)].
  - apply effect_silent; auto. rewrite app_nil_r in A. exact A.
  - exists [WBounds]. split; [exact A|]. unfold effect. cbn [In]. split; [|split; [|split; [|split; [|split; [|split; [|split]]]]]].
    + intros _. split; [exact Hn|]. split; [apply long_iff; exact L|apply widened_of; assumption].
    + intros H. exfalso. apply H. auto.
    + split; [intros [H|[]]; discriminate|tauto].
    + intros [H|[]]; discriminate.
    + tauto.
    + intros x [<-|[]]. cbn. auto.
    + cbn. lia.
    + unfold e_n. rewrite D. reflexivity.
Qed.
Lemma si_sum_false : silent (make_weight_sum_constraint_w false).
Proof. unfold make_weight_sum_constraint_w. sis. Qed.
Ltac sis2 := repeat first [progress intros | apply si_sum_false | apply si_raise | apply si_ret | apply si_bind | apply si_when | apply si_quiet; kbs
  | match goal with |- silent (match ?x with _ => _ end) => destruct x eqn:? end | match goal with |- silent (if ?x then _ else _) => destruct x eqn:? end].
Lemma si_utility : forall sv a, silent (max_quadratic_utility_w sv a false).
Proof. intros. unfold max_quadratic_utility_w. sis2. Qed.
Lemma si_risk : forall sv pinv t, silent (efficient_risk_w sv pinv t false).
Proof. intros. unfold efficient_risk_w. sis2. Qed.
Lemma si_return : forall sv t, silent (efficient_return_w sv t false).
Proof. intros. unfold efficient_return_w. sis2. Qed.
Lemma si_g_min : forall sv k, silent (g_min_w sv k false).
Proof. intros. unfold g_min_w. sis2. Qed.
Lemma si_g_utility : forall sv k a, silent (g_utility_w sv k a false).
Proof. intros. unfold g_utility_w. sis2. Qed.
Lemma si_g_risk : forall sv k a, silent (g_risk_w sv k a false).
Proof. intros. unfold g_risk_w. sis2. Qed.
Lemma si_g_return : forall sv k a, silent (g_return_w sv k a false).
Proof. intros. unfold g_return_w. destruct k; repeat first [apply si_g_min | sis2]. Qed.
Lemma sectors_effect : forall m l u w ws o w' s' r, add_sector_constraints_w m l u w (ws, o) = (w', s', r) ->
  exists new, fst s' = ws ++ new /\ forall neutral, effect neutral True False o new (snd s') r.
Proof.
  intros m l u w ws o w' s' r E. unfold add_sector_constraints_w in E. unfold bind at 1 in E. unfold quietly at 1, get at 1 in E. cbn [fst snd] in E.
  assert (S : silent (quietly (add_sector_constraints m l u))) by (apply si_quiet; unfold add_sector_constraints; kbs).
  unfold bind in E. destruct (any_negative (e_lb o)) eqn:N; cbn [when] in E.
  - unfold warn in E. cbn [fst snd] in E. destruct (S _ _ _ _ _ _ E) as (A & B & C & D). exists [WShortSectors]. split; [exact A|].
    intros neutral. unfold effect, same_bounds. cbn [In]. rewrite short_iff in N. repeat split; try tauto; try (intros [H|[]]; discriminate); try (destruct H as [H|[]]; discriminate).
    + intros x [<-|[]]. cbn. auto.
    + cbn. lia.
    + unfold e_n. rewrite D. reflexivity.
  - unfold ret in E. destruct (S _ _ _ _ _ _ E) as (A & B & C & D). exists []. rewrite app_nil_r. split; [exact A|].
    intros neutral. unfold effect, same_bounds. cbn [In]. rewrite long_iff in N. repeat split; try tauto; [intros x []|cbn; lia|unfold e_n; rewrite D; reflexivity].
Qed.
Lemma sharpe_effect : forall sv rf w ws o w' s' r, (max_sharpe_w sv rf ;; ret tt) w (ws, o) = (w', s', r) ->
  exists new, fst s' = ws ++ new /\ forall neutral, effect neutral False True o new (snd s') r.
Proof.
  intros sv rf w ws o w' s' r E. unfold bind in E. destruct (max_sharpe_w sv rf w (ws, o)) as [[w1 s1] x] eqn:Em.
  destruct (max_sharpe_warns _ _ _ _ _ _ _ _ Em) as (new & A & (B1 & B2 & B3) & C & D). exists new.
  assert (H : s' = s1 /\ (r = Ok tt -> exists y, x = Ok y)).
  { destruct x as [y|e]; unfold ret in E; inversion E; subst; [split; [reflexivity|eauto]|split; [reflexivity|discriminate]]. }
  destruct H as [-> H]. split; [exact A|]. intros neutral. unfold effect, same_bounds.
  split; [|split; [|split; [|split; [|split; [|split; [|split]]]]]].
  - intros I. destruct C as [->|[-> _]]; [destruct I|destruct I as [I|[]]; discriminate].
  - auto.
  - split; [|tauto]. intros I. destruct C as [->|[-> _]]; [destruct I|destruct I as [I|[]]; discriminate].
  - intros I. destruct C as [->|[-> C]]; [destruct I|auto].
  - intros _ Ho Hr. destruct (H Hr) as [y Hy]. rewrite (D y Hy Ho). cbn. auto.
  - intros y Hy. destruct C as [->|[-> _]]; [destruct Hy|]. destruct Hy as [<-|[]]. cbn. auto.
  - destruct C as [->|[-> _]]; cbn; lia.
  - unfold e_n. rewrite B3. reflexivity.
Qed.
Lemma by_amends : forall X (m : M wef X) (neutral sectors sharpe : Prop) w ws o w' s' r, amends m -> (m ;; ret tt) w (ws, o) = (w', s', r) -> neutral -> ~ sectors -> ~ sharpe ->
  exists new, fst s' = ws ++ new /\ effect neutral sectors sharpe o new (snd s') r.
Proof.
  intros X m n s h w ws o w' s' r Hm E Hn Hs Hh.
  assert (A : amends (m ;; ret tt)) by (apply am_r; [exact Hm|intros; apply si_ret]).
  destruct (A _ _ _ _ _ _ E) as (new & B & C). eapply effect_amends; eassumption.
Qed.
Lemma by_silent : forall X (m : M wef X) (neutral sectors sharpe : Prop) w ws o w' s' r, silent m -> (m ;; ret tt) w (ws, o) = (w', s', r) -> ~ sectors -> ~ sharpe ->
  exists new, fst s' = ws ++ new /\ effect neutral sectors sharpe o new (snd s') r.
Proof.
  intros X m n s h w ws o w' s' r Hm E Hs Hh.
  assert (A : silent (m ;; ret tt)) by (apply si_bind; [exact Hm|intros; apply si_ret]).
  destruct (A _ _ _ _ _ _ E) as (B & C). apply effect_silent; assumption.
Qed.
Lemma si_run_quiet : forall sv ns pinv c, ~ is_sectors c -> ~ is_sharpe c -> match c with KUtility _ _ | KRisk _ _ | KReturn _ _ => False | _ => True end ->
  pres kb (run sv ns pinv c).
Proof.
  intros sv ns pinv c A B C. destruct c; cbn in A, B, C; try tauto; cbn [run].
  3: apply kb_set_weights.
  all: kbs.
Qed.
Theorem call_effect : forall sv ns pinv c w ws o w' ws' o' r, run_w sv ns pinv c w (ws, o) = (w', (ws', o'), r) ->
  exists new, ws' = ws ++ new /\ effect (asks_neutral c) (is_sectors c) (is_sharpe c) o new o' r.
Proof.
  intros sv ns pinv c w ws o w' ws' o' r E. change ws' with (fst (ws', o')). change o' with (snd (ws', o')) at 2.
  assert (Q : pres kb (run sv ns pinv c) -> run_w sv ns pinv c = quietly (run sv ns pinv c) -> ~ is_sectors c -> ~ is_sharpe c ->
    exists new, fst (ws', o') = ws ++ new /\ effect (asks_neutral c) (is_sectors c) (is_sharpe c) o new (snd (ws', o')) r).
  { intros P Eq Hs Hh. rewrite Eq in E. destruct (si_quiet _ _ P _ _ _ _ _ _ E) as [A B]. apply effect_silent; assumption. }
  destruct c; try (apply Q; [apply si_run_quiet; cbn; tauto|reflexivity|cbn; tauto|cbn; tauto]); clear Q; cbn [run_w asks_neutral is_sectors is_sharpe] in *.
  - destruct (sectors_effect _ _ _ _ _ _ _ _ _ E) as (new & A & B). exists new. auto.
  - destruct (sharpe_effect _ _ _ _ _ _ _ _ E) as (new & A & B). exists new. auto.
  - destruct mn; [eapply by_amends; [apply am_utility|exact E| | |]; tauto|eapply by_silent; [apply si_utility|exact E| |]; tauto].
  - destruct mn; [eapply by_amends; [apply am_risk|exact E| | |]; tauto|eapply by_silent; [apply si_risk|exact E| |]; tauto].
  - destruct mn; [eapply by_amends; [apply am_return|exact E| | |]; tauto|eapply by_silent; [apply si_return|exact E| |]; tauto].
Qed.
Lemma si_g_run_quiet : forall sv ns k c, ~ is_sectors_d c -> match c with GMin _ | GUtility _ _ | GRisk _ _ | GReturn _ _ => False | _ => True end ->
  pres kb (g_run sv ns k c).
Proof.
  intros sv ns k c A C. destruct c; cbn in A, C; try tauto; cbn [g_run].
  3: { unfold g_set_weights. destruct k; [apply kb_set_weights|kbs|kbs]. }
  all: kbs.
Qed.
Theorem g_call_effect : forall sv ns k c w ws o w' ws' o' r, g_run_w sv ns k c w (ws, o) = (w', (ws', o'), r) ->
  exists new, ws' = ws ++ new /\ effect (asks_neutral_d c) (is_sectors_d c) False o new o' r.
Proof.
  intros sv ns k c w ws o w' ws' o' r E. change ws' with (fst (ws', o')). change o' with (snd (ws', o')) at 2.
  assert (Q : pres kb (g_run sv ns k c) -> g_run_w sv ns k c = quietly (g_run sv ns k c) -> ~ is_sectors_d c ->
    exists new, fst (ws', o') = ws ++ new /\ effect (asks_neutral_d c) (is_sectors_d c) False o new (snd (ws', o')) r).
  { intros P Eq Hs. rewrite Eq in E. destruct (si_quiet _ _ P _ _ _ _ _ _ E) as [A B]. apply effect_silent; tauto. }
  destruct c; try (apply Q; [apply si_g_run_quiet; cbn; tauto|reflexivity|cbn; tauto]); clear Q; cbn [g_run_w asks_neutral_d is_sectors_d] in *.
  - destruct (sectors_effect _ _ _ _ _ _ _ _ _ E) as (new & A & B). exists new. auto.
  - destruct mn; [eapply by_amends; [apply am_g_min|exact E| | |]; tauto|eapply by_silent; [apply si_g_min|exact E| |]; tauto].
  - destruct mn; [eapply by_amends; [apply am_g_utility|exact E| | |]; tauto|eapply by_silent; [apply si_g_utility|exact E| |]; tauto].
  - destruct mn; [eapply by_amends; [apply am_g_risk|exact E| | |]; tauto|eapply by_silent; [apply si_g_risk|exact E| |]; tauto].
  - destruct mn; [eapply by_amends; [apply am_g_return|exact E| | |]; tauto|eapply by_silent; [apply si_g_return|exact E| |]; tauto].
Qed.

(** ** Sequences of calls *)
Lemma once_l : forall a b, (List.length a <= 1)%nat -> In WBounds a -> ~ In WBounds b -> once (a ++ b).
Proof.
  intros a b L I N. destruct a as [|x [|y a]]; [destruct I| |cbn in L; lia]. destruct I as [->|[]]. exists [], b. repeat split; auto.
Qed.
Lemma once_r : forall a b, ~ In WBounds a -> once b -> once (a ++ b).
Proof.
  intros a b N (p & q & -> & A & B). exists (a ++ p), q. rewrite <- app_assoc. repeat split; auto. rewrite in_app_iff. tauto.
Qed.
Lemma widened_short : forall o o', widened o o' -> (0 < e_n o)%nat -> ~ all_long (e_lb o').
Proof.
  intros o o' (A & _ & B & _) H L. destruct (e_lb o') as [|b l]; [cbn in A; lia|].
  destruct (L b ltac:(left; reflexivity)) as (x & -> & Hx). specialize (B _ ltac:(left; reflexivity)). inversion B. lra.
Qed.
Lemma in_dec_bounds : forall l, In WBounds l \/ ~ In WBounds l.
Proof.
  induction l as [|x l IH]; [right; intros []|]. destruct IH as [IH|IH]; [left; right; exact IH|].
  destruct x; solve [left; left; reflexivity | right; intros [H|H]; [discriminate|tauto]].
Qed.
Lemma calls_effect_nil : forall neutral o, calls_effect neutral o [] o.
Proof. intros. unfold calls_effect, same_bounds. cbn. tauto. Qed.
Lemma calls_effect_cons : forall (n1 s1 h1 n2 n : Prop) o a o1 b o' r, (n1 -> n) -> (n2 -> n) -> effect n1 s1 h1 o a o1 r -> calls_effect n2 o1 b o' -> calls_effect n o (a ++ b) o'.
Proof.
  intros n1 s1 h1 n2 n o a o1 b o' r K1 K2 (F1 & F2 & _ & _ & _ & _ & FL & FN) (G1 & G2 & GN). unfold calls_effect. rewrite in_app_iff.
  assert (D : In WBounds a \/ ~ In WBounds a).
  { destruct a as [|x [|y a]]; [right; intros []| |cbn in FL; lia]. destruct x; solve [left; left; reflexivity | right; intros [H|[]]; discriminate]. }
  split; [|split; [|congruence]].
  - intros H. destruct (F2 ltac:(tauto)) as [A B]. destruct (G1 ltac:(tauto)) as [C E]. split; congruence.
  - intros H. destruct D as [Ia|Na].
    + destruct (F1 Ia) as (A & B & C). split; [auto|]. split; [exact B|].
      assert (K : In WBounds b \/ ~ In WBounds b -> widened o o' /\ ((0 < e_n o)%nat -> once (a ++ b))).
      { intros [Ib|Nb].
        - destruct (G2 Ib) as (_ & L & W & O). split; [unfold widened in *; rewrite FN in W; exact W|]. intros P. exfalso. apply (widened_short _ _ C P L).
        - split; [|intros _; apply once_l; assumption]. destruct (G1 Nb) as [S1 S2]. unfold widened in *. rewrite S1, S2. exact C. }
      apply K. destruct (in_dec_bounds b); tauto.
    + assert (Ib : In WBounds b) by tauto. destruct (G2 Ib) as (N2 & L & W & O). destruct (F2 Na) as [S1 S2].
      split; [auto|]. split; [rewrite S1 in L; exact L|]. split; [unfold widened in *; rewrite FN in W; exact W|].
      intros P. apply once_r; [exact Na|]. apply O. rewrite FN. exact P.
Qed.
Theorem calls_bounds : forall sv ns pinv cs w ws o w' ws' o', run_all_w sv ns pinv cs w (ws, o) = (w', (ws', o')) ->
  exists new, ws' = ws ++ new /\ calls_effect (exists c, In c cs /\ asks_neutral c) o new o'.
Proof.
  intros sv ns pinv. induction cs as [|c cs IH]; intros w ws o w' ws' o' E; cbn [run_all_w] in E.
  - inversion E; subst. exists []. rewrite app_nil_r. split; [reflexivity|apply calls_effect_nil].
  - destruct (run_w sv ns pinv c w (ws, o)) as [[w1 [ws1 o1]] r] eqn:Ec. destruct (call_effect _ _ _ _ _ _ _ _ _ _ _ Ec) as (n1 & -> & F).
    destruct (IH _ _ _ _ _ _ E) as (n2 & -> & G). exists (n1 ++ n2). rewrite app_assoc. split; [reflexivity|].
    eapply calls_effect_cons; [| |exact F|exact G].
    + intros H. exists c. split; [left; reflexivity|exact H].
    + intros (c' & A & B). exists c'. split; [right; exact A|exact B].
Qed.
Theorem g_calls_bounds : forall sv ns k cs w ws o w' ws' o', g_run_all_w sv ns k cs w (ws, o) = (w', (ws', o')) ->
  exists new, ws' = ws ++ new /\ calls_effect (exists c, In c cs /\ asks_neutral_d c) o new o'.
Proof.
  intros sv ns k. induction cs as [|c cs IH]; intros w ws o w' ws' o' E; cbn [g_run_all_w] in E.
  - inversion E; subst. exists []. rewrite app_nil_r. split; [reflexivity|apply calls_effect_nil].
  - destruct (g_run_w sv ns k c w (ws, o)) as [[w1 [ws1 o1]] r] eqn:Ec. destruct (g_call_effect _ _ _ _ _ _ _ _ _ _ _ Ec) as (n1 & -> & F).
    destruct (IH _ _ _ _ _ _ E) as (n2 & -> & G). exists (n1 ++ n2). rewrite app_assoc. split; [reflexivity|].
    eapply calls_effect_cons; [| |exact F|exact G].
    + intros H. exists c. split; [left; reflexivity|exact H].
    + intros (c' & A & B). exists c'. split; [right; exact A|exact B].
Qed.
