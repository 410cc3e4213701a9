(** * From the constructor: success exactly when there is a portfolio (C106) *)
From Coq Require Import List String Bool Reals Lra Lia Arith.
From Verif Require Import Num Py RBase PyLemmas SLin SBase MBase MConvex MEF SConvex SPrep SExist Sums PBase PConvex PEF PEF2 PEF3 PEF4 PEF5 PEF6 PDown5 PPrep PPerm2 PPerm4 PExist PExist2.
Import ListNotations.
Local Open Scope R_scope.

Definition same_max (o o' : ef) : Prop := e_maxret o' = e_maxret o.
Lemma sm_refl : forall o, same_max o o. Proof. reflexivity. Qed.
Lemma sm_trans : forall a b c, same_max a b -> same_max b c -> same_max a c. Proof. unfold same_max. intros. congruence. Qed.
Lemma prepare_maxret : forall steps w o w2 o2, forM steps prepare w o = (w2, o2, Ok tt) -> e_maxret o2 = e_maxret o.
Proof.
  intros steps w o w2 o2 H.
  assert (P : pres same_max (forM steps prepare)).
  { apply (pres_forM _ sm_refl sm_trans). intros [f|f|mapper lower upper]; cbn [prepare];
    pres_go sm_refl sm_trans ltac:(apply pres_modify; intros; reflexivity). }
  exact (P _ _ _ _ _ H).
Qed.
Lemma bounded_neutral : forall n x, bounded (repeat (Some x) n).
Proof. intros n x. apply Forall_forall. intros b Hb. apply repeat_spec in Hb. congruence. Qed.
Lemma in_force_bounded : forall mn o lb ub, bounded (e_lb o) -> bounded (e_ub o) -> List.length (e_lb o) = e_n o -> List.length (e_ub o) = e_n o ->
  bounds_in_force mn o lb ub -> bounded lb /\ bounded ub /\ List.length lb = e_n o /\ List.length ub = e_n o.
Proof.
  intros mn o lb ub B1 B2 L1 L2 H. unfold bounds_in_force in H. destruct H as [(_ & _ & -> & ->)|(_ & -> & ->)].
  - repeat split; try apply bounded_neutral; apply repeat_length.
  - repeat split; assumption.
Qed.

Section Exists.
  Context (m : mu_arg) (c : cov_arg) (b : bounds_arg) (w0 w1 : world) (o : ef) (steps : list preparation) (w2 : world) (o2 : ef).
  Context (Hi : ef_init (MIn m) (CIn c) b w0 = (w1, Ok o)) (Hq : square (List.length (cov_values c)) (cov_values c))
    (Hn : List.length (cov_values c) = e_n o)
    (Hs : Forall (sensible (e_w o) (List.length (w_params w1))) steps)
    (Hp : forM steps prepare w1 o = (w2, o2, Ok tt))
    (Hbl : bounded (e_lb o)) (Hbu : bounded (e_ub o))
    (Hr : Forall (regular (e_n o) (e_w o) (par_values w0)) steps).
  Let tickers := b_tickers (e_base o).
  Let V := cov_values c.
  Let allow := fun lb ub sum s => allowed tickers (e_w o) (w_sizes w1) (par_values w0) lb ub sum steps s.

  Lemma ready2 : exists u2, open_ef w2 o2 u2 /\ e_lb o2 = e_lb o /\ e_ub o2 = e_ub o /\ e_cov o2 = V /\ e_mu o2 = mu_values m /\ e_n o2 = e_n o /\ e_w o2 = e_w o /\ e_maxret o2 = None /\
    (forall lb ub sum s, admissible w2 o2 u2 lb ub sum s <-> allow lb ub sum s) /\
    (forall lb ub sum (ok : list R -> Prop) cost, bounded lb -> bounded ub -> List.length lb = e_n o -> List.length ub = e_n o -> closed_on (e_n o) ok -> continuous_on (e_n o) cost ->
      (exists s, allow lb ub sum s /\ ok (s (e_w o))) -> exists s, least w2 o2 u2 lb ub sum ok cost s) /\
    (forall lb ub sum cost, bounded lb -> bounded ub -> List.length lb = e_n o -> List.length ub = e_n o -> continuous_on (e_n o) cost ->
      (exists s, allow lb ub sum s) -> exists s, admissible w2 o2 u2 lb ub sum s /\ forall s', admissible w2 o2 u2 lb ub sum s' -> cost (s (e_w o2)) <= cost (s' (e_w o2))).
  Proof.
    destruct (constructed _ _ _ _ _ _ Hi Hq Hn) as (Ho & Ha & Hc & Hm & _ & _ & Hw & _).
    destruct (prepared steps w1 o [] Ho Hs) as (w2' & o2' & u2 & E & Ho2 & W1 & W2 & P1 & P2 & P3 & P4 & P5 & P6 & P7 & P8).
    rewrite Hp in E. injection E as <- <-. exists u2. split; [exact Ho2|]. split; [exact P2|]. split; [exact P3|]. split; [rewrite P4; exact Hc|]. split; [rewrite P5; exact Hm|].
    split; [unfold e_n; rewrite P6; reflexivity|]. split; [exact P1|].
    assert (Hmr : e_maxret o2 = None).
    { rewrite (prepare_maxret _ _ _ _ _ Hp). destruct (ef_init_inv _ _ _ _ _ _ Hi) as (m' & lb & ub & _ & _ & _ & _ & ->). reflexivity. }
    split; [exact Hmr|].
    assert (Ep : par_values w2 = par_values w0) by (unfold par_values; rewrite W2, Hw; reflexivity).
    assert (Hnn : nth_error (w_sizes w1) (e_w o) = Some (e_n o)) by apply Ho.
    assert (Hlen : forall s, well_sized (w_sizes w1) s -> List.length (s (e_w o)) = e_n o).
    { intros s Hws. rewrite Hws by (apply nth_error_Some; congruence). apply nth_error_nth. exact Hnn. }
    assert (Hadm : forall lb ub sum s, admissible w2 o2 u2 lb ub sum s <-> allow lb ub sum s).
    { intros lb ub sum s. unfold admissible, allow, allowed. rewrite W1, P1, Ep.
      split; intros (A & B & C & D); repeat (split; [assumption|]); apply (P8 s (par_values w0) (Hlen s A)) in D || apply (P8 s (par_values w0) (Hlen s A)); [apply D|split; [constructor|exact D]]. }
    split; [exact Hadm|].
    destruct (steps_closed (e_n o) tickers (e_w o) (par_values w0) steps Hr) as [P [HP EP]].
    assert (HU : exists P, closed_on (e_n o) P /\ forall s, List.length (s (e_w o2)) = e_n o -> (Forall (fun ic => sat s (par_values w2) (snd ic)) u2 <-> P (s (e_w o2)))).
    { exists P. split; [exact HP|]. intros s Hl. rewrite Ep. rewrite P1 in *. rewrite <- (EP s Hl), (P8 s _ Hl). split; [tauto|]. intros D. split; [constructor|exact D]. }
    split.
    - intros lb ub sum ok cost B1 B2 L1 L2 Hok Hcost [s [A1 A2]]. apply (exists_least w2 o2 u2 lb ub sum ok cost (e_n o)); try assumption.
      + rewrite W1, P1. exact Hnn.
      + destruct (steps_cont (e_n o) (e_w o) (par_values w0) steps Hr) as [g [Hg Eg]]. exists g. split; [exact Hg|]. intros s' Hl. rewrite Ep, P7, Ha. rewrite P1 in *. rewrite (Eg s' Hl).
        unfold penalty. cbn [map total]. lra.
      + exists s. split; [apply Hadm; exact A1|rewrite P1; exact A2].
    - intros lb ub sum cost B1 B2 L1 L2 Hcost [s A1].
      destruct (exists_least w2 (set_add [] o2) u2 lb ub sum (fun _ => True) cost (e_n o)) as [s1 (C1 & _ & C2)]; try assumption.
      + change (nth_error (w_sizes w2) (e_w o2) = Some (e_n o)). rewrite W1, P1. exact Hnn.
      + exists (fun _ => 0). split; [apply cont_const|]. reflexivity.
      + apply closed_true.
      + exists s. split; [apply Hadm; exact A1|exact I].
      + exists s1. split; [exact C1|]. intros s' A'. specialize (C2 s' A' I). unfold penalty in C2. cbn [set_add e_add e_w map total] in C2. lra.
  Qed.
  Lemma lens : List.length (e_lb o) = e_n o /\ List.length (e_ub o) = e_n o.
  Proof. destruct (constructed _ _ _ _ _ _ Hi Hq Hn) as (Ho & _). destruct Ho as (_ & _ & L1 & L2 & _). auto. Qed.
  Lemma qform_cont : continuous_on (e_n o) (qform V).
  Proof. apply (cont_vec_qform (e_n o) (e_n o) V _ (cont_vec_id (e_n o))). Qed.
  Lemma inner_cont : forall mu, continuous_on (e_n o) (inner mu).
  Proof. intros mu. apply (cont_vec_inner (e_n o) (List.length mu) (e_n o)); [apply cont_vec_const|apply cont_vec_id]. Qed.

  Theorem exist_min_volatility : forall sv, exact_solver sv -> complete_solver sv ->
    ((exists w3 o3 d, min_volatility sv w2 o2 = (w3, o3, Ok d)) <-> exists s, allow (e_lb o) (e_ub o) 1 s).
  Proof.
    intros sv He Hc. split.
    - intros (w3 & o3 & d & H). destruct (e2e_min_volatility m c b w0 w1 o steps w2 o2 Hi Hq Hn Hs Hp sv w3 o3 d He H) as (s & r & _ & _ & _ & A & _). exists s. exact A.
    - intros [s A]. destruct ready2 as (u2 & Ho & Hl & Hu & Hcv & Hm & Hn2 & Hw & Hmr & Hadm & Hex & _). destruct lens as [L1 L2].
      destruct (Hex (e_lb o) (e_ub o) 1 (fun _ => True) (qform V)) as [s' Hs']; try assumption; [apply closed_true|apply qform_cont|exists s; auto|].
      apply (min_volatility_found sv w2 o2 u2 s' Hc Ho). rewrite Hl, Hu, Hcv. exact Hs'.
  Qed.
  Theorem exist_utility : forall sv mu ra mn lb ub, exact_solver sv -> complete_solver sv -> mu_values m = Some mu -> Forall (fun q => p_name q <> "risk_aversion"%string) (w_params w0) -> 0 < ra ->
    bounds_in_force mn o lb ub ->
    ((exists w3 o3 d, max_quadratic_utility sv ra mn w2 o2 = (w3, o3, Ok d)) <-> exists s, allow lb ub (if mn then 0 else 1) s).
  Proof.
    intros sv mu ra mn lb ub He Hc Hmu Hnm Hra Hb. split.
    - intros (w3 & o3 & d & H). destruct (e2e_utility m c b w0 w1 o steps w2 o2 Hi Hq Hn Hs Hp sv mu ra mn w3 o3 d He Hmu Hnm H) as (lb' & ub' & B & (s & r & _ & _ & _ & A & _)).
      destruct (in_force_unique _ _ _ _ _ _ Hb B) as [-> ->]. exists s. exact A.
    - intros [s A]. destruct ready2 as (u2 & Ho & Hl & Hu & Hcv & Hm & Hn2 & Hw & Hmr & Hadm & Hex & _). destruct lens as [L1 L2].
      destruct (in_force_bounded mn o lb ub Hbl Hbu L1 L2 Hb) as (X1 & X2 & X3 & X4).
      destruct (Hex lb ub (if mn then 0 else 1) (fun _ => True) (fun x => - (inner mu x - ra / 2 * qform V x))) as [s' Hs']; try assumption.
      + apply closed_true.
      + apply cont_opp, cont_minus; [apply inner_cont|apply cont_scal, qform_cont].
      + exists s; auto.
      + apply (utility_found sv w2 o2 u2 mn mu Hc Ho) with (ra := ra); [congruence|exact Hra|eapply no_name; eassumption|].
        exists lb, ub, s'. split; [unfold bounds_in_force in *; rewrite Hl, Hu, Hn2; exact Hb|rewrite Hcv; exact Hs'].
  Qed.
  Theorem exist_risk : forall sv pinv mu tg t mn lb ub, exact_solver sv -> complete_solver sv -> mu_values m = Some mu -> Forall (fun q => p_name q <> "target_variance"%string) (w_params w0) ->
    (0 < e_n o)%nat -> psd (e_n o) V -> symmetric (e_n o) V -> right_inverse (e_n o) V (pinv V) -> target_of tg = Some t -> 0 <= t -> bounds_in_force mn o lb ub ->
    (mn = true -> exists x, List.length x = e_n o /\ total x = 1 /\ qform V x <= t * t) ->
    ((exists w3 o3 d, efficient_risk sv pinv tg mn w2 o2 = (w3, o3, Ok d)) <-> exists s, allow lb ub (if mn then 0 else 1) s /\ qform V (s (e_w o)) <= t * t).
  Proof.
    intros sv pinv mu tg t mn lb ub He Hc Hmu Hnm Hpos Hpsd Hsym Hinv Htg Ht Hb Hreach. split.
    - intros (w3 & o3 & d & H). destruct (e2e_efficient_risk m c b w0 w1 o steps w2 o2 Hi Hq Hn Hs Hp sv pinv mu tg mn w3 o3 d He Hmu Hnm H) as (t' & lb' & ub' & Et & _ & B & (s & r & _ & _ & _ & A & A2 & _)).
      rewrite Htg in Et. injection Et as <-. destruct (in_force_unique _ _ _ _ _ _ Hb B) as [-> ->]. exists s. auto.
    - intros [s [A A2]]. destruct ready2 as (u2 & Ho & Hl & Hu & Hcv & Hm & Hn2 & Hw & Hmr & Hadm & Hex & _). destruct lens as [L1 L2].
      destruct (in_force_bounded mn o lb ub Hbl Hbu L1 L2 Hb) as (X1 & X2 & X3 & X4).
      destruct (Hex lb ub (if mn then 0 else 1) (fun x => qform V x <= t * t) (fun x => - inner mu x)) as [s' Hs']; try assumption.
      + apply closed_le; [apply qform_cont|apply cont_const].
      + apply cont_opp, inner_cont.
      + exists s; auto.
      + apply (risk_found sv w2 o2 u2 mn mu Hc Ho) with (t := t); [congruence|exact Htg|exact Ht| |eapply no_name; eassumption|].
        * apply (risk_check_passes o2 pinv t); rewrite ?Hn2, ?Hcv; try assumption. destruct mn; [apply Hreach; reflexivity|]. exists (s (e_w o)).
          destruct A as (A1 & _ & A3 & _). split; [|auto]. rewrite A1.
          -- apply nth_error_nth. destruct Ho as (_ & _ & _ & _ & N & _). destruct (constructed _ _ _ _ _ _ Hi Hq Hn) as ((_ & _ & _ & _ & N1 & _) & _). exact N1.
          -- apply nth_error_Some. destruct (constructed _ _ _ _ _ _ Hi Hq Hn) as ((_ & _ & _ & _ & N1 & _) & _). congruence.
        * exists lb, ub, s'. split; [unfold bounds_in_force in *; rewrite Hl, Hu, Hn2; exact Hb|rewrite Hcv; exact Hs'].
  Qed.
  Theorem exist_return : forall sv mu t mn lb ub, exact_solver sv -> complete_solver sv -> mu_values m = Some mu -> Forall (fun q => p_name q <> "target_return"%string) (w_params w0) ->
    bounds_in_force mn o lb ub -> (mn = true -> exists s, allow (e_lb o) (e_ub o) 1 s /\ t <= inner mu (s (e_w o))) ->
    ((exists w3 o3 d, efficient_return sv (NFloat t) mn w2 o2 = (w3, o3, Ok d)) <-> exists s, allow lb ub (if mn then 0 else 1) s /\ t <= inner mu (s (e_w o))).
  Proof.
    intros sv mu t mn lb ub He Hc Hmu Hnm Hb Hreach. split.
    - intros (w3 & o3 & d & H). destruct (e2e_efficient_return m c b w0 w1 o steps w2 o2 Hi Hq Hn Hs Hp sv mu (NFloat t) mn w3 o3 d He Hmu Hnm H) as (t' & lb' & ub' & Et & B & (s & r & _ & _ & _ & A & A2 & _)).
      injection Et as <-. destruct (in_force_unique _ _ _ _ _ _ Hb B) as [-> ->]. exists s. auto.
    - intros [s [A A2]]. destruct ready2 as (u2 & Ho & Hl & Hu & Hcv & Hm & Hn2 & Hw & Hmr & Hadm & Hex & Hbest). destruct lens as [L1 L2].
      destruct (in_force_bounded mn o lb ub Hbl Hbu L1 L2 Hb) as (X1 & X2 & X3 & X4).
      assert (R0 : exists s, allow (e_lb o) (e_ub o) 1 s /\ t <= inner mu (s (e_w o))).
      { destruct mn; [apply Hreach; reflexivity|]. exists s. split; [|exact A2]. destruct Hb as [[X _]|(_ & -> & ->)]; [discriminate|exact A]. }
      destruct R0 as [s0 [R1 R2]].
      destruct (Hbest (e_lb o) (e_ub o) 1 (fun x => - inner mu x)) as [s1 [S1 S2]]; try assumption; [apply cont_opp, inner_cont|exists s0; exact R1|].
      destruct (Hex lb ub (if mn then 0 else 1) (fun x => t <= inner mu x) (qform V)) as [s' Hs']; try assumption.
      + apply closed_le; [apply cont_const|apply inner_cont].
      + apply qform_cont.
      + exists s; auto.
      + apply (return_found sv w2 o2 u2 mn mu Hc Ho) with (s1 := s1); [congruence|exact Hmr|eapply no_name; eassumption|rewrite Hl, Hu; exact S1| | |exact He|].
        * intros s2 A'. rewrite Hl, Hu in A'. specialize (S2 s2 A'). lra.
        * apply Hadm in R1. specialize (S2 s0 R1). rewrite Hw in S2 |- *. lra.
        * exists lb, ub, s'. split; [unfold bounds_in_force in *; rewrite Hl, Hu, Hn2; exact Hb|rewrite Hcv; exact Hs'].
  Qed.
End Exists.
