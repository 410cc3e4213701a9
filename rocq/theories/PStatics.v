(** * Comparative statics (C114) *)
From Coq Require Import ZArith List String Bool Reals Lra Lia.
From Verif Require Import Num Py RBase PyLemmas MBase MConvex MEF MDown SLin SBase SHRP SObj SConvex SDown SPrep SExist SCurve SStatics Sums PBase PObj PRisk PEF PEF2 PEF3 PEF4 PDown PDown2 PDown3 PDown4 PDown5 PDown6 PPrep PPerm2 PPerm4 PExist4 PCurve PCurve2.
Import ListNotations.
Local Open Scope R_scope.

Definition mn_of (a : aim) : bool := match a with AimVolatility => false | AimUtility _ mn | AimRisk _ mn | AimReturn _ mn => mn end.
Definition ok_of (mu : list R) (cov : list (list R)) (a : aim) (x : list R) : Prop :=
  match a with AimVolatility | AimUtility _ _ => True | AimRisk t _ => qform cov x <= t * t | AimReturn t _ => t <= inner mu x end.
Section Steps.
  Variables (mi : mu_arg) (c : cov_arg) (b : bounds_arg) (w0 w1 : world) (o : ef) (mu : list R).
  Hypothesis Hi : ef_init (MIn mi) (CIn c) b w0 = (w1, Ok o).
  Hypothesis Hsq : square (List.length (cov_values c)) (cov_values c).
  Hypothesis Hlen : List.length (cov_values c) = e_n o.
  Hypothesis Hmu : mu_values mi = Some mu.
  Hypothesis Hnames : free_names w0.
  Let fits_aim (lb ub : list (option R)) (sum : R) (steps : list preparation) := allowed (b_tickers (e_base o)) (e_w o) (w_sizes w1) (par_values w0) lb ub sum steps.
  Lemma name_free : forall name, In name ["risk_aversion"; "target_variance"; "target_return"]%string -> Forall (fun q => p_name q <> name) (w_params w0).
  Proof. intros name Hn. eapply Forall_impl; [|exact Hnames]. cbv beta. intros q Hq E. apply Hq. rewrite E. exact Hn. Qed.
  (** what every answer is *)
  Lemma pursue_best : forall a lb ub, bounds_in_force (mn_of a) o lb ub ->
    forall steps sv pinv, Forall (sensible (e_w o) (List.length (w_params w1))) steps -> exact_solver sv ->
    succeeds (with_steps steps (pursue sv pinv a) w1 o) ->
    exists s, reports (with_steps steps (pursue sv pinv a) w1 o) (s (e_w o)) /\ fits_aim lb ub (if mn_of a then 0 else 1) steps s /\ ok_of mu (cov_values c) a (s (e_w o)) /\
      forall s', fits_aim lb ub (if mn_of a then 0 else 1) steps s' -> ok_of mu (cov_values c) a (s' (e_w o)) ->
        amount mu (cov_values c) a (s (e_w o)) + total (map (extra_cost (e_w o) s (par_values w0)) steps)
        <= amount mu (cov_values c) a (s' (e_w o)) + total (map (extra_cost (e_w o) s' (par_values w0)) steps).
  Proof.
    intros a lb ub Hb steps sv pinv Hs He S. unfold with_steps in *. destruct (forM steps prepare w1 o) as [[w2 o2] [[]|e]] eqn:Ef; [|contradiction].
    assert (F : forall (ok : list R -> Prop) cost ws d lb' ub' (w3 : world) (o3 : ef), e_weights o3 = ws -> bounds_in_force (mn_of a) o lb' ub' ->
      best_prepared (b_tickers (e_base o)) (e_w o) (w_sizes w1) (par_values w0) lb' ub' (if mn_of a then 0 else 1) steps ok cost ws d ->
      (forall x, ok x <-> ok_of mu (cov_values c) a x) -> (forall x, cost x = amount mu (cov_values c) a x) ->
      exists s, reports (w3, o3, Ok d) (s (e_w o)) /\ fits_aim lb ub (if mn_of a then 0 else 1) steps s /\ ok_of mu (cov_values c) a (s (e_w o)) /\
        forall s', fits_aim lb ub (if mn_of a then 0 else 1) steps s' -> ok_of mu (cov_values c) a (s' (e_w o)) ->
        amount mu (cov_values c) a (s (e_w o)) + total (map (extra_cost (e_w o) s (par_values w0)) steps)
        <= amount mu (cov_values c) a (s' (e_w o)) + total (map (extra_cost (e_w o) s' (par_values w0)) steps)).
    { intros ok cost ws d lb' ub' w3 o3 Ew Hb' (s & r & E1 & E2 & _ & E4 & E5 & E6) Hok Hcost. destruct (in_force_unique _ _ _ _ _ _ Hb Hb') as [<- <-].
      exists s. split; [exists r; split; [congruence|exact E2]|]. split; [exact E4|]. split; [apply Hok; exact E5|]. intros s' H1 H2. rewrite <- !Hcost. apply E6; [exact H1|apply Hok; exact H2]. }
    destruct a as [|ra mn|t mn|t mn]; cbn [pursue mn_of ok_of amount] in *.
    - destruct (min_volatility sv w2 o2) as [[w3 o3] [d|e]] eqn:R; [|contradiction].
      eapply F; [reflexivity| |exact (e2e_min_volatility mi c b w0 w1 o steps w2 o2 Hi Hsq Hlen Hs Ef sv w3 o3 d He R)| |reflexivity]; [|intros; reflexivity].
      right. split; [left; reflexivity|split; reflexivity].
    - destruct (max_quadratic_utility sv ra mn w2 o2) as [[w3 o3] [d|e]] eqn:R; [|contradiction].
      destruct (e2e_utility mi c b w0 w1 o steps w2 o2 Hi Hsq Hlen Hs Ef sv mu ra mn w3 o3 d He Hmu ltac:(apply name_free; cbn; auto) R) as (lb' & ub' & Hb' & B).
      eapply F; [reflexivity|exact Hb'|exact B| |]; intros; [reflexivity|cbn; ring].
    - destruct (efficient_risk sv pinv (NFloat t) mn w2 o2) as [[w3 o3] [d|e]] eqn:R; [|contradiction].
      destruct (e2e_efficient_risk mi c b w0 w1 o steps w2 o2 Hi Hsq Hlen Hs Ef sv pinv mu (NFloat t) mn w3 o3 d He Hmu ltac:(apply name_free; cbn; auto) R) as (t' & lb' & ub' & Et & _ & Hb' & B).
      cbn in Et. injection Et as <-. eapply F; [reflexivity|exact Hb'|exact B| |]; intros; reflexivity.
    - destruct (efficient_return sv (NFloat t) mn w2 o2) as [[w3 o3] [d|e]] eqn:R; [|contradiction].
      destruct (e2e_efficient_return mi c b w0 w1 o steps w2 o2 Hi Hsq Hlen Hs Ef sv mu (NFloat t) mn w3 o3 d He Hmu ltac:(apply name_free; cbn; auto) R) as (t' & lb' & ub' & Et & Hb' & B).
      injection Et as <-. eapply F; [reflexivity|exact Hb'|exact B| |]; intros; reflexivity.
  Qed.
  Lemma no_extra : forall steps s ps, Forall only_demands steps -> total (map (extra_cost (e_w o) s ps) steps) = 0.
  Proof. intros steps s ps H. induction H as [|a l Ha H IH]; [reflexivity|]. cbn [map total]. rewrite IH. destruct a; cbn in *; [contradiction|lra|lra]. Qed.
  Lemma fits_length : forall lb ub sum steps s, fits_aim lb ub sum steps s -> List.length (s (e_w o)) = e_n o.
  Proof.
    intros lb ub sum steps s (A & _). destruct (constructed _ _ _ _ _ _ Hi Hsq Hlen) as (Ho & _). destruct Ho as (_ & _ & _ & _ & N & _). exact (sized_nth _ _ _ _ A N).
  Qed.
  Theorem more_weight : forall f h a steps sv pinv sv' pinv' g g', weighted_term (e_n o) f h -> Forall (sensible (e_w o) (List.length (w_params w1))) steps ->
    exact_solver sv -> exact_solver sv' -> g < g' ->
    let run sv pinv g := with_steps (AddObjective (f g) :: steps) (pursue sv pinv a) w1 o in
    succeeds (run sv pinv g) -> succeeds (run sv' pinv' g') ->
    exists x x', reports (run sv pinv g) x /\ reports (run sv' pinv' g') x' /\ h x' <= h x /\
      (Forall only_demands steps -> 0 <= g -> amount mu (cov_values c) a x <= amount mu (cov_values c) a x').
  Proof.
    intros f h a steps sv pinv sv' pinv' g g' Hf Hs He He' Hg run S S'. destruct (in_force_exists (mn_of a) o) as (lb & ub & Hb).
    assert (Hs' : forall g, Forall (sensible (e_w o) (List.length (w_params w1))) (AddObjective (f g) :: steps)).
    { intros k. constructor; [|exact Hs]. destruct (Hf k (e_w o)) as (F1 & F2 & _). split; [exact F1|]. unfold scoped_expr. rewrite F2. constructor. }
    destruct (pursue_best a lb ub Hb _ sv pinv (Hs' g) He S) as (s & R1 & A1 & O1 & M1). destruct (pursue_best a lb ub Hb _ sv' pinv' (Hs' g') He' S') as (s' & R2 & A2 & O2 & M2).
    assert (T : forall k k' z, fits_aim lb ub (if mn_of a then 0 else 1) (AddObjective (f k) :: steps) z -> fits_aim lb ub (if mn_of a then 0 else 1) (AddObjective (f k') :: steps) z).
    { intros k k' z (B1 & B2 & B3 & B4). split; [exact B1|split; [exact B2|split; [exact B3|]]]. inversion B4; subst. constructor; [exact I|assumption]. }
    specialize (M1 s' (T _ _ _ A2) O2). specialize (M2 s (T _ _ _ A1) O1). cbn [map total extra_cost] in M1, M2.
    destruct (Hf g (e_w o)) as (_ & _ & V1). destruct (Hf g' (e_w o)) as (_ & _ & V2). assert (L1 := fits_length _ _ _ _ _ A1). assert (L2 := fits_length _ _ _ _ _ A2).
    rewrite !V1 in M1 by assumption. rewrite !V2 in M2 by assumption.
    exists (s (e_w o)), (s' (e_w o)). split; [exact R1|split; [exact R2|]]. assert (Hh : h (s' (e_w o)) <= h (s (e_w o))) by nra. split; [exact Hh|].
    intros Hd Hg0. rewrite !(no_extra steps) in M1 by exact Hd. nra.
  Qed.
  Theorem more_demands : forall a k steps sv pinv sv' pinv', Forall (sensible (e_w o) (List.length (w_params w1))) (k :: steps) -> Forall only_demands (k :: steps) ->
    exact_solver sv -> exact_solver sv' ->
    let run sv pinv l := with_steps l (pursue sv pinv a) w1 o in
    succeeds (run sv pinv steps) -> succeeds (run sv' pinv' (k :: steps)) ->
    exists x x', reports (run sv pinv steps) x /\ reports (run sv' pinv' (k :: steps)) x' /\ amount mu (cov_values c) a x <= amount mu (cov_values c) a x'.
  Proof.
    intros a k steps sv pinv sv' pinv' Hs Hd He He' run S S'. destruct (in_force_exists (mn_of a) o) as (lb & ub & Hb). assert (Hs2 := Forall_inv_tail Hs). assert (Hd2 := Forall_inv_tail Hd).
    destruct (pursue_best a lb ub Hb _ sv pinv Hs2 He S) as (s & R1 & A1 & O1 & M1). destruct (pursue_best a lb ub Hb _ sv' pinv' Hs He' S') as (s' & R2 & A2 & O2 & M2).
    assert (T : fits_aim lb ub (if mn_of a then 0 else 1) steps s').
    { destruct A2 as (B1 & B2 & B3 & B4). split; [exact B1|split; [exact B2|split; [exact B3|]]]. exact (Forall_inv_tail B4). }
    specialize (M1 s' T O2). rewrite !(no_extra steps) in M1 by exact Hd2. exists (s (e_w o)), (s' (e_w o)). split; [exact R1|split; [exact R2|lra]].
  Qed.
  Theorem more_aversion : forall ra ra' mn steps sv sv', Forall (sensible (e_w o) (List.length (w_params w1))) steps -> exact_solver sv -> exact_solver sv' -> ra < ra' ->
    let run sv ra := with_steps steps (max_quadratic_utility sv ra mn) w1 o in
    succeeds (run sv ra) -> succeeds (run sv' ra') ->
    exists x x', reports (run sv ra) x /\ reports (run sv' ra') x' /\ qform (cov_values c) x' <= qform (cov_values c) x /\
      (Forall only_demands steps -> 0 <= ra -> inner mu x' <= inner mu x).
  Proof.
    intros ra ra' mn steps sv sv' Hs He He' Hr run S S'. destruct (in_force_exists mn o) as (lb & ub & Hb).
    destruct (pursue_best (AimUtility ra mn) lb ub Hb _ sv (fun v => v) Hs He S) as (s & R1 & A1 & O1 & M1). destruct (pursue_best (AimUtility ra' mn) lb ub Hb _ sv' (fun v => v) Hs He' S') as (s' & R2 & A2 & O2 & M2).
    specialize (M1 s' A2 I). specialize (M2 s A1 I). cbn [amount mn_of] in *. exists (s (e_w o)), (s' (e_w o)). split; [exact R1|split; [exact R2|]].
    assert (Hv : qform (cov_values c) (s' (e_w o)) <= qform (cov_values c) (s (e_w o))) by nra. split; [exact Hv|].
    intros Hd Hr0. rewrite !(no_extra steps) in M1 by exact Hd. nra.
  Qed.
End Steps.
Theorem L2_term : forall n, weighted_term n (fun g v => L2_reg_e (EVar v) g) (fun x => inner x x).
Proof.
  intros n g v. split; [intros s ps; reflexivity|]. split; [reflexivity|]. intros s ps _. destruct (values s ps (EVar v) (s v) eq_refl) as (_ & H & _). apply H.
Qed.
Theorem cost_term : forall n prev, List.length prev = n -> weighted_term n (fun k v => transaction_cost_e (EVar v) prev k) (fun x => total (map Rabs (differences x prev))).
Proof.
  intros n prev Hp g v. split; [intros s ps; reflexivity|]. split; [reflexivity|]. intros s ps Hl. destruct (values s ps (EVar v) (s v) eq_refl) as (_ & _ & H & _). apply H. congruence.
Qed.
