(** * Concrete cases for the theorems in PropertiesErrors.v *)
From Coq Require Import ZArith List String Bool Reals Lra Lia.
From Verif Require Import Num Py RBase PyLemmas MBase MConvex MEF MDown SLin SBase SConvex SDown SErrors Sums PBase PConvex PEF PEF2 PEF3 PEF4 PEFW PDown PDownW PErrors PErrors2 PropertiesErrors.
Import ListNotations.
Local Open Scope R_scope.

(** a solver that meets all the contracts *)
Example ex_c132_solver : exists sv, usual_solver sv /\ exact_solver sv /\ complete_solver sv.
Proof. exists best_solver. split; [exact best_solver_usual|]. split; [exact best_solver_exact|exact best_solver_complete]. Qed.

(** a new optimizer for two assets with expected returns 10% and 20% *)
Definition oE : ef := two_ef [1/10; 1/5] 0 1.
Example ex_c132_object : two [1/10; 1/5] 0 1 = (two_world, Ok oE) /\ open_ef two_world oE [] /\ e_mu oE = Some [1/10; 1/5] /\
  e_maxret oE = None /\ forall name, unused_name two_world oE name.
Proof.
  split; [apply two_ok|]. split; [apply two_open|]. split; [reflexivity|]. split; [reflexivity|]. intros name q Hq. cbn in Hq. contradiction.
Qed.

(** a risk aversion of -1 is rejected, one of 1 is not *)
Example ex_c132_utility : snd (max_quadratic_utility best_solver (-1) false two_world oE) = Err ValueError /\
  snd (max_quadratic_utility best_solver 1 false two_world oE) <> Err ValueError.
Proof.
  destruct ex_c132_object as [_ [Ho [Em [_ Hn]]]]. split.
  - apply (c132_max_quadratic_utility best_solver two_world oE [] _ (-1) false best_solver_usual Ho Em (Hn _)). lra.
  - intros E. apply (proj1 (c132_max_quadratic_utility best_solver two_world oE [] _ 1 false best_solver_usual Ho Em (Hn _))) in E. lra.
Qed.

(** volatility: the identity has the inverse total 2, so 70% is too little and 71% is not; an integer is accepted, a string is not *)
Definition inv2 : list (list R) -> list (list R) := fun _ => [[1; 0]; [0; 1]].
Example ex_c132_risk :
  snd (efficient_risk best_solver inv2 (NFloat (70/100)) false two_world oE) = Err ValueError /\
  snd (efficient_risk best_solver inv2 (NFloat (71/100)) false two_world oE) <> Err ValueError /\
  snd (efficient_risk best_solver inv2 (NInt 1) false two_world oE) <> Err ValueError /\
  snd (efficient_risk best_solver inv2 NOther false two_world oE) = Err ValueError.
Proof.
  destruct ex_c132_object as [_ [Ho [Em [_ Hn]]]].
  pose proof (fun t => proj1 (c132_efficient_risk best_solver two_world oE [] _ inv2 t false best_solver_usual Ho Em (Hn _))) as H.
  assert (Ht : total (map total (inv2 (e_cov oE))) = 2) by (cbn; lra). rewrite Ht in H. unfold below_lowest in H.
  split; [|split; [|split]].
  - apply H. intros x [E|[z [E _]]]; inversion E; subst. right. right. lra.
  - intros E. pose proof (proj1 (H _) E) as E0. clear E. rename E0 into E. destruct (E _ (or_introl eq_refl)) as [E1|[E1|[_ E1]]]; lra.
  - intros E. pose proof (proj1 (H _) E) as E0. clear E. rename E0 into E. destruct (E 1 (or_intror (ex_intro _ 1%Z (conj eq_refl eq_refl)))) as [E1|[E1|[_ E1]]]; lra.
  - apply H. intros x [E|[z [E _]]]; discriminate E.
Qed.

(** return: 20% is the most that can be reached; the integer 0 is rejected because it is not a float *)
Lemma best20 : best_return two_world oE [] [1/10; 1/5] (fun _ => [0; 1]).
Proof.
  split.
  - apply two_admissible. exists 0, 1. split; [reflexivity|lra].
  - intros s Hs. apply two_admissible in Hs. destruct Hs as [x [y [E H]]]. change (e_w oE) with 0%nat. rewrite E, !qret_two. lra.
Qed.
Example ex_c132_return :
  snd (efficient_return best_solver (NFloat (21/100)) false two_world oE) = Err ValueError /\
  snd (efficient_return best_solver (NFloat (20/100)) false two_world oE) <> Err ValueError /\
  snd (efficient_return best_solver (NInt 0) false two_world oE) = Err ValueError.
Proof.
  destruct ex_c132_object as [_ [Ho [Em [Er Hn]]]].
  pose proof (fun t => proj1 (c132_efficient_return best_solver two_world oE [] _ t false best_solver_usual best_solver_exact best_solver_complete Ho Em Er (Hn _))) as H.
  split; [|split].
  - apply H. intros x E. inversion E; subst. exists (fun _ => [0; 1]). split; [exact best20|]. change (e_w oE) with 0%nat. rewrite qret_two. lra.
  - intros E. pose proof (proj1 (H _) E) as E0. clear E. rename E0 into E. destruct (E _ eq_refl) as [s [[_ Hb] Hlt]]. specialize (Hb _ (proj1 best20)). cbv beta in Hb.
    rewrite qret_two in Hb. change (e_w oE) with 0%nat in *. lra.
  - apply H. intros x E. discriminate E.
Qed.

(** Sharpe ratio: a risk-free rate of 20% is rejected, 19% is not *)
Example ex_c132_sharpe :
  snd (max_sharpe best_solver (NFloat (20/100)) two_world oE) = Err ValueError /\
  snd (max_sharpe best_solver (NFloat (19/100)) two_world oE) <> Err ValueError.
Proof.
  destruct ex_c132_object as [_ [Ho [Em [Er Hn]]]].
  pose proof (fun t => proj1 (c132_max_sharpe best_solver two_world oE [] _ t _ best_solver_usual Ho Em (Forall_nil _) eq_refl)) as H.
  split.
  - apply H. intros x [E|[z [E _]]]; inversion E; subst. intros a [<-|[<-|[]]]; lra.
  - intros E. pose proof (proj1 (H _) E) as E0. clear E. rename E0 into E. specialize (E _ (or_introl eq_refl) (1/5)). cbn in E. specialize (E (or_intror (or_introl eq_refl))). lra.
Qed.

(** a constraint of another class, for example a second-order cone *)
Definition cone : con := COther (fun l => 0 <= total l) (EVar 0).
Definition oC : ef := set_cons (e_cons oE ++ [(7%nat, cone)]) oE.
Example ex_c132_cone : open_ef two_world oC [(7%nat, cone)] /\ snd (max_sharpe best_solver (NFloat 0) two_world oC) = Err TypeError.
Proof.
  assert (Ho : open_ef two_world oC [(7%nat, cone)]).
  { destruct (two_open (1/10) (1/5) 0 1) as [H1 [[i [j H2]] [H3 [H4 [H5 [H6 [H7 [H8 [H9 H10]]]]]]]]].
    split; [exact H1|]. split; [exists i, j; unfold oC, oE; cbn [e_cons set_cons]; rewrite H2; reflexivity|].
    split; [exact H3|]. split; [exact H4|]. split; [exact H5|]. split; [exact H6|]. split; [exact H7|]. split; [exact H8|]. split; [exact H9|].
    constructor; [|constructor]. repeat constructor; cbn; tauto. }
  split; [exact Ho|].
  apply (c132_max_sharpe_constraints best_solver two_world oC [(7%nat, cone)] [1/10; 1/5] (NFloat 0) Ho eq_refl).
  - exists 0, (1/10). split; [left; reflexivity|]. split; [left; reflexivity|lra].
  - exists (7%nat, cone). split; [left; reflexivity|]. cbn. tauto.
Qed.

(** semivariance: targets above 20% are rejected *)
Example ex_c132_semivariance : forall d, snd (semi_efficient_return best_solver d (NFloat (21/100)) false two_world oE) = Err ValueError /\
  snd (semi_efficient_return best_solver d (NFloat (19/100)) false two_world oE) <> Err ValueError /\
  snd (semi_efficient_risk best_solver d (-1) false two_world oE) <> Err ValueError.
Proof.
  intros d. destruct ex_c132_object as [_ [Ho [Em [Er Hn]]]].
  destruct (c132_semivariance best_solver two_world oE [] _ d false best_solver_usual Ho Em) as [_ [_ [H1 H2]]].
  split; [|split].
  - apply (proj1 (H2 _ (Hn _))). intros x E. inversion E; subst. right. intros a [<-|[<-|[]]]; rewrite Rabs_right; lra.
  - intros E. pose proof (proj1 (proj1 (H2 _ (Hn _))) E) as E0. clear E. rename E0 into E. destruct (E _ eq_refl) as [E1|E1]; [lra|].
    specialize (E1 (Rabs (1/5)) (or_intror (or_introl eq_refl))). rewrite Rabs_right in E1; lra.
  - intros E. pose proof (proj1 (proj1 (H1 _ (Hn _))) E) as E0. clear E. rename E0 into E. exact E.
Qed.

(** CVaR and CDaR: negative risk targets are rejected *)
Example ex_c132_tail : forall d d',
  snd (cvar_efficient_risk best_solver d (-1) false two_world oE) = Err ValueError /\
  snd (cvar_efficient_return best_solver d (-1) false two_world oE) <> Err ValueError /\
  snd (cdar_efficient_return best_solver d' (-1) false two_world oE) = Err ValueError /\
  snd (cdar_efficient_risk best_solver d' 1 false two_world oE) <> Err ValueError.
Proof.
  intros d d'. destruct ex_c132_object as [_ [Ho [Em [Er Hn]]]].
  destruct (c132_cvar best_solver two_world oE [] _ d false best_solver_usual Ho Em) as [_ [H1 H2]].
  destruct (c132_cdar best_solver two_world oE [] _ d' false best_solver_usual Ho Em) as [_ [H3 H4]].
  split; [apply (proj1 (H2 _ (Hn _))); lra|]. split; [intros E; pose proof (proj1 (proj1 (H1 _ (Hn _))) E) as E0; clear E; rename E0 into E; exact E|].
  split; [apply (proj1 (H3 _ (Hn _))); lra|]. intros E; pose proof (proj1 (proj1 (H4 _ (Hn _))) E) as E0; clear E; rename E0 into E. lra.
Qed.

(** an optimizer built without expected returns *)
Definition blind_ef : ef := mkEF (mkBase [LInt 0; LInt 1] None) None 0 None []
    [(0%nat, lower_con [Some 0; Some 0] 0); (1%nat, upper_con [Some 1; Some 1] 0)]
    [Some 0; Some 0] [Some 1; Some 1] None [[1; 0]; [0; 1]] None None None.
Example ex_c132_blind : ef_init (MIn MuNone) (CIn (CovArray [[1; 0]; [0; 1]])) (BPair (Some 0) (Some 1)) empty_world = (two_world, Ok blind_ef) /\
  open_ef two_world blind_ef [] /\ e_mu blind_ef = None /\ e_maxret blind_ef = None /\ forall name, unused_name two_world blind_ef name.
Proof.
  split; [reflexivity|]. split; [|split; [reflexivity|split; [reflexivity|intros name p []]]].
  split; [reflexivity|]. split; [eexists; eexists; reflexivity|]. split; [reflexivity|]. split; [reflexivity|].
  split; [reflexivity|]. split; [split; [reflexivity|repeat constructor]|]. split; [intros m E; inversion E|]. repeat constructor.
Qed.
