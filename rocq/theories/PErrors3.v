(** * Optimizers without expected returns (C132) *)
From Coq Require Import ZArith List String Bool Reals Lra Lia.
From Verif Require Import Num Py RBase PyLemmas MBase MConvex MEF MDown SLin SBase SConvex SDown SErrors Sums PBase PConvex PEF PEF2 PEF3 PEF4 PErrors.
Import ListNotations.
Local Open Scope R_scope.

Section NoReturns.
  Variables (sv : solver_t) (w : world) (o : ef) (u : list (nat * con)).
  Hypothesis (Ho : open_ef w o u) (Em : e_mu o = None).

  Lemma no_mu : forall w1 o1, e_mu o1 = None -> need_mu w1 o1 = (w1, o1, Err TypeError).
  Proof. intros w1 o1 E. unfold need_mu, bind, get. rewrite E. reflexivity. Qed.
  Lemma no_mu_T : forall w1 o1, e_mu o1 = None -> need_mu_T w1 o1 = (w1, o1, Err AttributeError).
  Proof. intros w1 o1 E. unfold need_mu_T, bind, get. rewrite E. reflexivity. Qed.
  Lemma none_return : forall t mn, e_maxret o = None -> snd (efficient_return sv t mn w o) = Err ValueError.
  Proof.
    intros t mn Er. destruct t as [x|z|]; [|reflexivity|reflexivity]. unfold efficient_return, bind, get. rewrite Er. cbn [falsy when].
    unfold bind, on_copy, deepcopy, max_return, bind, get. rewrite Em. reflexivity.
  Qed.
  Lemma none_sharpe : forall rf, snd (max_sharpe sv rf w o) = Err (match rf with NOther => ValueError | _ => TypeError end).
  Proof. intros [x|z|]; [| |reflexivity]; unfold max_sharpe, bind, get; rewrite Em; reflexivity. Qed.
  Lemma none_utility : forall ra mn, unused_name w o "risk_aversion" -> 0 < ra -> snd (max_quadratic_utility sv ra mn w o) = Err TypeError.
  Proof.
    intros ra mn Hf Hra. unfold max_quadratic_utility. rewrite (proj2 (Rleb_false _ _)) by exact Hra. rewrite fresh_step by exact Hf.
    unfold bind, get. rewrite no_mu by exact Em. reflexivity.
  Qed.
  Lemma none_risk : forall pinv t mn, unused_name w o "target_variance" ->
    snd (efficient_risk sv pinv t mn w o) = Err ValueError \/ snd (efficient_risk sv pinv t mn w o) = Err TypeError.
  Proof.
    intros pinv t mn Hf. unfold efficient_risk. destruct (target_of t) as [x|]; [|left; reflexivity]. destruct (Rltb x 0); [left; reflexivity|].
    assert (Hd : is_parameter_defined "target_variance" w o = (w, o, Ok false)) by (apply not_defined_run; intros p Hp; apply Hf; apply in_or_app; left; exact Hp).
    unfold bind, get. destruct (below_global_min _ _ _); [left; reflexivity|right]. rewrite Hd. rewrite no_mu by exact Em. reflexivity.
  Qed.
  Lemma none_semi : forall d mn,
    (forall ra, unused_name w o "risk_aversion" -> 0 < ra -> snd (semi_max_quadratic_utility sv d ra mn w o) = Err TypeError) /\
    (forall t, unused_name w o "target_semivariance" -> snd (semi_efficient_risk sv d t mn w o) = Err TypeError) /\
    (forall t, snd (semi_efficient_return sv d t mn w o) = Err ValueError \/ snd (semi_efficient_return sv d t mn w o) = Err TypeError).
  Proof.
    intros d mn. split; [|split].
    - intros ra Hf Hra. unfold semi_max_quadratic_utility. rewrite (proj2 (Rleb_false _ _)) by exact Hra. rewrite fresh_step by exact Hf.
      unfold bind, get, new_var. rewrite no_mu by exact Em. reflexivity.
    - intros t Hf. unfold semi_efficient_risk. rewrite fresh_step by exact Hf. unfold bind, get. rewrite no_mu by exact Em. reflexivity.
    - intros [t|z|]; [|left; reflexivity|left; reflexivity]. unfold semi_efficient_return. destruct (Rltb t 0); [left; reflexivity|right].
      unfold bind, get. rewrite Em. reflexivity.
  Qed.
  Lemma none_tails : forall mn,
    (forall d t, unused_name w o "target_cvar" -> snd (cvar_efficient_risk sv d t mn w o) = Err TypeError) /\
    (forall d t, unused_name w o "target_return" -> snd (cvar_efficient_return sv d t mn w o) = Err AttributeError) /\
    (forall d t, unused_name w o "target_cdar" -> snd (cdar_efficient_risk sv d t mn w o) = Err TypeError) /\
    (forall d t, unused_name w o "target_return" -> snd (cdar_efficient_return sv d t mn w o) = Err AttributeError).
  Proof.
    destruct Ho as [Hopt _]. intros mn. split; [|split; [|split]]; intros d t Hf.
    - unfold cvar_efficient_risk. rewrite fresh_step by exact Hf. unfold bind, get. rewrite no_mu by exact Em. reflexivity.
    - unfold cvar_efficient_return. rewrite fresh_step by exact Hf. unfold bind at 1 2. rewrite set_objective_full_run.
      unfold add_cvar, bind. rewrite add_constraint_open by exact Hopt. rewrite add_constraint_open by exact Hopt. rewrite no_mu_T by exact Em. reflexivity.
    - unfold cdar_efficient_risk. rewrite fresh_step by exact Hf. unfold bind, get. rewrite no_mu by exact Em. reflexivity.
    - unfold cdar_efficient_return. rewrite fresh_step by exact Hf. unfold bind. rewrite no_mu_T by exact Em. reflexivity.
  Qed.
End NoReturns.
Theorem no_returns : forall sv w o u mn, open_ef w o u -> e_mu o = None ->
  (forall t, e_maxret o = None -> snd (efficient_return sv t mn w o) = Err ValueError) /\
  (forall rf, snd (max_sharpe sv rf w o) = Err (match rf with NOther => ValueError | _ => TypeError end)) /\
  (forall ra, unused_name w o "risk_aversion" -> 0 < ra -> snd (max_quadratic_utility sv ra mn w o) = Err TypeError) /\
  (forall pinv t, unused_name w o "target_variance" -> snd (efficient_risk sv pinv t mn w o) = Err ValueError \/ snd (efficient_risk sv pinv t mn w o) = Err TypeError).
Proof.
  intros sv w o u mn Ho Em. split; [intros t H; apply none_return; assumption|]. split; [intros rf; apply none_sharpe; exact Em|].
  split; [intros ra H H0; apply none_utility; assumption|intros pinv t H; apply none_risk; assumption].
Qed.
