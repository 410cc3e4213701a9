(** * Critical line algorithm: failed runs *)
From Coq Require Import ZArith List Bool Reals Lra Lia Permutation.
From Verif Require Import Num Py MBase MCLA SLin SCLA RBase PyLemmas Sums Mat PBase PCLA1 PCLA2 PCLA3 PCLA4.
Import ListNotations.
Local Open Scope R_scope.

(** ** Equal expected returns *)
Lemma inner_const : forall r k m, inner r (repeat m k) = m * inner r (repeat 1 k).
Proof. induction r as [|x r IH]; intros [|k] m; cbn; try ring. rewrite IH. ring. Qed.
Lemma pick_const : forall (mean : list R) m X, Forall (eq m) mean -> (forall i, In i X -> (i < length mean)%nat) -> pick mean X = repeat m (length X).
Proof.
  intros mean m X Hm. induction X as [|i X IH]; intros HX; [reflexivity|]. cbn [pick map length repeat]. f_equal.
  - rewrite Forall_forall in Hm. symmetry. apply Hm, nth_In, HX. left; reflexivity.
  - apply IH. intros j Hj. apply HX. right; exact Hj.
Qed.
Lemma nth_map_scal : forall {X} (f g : X -> R) m l i, (forall x, f x = m * g x) -> nth i (map f l) 0 = m * nth i (map g l) 0.
Proof. intros X f g m l i H. revert i. induction l as [|x l IH]; intros [|i]; cbn; try ring; auto. Qed.
(** the coefficient of lambda vanishes *)
Lemma lambda_none : forall P FB m k wB i bi, compute_lambda P FB (repeat m k) wB i bi = None.
Proof.
  intros. unfold compute_lambda. rewrite repeat_length. unfold ones. cbn [n1 RNum].
  assert (E : - dot (colsums k P) (repeat 1 k) * nth i (matvec P (repeat m k)) 0 + dot (colsums k P) (repeat m k) * nth i (matvec P (repeat 1 k)) 0 = 0).
  { rewrite !dot_inner, (inner_const _ k m). assert (E : nth i (matvec P (repeat m k)) 0 = m * nth i (matvec P (repeat 1 k)) 0).
    { unfold matvec. apply nth_map_scal. intros r. rewrite !dot_inner. apply inner_const. }
    rewrite E. ring. }
  runfold. rcase; [reflexivity|]. exfalso. rprop. contradiction.
Qed.

Theorem equal_returns_loop : forall fuel inv ord mean cov lb ub isint a (w : list R) last pts m, set_order ord -> (2 <= length mean)%nat -> Forall (eq m) mean ->
  (a < length mean)%nat -> exists e,
  loop inv ord mean cov lb ub isint (S fuel) [a] w last pts = (pts, Err e) /\ ((forall M, exists P, inv M = Ok P) -> e = TypeError).
Proof.
  intros fuel inv ord mean cov lb ub isint a w last pts m Hord Hn Hm Ha. cbn [loop]. unfold step. unfold bound_free.
  cbn [length Nat.ltb Nat.leb rbind]. unfold free_bound.
  destruct (Nat.ltb_spec (length [a]) (size mean)) as [_|Hx]; [|unfold size in Hx; cbn in Hx; lia].
  destruct (others ord (size mean) [a]) as [|j bs] eqn:Eo.
  - exfalso. assert (Hj : exists j, (j < length mean)%nat /\ j <> a) by (destruct a; [exists 1%nat|exists 0%nat]; lia).
    destruct Hj as [j [Hj Hja]]. assert (Hin : In j (others ord (size mean) [a])) by (apply others_in; [exact Hord|]; split; [exact Hj|intros [?|[]]; congruence]).
    rewrite Eo in Hin. contradiction.
  - assert (Hj : (j < length mean)%nat) by (apply (others_in ord (size mean) [a] j Hord); rewrite Eo; left; reflexivity).
    cbn [case_b]. unfold matrices. cbn [app]. destruct (inv _) as [P|e] eqn:Ei.
    + cbn [rbind]. rewrite (pick_const mean m [a; j] Hm) by (intros i [<-|[<-|[]]]; assumption).
      rewrite lambda_none. cbn [rbind]. exists TypeError. auto.
    + cbn [rbind]. exists e. split; [reflexivity|]. intros H. destruct (H (mat_or_empty (reduce cov [a; j] [a; j]))) as [P HP]. congruence.
Qed.

Theorem equal_returns : forall fuel inv ord (o : cla R) m, set_order ord -> (2 <= c_n o)%nat -> Forall (eq m) (c_mean o) -> c_tp o = [] ->
  c_int o = false -> boxes (c_n o) (c_lb o) (c_ub o) -> total (c_lb o) < 1 -> 1 <= total (c_ub o) -> NoDup (b_tickers (c_base o)) ->
  length (b_tickers (c_base o)) = c_n o ->
  forall c, exists o' e a w, do_call (S fuel) inv ord c o = (o', Err e) /\ ((forall M, exists P, inv M = Ok P) -> e = TypeError) /\
    at_bounds_except a (c_lb o) (c_ub o) w /\ feasible (c_lb o) (c_ub o) w /\
    (forall fuel' inv' ord', snd (do_call fuel' inv' ord' CallMinVol o') = Ok [w] /\ snd (do_call fuel' inv' ord' CallSharpe o') = Err ValueError).
Proof.
  intros fuel inv ord o m Hord Hn Hm Ht Hi Hb H1 H2 Hnd Hlen c.
  destruct (init_algo_ok o Hi Hb H1 H2) as [a [w [E [Ha [Hw [[Hf _] [He _]]]]]]].
  destruct (equal_returns_loop fuel inv ord (c_mean o) (c_cov o) (c_lb o) (c_ub o) (c_int o) a w None [mkTP w None None [a]] m Hord Hn Hm Ha) as [e [El Hty]].
  assert (Es : ensure (S fuel) inv ord o = (set_tp [mkTP w None None [a]] o, Err e)).
  { unfold ensure, solve. rewrite Ht, E, El. reflexivity. }
  set (o' := set_tp [mkTP w None None [a]] o) in *.
  exists o', e, a, w. split; [|split; [exact Hty|split; [exact He|split; [exact Hf|]]]].
  - destruct c; cbn [do_call]; unfold cla_min_volatility, cla_max_sharpe, cla_frontier; rewrite Es; reflexivity.
  - intros fuel' inv' ord'. cbn [do_call]. unfold cla_min_volatility, cla_max_sharpe. rewrite !ensure_ready by discriminate.
    split; [|reflexivity]. cbn -[make_output_of dvalues].
    change (Ok [dvalues (make_output_of (c_base o) w)] = Ok [w]). rewrite output_values; [reflexivity|exact Hnd|congruence].
Qed.
