(** * max_sharpe on a new optimizer; unlimited weights (C106) *)
From Coq Require Import List String Bool Reals Lra Lia Arith.
From Verif Require Import Num Py RBase PyLemmas SLin SBase MBase MConvex MEF SConvex SPrep SExist Sums PBase PConvex PEF PEF2 PEF3 PEF4 PEF5 PEF6 PDown5 PPrep PPerm2 PPerm4 PExist PExist2 PExist3 PExist4.
Import ListNotations.
Local Open Scope R_scope.

Lemma cont_comp_pos : forall n f g, continuous_on n f -> (forall x, List.length x = n -> 0 < f x) -> (forall v, 0 < v -> continuity_pt g v) -> continuous_on n (fun x => g (f x)).
Proof.
  intros n f g Hf Hp Hg x Hn e He. destruct (Hg (f x) (Hp x Hn) e He) as [d [Hd K]]. destruct (Hf x Hn d Hd) as [d' [Hd' K']].
  exists d'. split; [exact Hd'|]. intros y Hy. destruct (Req_dec (f x) (f y)) as [E|E]; [rewrite E, Rminus_diag_eq, Rabs_R0 by reflexivity; exact He|].
  apply K. split; [split; [exact I|exact E]|]. apply K'. exact Hy.
Qed.
Lemma inv_sqrt_cont : forall v, 0 < v -> continuity_pt (fun v => / sqrt v) v.
Proof. intros v Hv. apply (continuity_pt_inv sqrt); [apply continuity_pt_sqrt; lra|]. pose proof (sqrt_lt_R0 v Hv). lra. Qed.

Lemma list_max_in : forall l mx, list_max l = Some mx -> In mx l.
Proof.
  intros [|a l] mx H; [discriminate|]. cbn in H. injection H as <-.
  assert (G : forall l a, In (fold_left Rmax l a) (a :: l)).
  { clear. induction l as [|x l IH]; intros a; cbn [fold_left]; [left; reflexivity|]. destruct (IH (Rmax a x)) as [E|E]; [|right; right; exact E].
    rewrite <- E. unfold Rmax. destruct (Rle_dec a x); [right; left|left]; reflexivity. }
  apply G.
Qed.
Lemma sharpe_some_asset : forall sv rf r mu w o w2 o2 d, e_mu o = Some mu -> target_of rf = Some r -> max_sharpe sv rf w o = (w2, o2, Ok d) -> Exists (fun a => r < a) mu.
Proof.
  intros sv rf r mu w o w2 o2 d Hm Hr H. destruct (list_max mu) as [mx|] eqn:E.
  - apply Exists_exists. exists mx. split; [apply list_max_in; exact E|].
    destruct rf; cbn [target_of] in Hr; try discriminate; injection Hr as <-; unfold max_sharpe, bind at 1, get in H; rewrite Hm, E in H;
    (destruct (Rleb mx _) eqn:L in H; [discriminate|]); apply Rleb_false in L; lra.
  - destruct rf; cbn [target_of] in Hr; try discriminate; unfold max_sharpe, bind at 1, get in H; rewrite Hm, E in H; discriminate.
Qed.

Section Sharpe.
  Context (m : mu_arg) (c : cov_arg) (b : bounds_arg) (w0 w1 : world) (o : ef) (mu : list R).
  Context (Hi : ef_init (MIn m) (CIn c) b w0 = (w1, Ok o)) (Hq : square (List.length (cov_values c)) (cov_values c))
    (Hn : List.length (cov_values c) = e_n o) (Hbl : bounded (e_lb o)) (Hbu : bounded (e_ub o)) (Hmu : mu_values m = Some mu) (Hpsd : psd (e_n o) (cov_values c)).
  Let V := cov_values c.
  Let ok := fits (e_n o) (e_lb o) (e_ub o) 1.
  Theorem exist_sharpe : forall sv rf r, exact_solver sv -> complete_solver sv -> target_of rf = Some r -> (forall x, ok x -> 0 < qform V x) ->
    ((exists w2 o2 d, max_sharpe sv rf w1 o = (w2, o2, Ok d)) <-> Exists (fun a => r < a) mu /\ exists x, ok x /\ 0 < excess mu r x).
  Proof.
    intros sv rf r He Hc Hr Hpos. destruct (constructed _ _ _ _ _ _ Hi Hq Hn) as (Ho & Ha & Hcv & Hm & _). rewrite Hmu in Hm. rewrite <- Hcv in Hpsd. split.
    - intros (w2 & o2 & d & H).
      destruct (max_sharpe_best sv w1 o [] rf w2 o2 d He Ho Ha Hpsd ltac:(constructor) ltac:(constructor) H) as (m' & r' & Em & Er & s & rr & _ & _ & _ & A & P & _).
      rewrite Hm in Em. injection Em as <-. rewrite Hr in Er. injection Er as <-. split; [|exists (s (e_w o)); split; [apply (new_fits w1 o Ho _ _ _ _ A)|exact P]].
      apply (sharpe_some_asset sv rf r mu w1 o w2 o2 d Hm Hr H).
    - intros [Hex (x0 & F0 & P0)].
      assert (B : bounds_in_force false o (e_lb o) (e_ub o)) by (right; auto).
      destruct (new_least w1 o Ho Ha Hbl Hbu false _ _ 1 (fun _ => True) (qform V) B (closed_true _) ltac:(apply (cont_vec_qform _ _ _ _ (cont_vec_id _))) ltac:(exists x0; auto)) as (lb & ub & s1 & B1 & A1 & _ & L1).
      destruct (in_force_unique _ _ _ _ _ _ B B1) as [<- <-]. rewrite Ha in L1. unfold penalty in L1. cbn [map total] in L1.
      set (q0 := qform V (s1 (e_w o))) in *. assert (Q0 : 0 < q0) by (apply Hpos, (new_fits w1 o Ho _ _ _ _ A1)).
      set (score := fun x => - (excess mu r x * / sqrt (Rmax (qform V x) q0))).
      assert (Hscore : continuous_on (e_n o) score).
      { apply cont_opp. apply (cont_mult _ (excess mu r)).
        - apply (cont_minus _ (inner mu)); [apply new_inner_cont|apply cont_const].
        - apply (cont_comp_pos (e_n o) (fun x => Rmax (qform V x) q0) (fun v => / sqrt v)).
          + apply (cont_max _ (qform V)); [apply (cont_vec_qform _ _ _ _ (cont_vec_id _))|apply cont_const].
          + intros x _. pose proof (Rmax_r (qform V x) q0). lra.
          + exact inv_sqrt_cont. }
      destruct (new_least w1 o Ho Ha Hbl Hbu false _ _ 1 (fun _ => True) score B (closed_true _) Hscore ltac:(exists x0; auto)) as (lb & ub & s & B2 & A & _ & L).
      destruct (in_force_unique _ _ _ _ _ _ B B2) as [<- <-]. rewrite Ha in L. unfold penalty in L. cbn [map total] in L.
      assert (Rm : forall s', admissible w1 o [] (e_lb o) (e_ub o) 1 s' -> Rmax (qform V (s' (e_w o))) q0 = qform V (s' (e_w o)) /\ 0 < sqrt (qform V (s' (e_w o)))).
      { intros s' A'. specialize (L1 s' A' I). split; [apply Rmax_left; lra|apply sqrt_lt_R0; lra]. }
      assert (Cmp : forall s', admissible w1 o [] (e_lb o) (e_ub o) 1 s' -> excess mu r (s' (e_w o)) * sqrt (qform V (s (e_w o))) <= excess mu r (s (e_w o)) * sqrt (qform V (s' (e_w o)))).
      { intros s' A'. specialize (L s' A' I). unfold score in L. destruct (Rm s A) as [E1 S1]. destruct (Rm s' A') as [E2 S2]. rewrite E1, E2 in L.
        set (e1 := excess mu r (s (e_w o))) in *. set (e2 := excess mu r (s' (e_w o))) in *. set (d1 := sqrt (qform V (s (e_w o)))) in *. set (d2 := sqrt (qform V (s' (e_w o)))) in *.
        assert (K : e2 * / d2 <= e1 * / d1) by lra. apply (Rmult_le_compat_r (d1 * d2)) in K; [|nra].
        replace (e2 * / d2 * (d1 * d2)) with (e2 * d1) in K by (field; lra). replace (e1 * / d1 * (d1 * d2)) with (e1 * d2) in K by (field; lra). exact K. }
      destruct (fits_new w1 o Ho _ _ _ _ F0) as [s0 [A0 E0]].
      apply (sharpe_found sv w1 o [] mu rf r s He Hc Ho Ha Hpsd ltac:(constructor) ltac:(constructor) Hbl Hbu Hm Hr Hex A).
      + specialize (Cmp s0 A0). rewrite E0 in Cmp. destruct (Rm s0 A0) as [_ S2]. rewrite E0 in S2. destruct (Rm s A) as [_ S1].
        apply (Rmult_lt_reg_r (sqrt (qform V x0))); [exact S2|]. rewrite Rmult_0_l. eapply Rlt_le_trans; [|exact Cmp]. apply Rmult_lt_0_compat; assumption.
      + rewrite Hcv. exact Cmp.
  Qed.
End Sharpe.

(** ** without finite bounds there may be portfolios but no best one *)
Theorem exist_unlimited : forall sv, exact_solver sv -> exists w1 o,
  ef_init (MIn (MuArray [1; 0])) (CIn (CovArray [[0; 0]; [0; 0]])) (BSeq true [[None; None]; [None; None]]) (mkWorld [] (fun _ => None) [] 0) = (w1, Ok o) /\
  (exists x, fits 2 (e_lb o) (e_ub o) 1 x) /\ forall w2 o2 d, max_quadratic_utility sv 1 false w1 o <> (w2, o2, Ok d).
Proof.
  intros sv He. destruct (ef_init _ _ _ _) as [w1 [o|e]] eqn:E; [|discriminate E]. exists w1, o. split; [reflexivity|].
  assert (En : e_n o = 2%nat) by (injection E as _ <-; reflexivity).
  assert (Ew : e_w o = 0%nat) by (injection E as _ <-; reflexivity).
  assert (Ez : w_sizes w1 = [2%nat]) by (injection E as <- _; reflexivity).
  assert (El : e_lb o = [None; None]) by (injection E as _ <-; reflexivity).
  assert (Eu : e_ub o = [None; None]) by (injection E as _ <-; reflexivity).
  assert (W : forall x y, within [None; None] [None; None] [x; y]) by (intros x y; split; repeat constructor).
  split.
  - exists [1; 0]. rewrite El, Eu. split; [reflexivity|]. split; [apply W|]. cbn [total]. lra.
  - intros w2 o2 d H.
    destruct (e2e_utility _ _ _ _ _ _ [] w1 o E ltac:(split; [reflexivity|repeat constructor]) (eq_sym En) ltac:(constructor) eq_refl sv [1; 0] 1 false w2 o2 d He eq_refl ltac:(constructor) H) as (lb & ub & B & s & r & _ & _ & _ & A & _ & L).
    destruct B as [[B _]|(_ & -> & ->)]; [discriminate B|]. rewrite El, Eu, Ez, Ew in *. destruct A as (A1 & _ & A3 & _). specialize (A1 0%nat ltac:(cbn; lia)). cbn [nth] in A1.
    destruct (s 0%nat) as [|x [|y [|? ?]]] eqn:Es; try discriminate A1.
    specialize (L (fun v => [x + 1; y - 1])). cbn [total] in A3. unfold qform in L. cbn [map inner total cov_values] in L.
    assert (K : allowed (b_tickers (e_base o)) 0 [2%nat] (par_values (mkWorld [] (fun _ : nat => None) [] 0)) [None; None] [None; None] 1 [] (fun _ => [x + 1; y - 1])).
    { split; [|split; [apply W|split; [cbn [total]; lra|constructor]]]. intros v Hv. cbn in Hv. destruct v; [reflexivity|lia]. }
    specialize (L K I). lra.
Qed.
