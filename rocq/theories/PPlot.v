(** * Properties of the frontier plot *)
From Coq Require Import ZArith List String Bool Reals Lra Lia.
From Verif Require Import Num Py RBase PyLemmas MBase MConvex MEF MPlot SPlot PBase PConvex PEF PEF2.
Import ListNotations.
Local Open Scope R_scope.

Section Loop.
  Context {St : Type} (methods : string -> option (R -> M St unit)) (performance : St -> res (option R * R)) (name : string).
  Lemma loop_complete : forall vs w s w' s' ps, plot_loop methods performance name vs w s = (w', s', Ok ps) ->
    let h := history (try_once methods name) vs (w, s) in
    Forall (fun x => skipped x \/ kept x) h /\
    Forall2 (fun x p => performance (snd (v_after x)) = Ok p) (shown h) ps.
  Proof.
    induction vs as [|v vs IH]; intros w s w' s' ps H; cbn [plot_loop history] in *.
    - injection H as _ _ <-. split; constructor.
    - destruct (attempt methods name v w s) as [[w1 s1] r] eqn:E.
      assert (T : try_once methods name v (w, s) = ((w1, s1), r)) by (unfold try_once; cbn [fst snd]; rewrite E; reflexivity). rewrite T. cbn [fst snd].
      destruct r as [[]|e].
      + destruct (performance s1) as [p|] eqn:P; [|discriminate H]. destruct (plot_loop methods performance name vs w1 s1) as [[w2 s2] [qs|e]] eqn:L; [|discriminate H].
        injection H as <- <- <-. destruct (IH _ _ _ _ _ L) as [A B]. split; [constructor; [right; left; reflexivity|exact A]|].
        cbn. constructor; [exact P|exact B].
      + destruct e; try discriminate H.
        * destruct (performance s1) as [p|] eqn:P; [|discriminate H]. destruct (plot_loop methods performance name vs w1 s1) as [[w2 s2] [qs|e]] eqn:L; [|discriminate H].
          injection H as <- <- <-. destruct (IH _ _ _ _ _ L) as [A B]. split; [constructor; [right; right; reflexivity|exact A]|].
          cbn. constructor; [exact P|exact B].
        * destruct (IH _ _ _ _ _ H) as [A B]. split; [constructor; [left; reflexivity|exact A]|]. cbn. exact B.
  Qed.
  Lemma loop_sound : forall vs w s ps,
    let h := history (try_once methods name) vs (w, s) in
    Forall (fun x => skipped x \/ kept x) h ->
    Forall2 (fun x p => performance (snd (v_after x)) = Ok p) (shown h) ps ->
    exists w' s', plot_loop methods performance name vs w s = (w', s', Ok ps).
  Proof.
    induction vs as [|v vs IH]; intros w s ps h A B; cbn [plot_loop history] in *.
    - cbn in B. inversion B. eexists _, _. reflexivity.
    - revert A B. subst h. destruct (attempt methods name v w s) as [[w1 s1] r] eqn:E.
      assert (T : try_once methods name v (w, s) = ((w1, s1), r)) by (unfold try_once; cbn [fst snd]; rewrite E; reflexivity). rewrite T. cbn [fst snd]. intros A B.
      inversion A as [|x l A1 A2]; subst. destruct A1 as [A1|[A1|A1]]; unfold skipped in A1; cbn [v_outcome] in A1; subst r.
      + cbn in B. destruct (IH _ _ _ A2 B) as [w' [s' ->]]. eexists _, _. reflexivity.
      + cbn in B. inversion B as [|x p l l' P B' E1 E2]; subst. cbn in P. rewrite P. destruct (IH _ _ _ A2 B') as [w' [s' ->]]. eexists _, _. reflexivity.
      + cbn in B. inversion B as [|x p l l' P B' E1 E2]; subst. cbn in P. rewrite P. destruct (IH _ _ _ A2 B') as [w' [s' ->]]. eexists _, _. reflexivity.
  Qed.
End Loop.

Theorem plot_points : forall (St : Type) (methods : string -> option (R -> M St unit)) performance name vs w s ps,
  let h := history (try_once methods name) vs (w, s) in
  (exists w' s', plot_loop methods performance name vs w s = (w', s', Ok ps)) <->
  Forall (fun x => skipped x \/ kept x) h /\ Forall2 (fun x p => performance (snd (v_after x)) = Ok p) (shown h) ps.
Proof.
  intros. split; [intros [w' [s' H]]; eapply loop_complete; exact H|intros [A B]; apply loop_sound; assumption].
Qed.
Theorem plot_unknown : forall (St : Type) (methods : string -> option (R -> M St unit)) performance name vs w s, methods name = None ->
  plot_loop methods performance name vs w s = (w, s, match vs with [] => Ok [] | _ => Err NotImplementedError end).
Proof. intros St methods performance name [|v vs] w s H; [reflexivity|]. cbn. unfold attempt. rewrite H. reflexivity. Qed.

(** ** EfficientFrontier *)
Definition same_data (o o' : ef) : Prop := e_mu o' = e_mu o /\ e_cov o' = e_cov o /\ e_rf o' = e_rf o.
Lemma sd_refl : forall o, same_data o o. Proof. intros o; repeat split. Qed.
Lemma sd_trans : forall a b c, same_data a b -> same_data b c -> same_data a c.
Proof. intros a b c [? [? ?]] [? [? ?]]. repeat split; congruence. Qed.
Ltac sd_mod := apply pres_modify; intros ?; repeat split.
Lemma sd_solve : forall sv, pres same_data (solve_opt sv).
Proof. intros sv. pres_go sd_refl sd_trans sd_mod. Qed.
Lemma sd_methods : forall sv pinv name m v, ef_methods sv pinv name = Some m -> pres same_data (m v).
Proof.
  intros sv pinv name m v H. unfold ef_methods in H.
  destruct (String.eqb name "utility"); [injection H as <-|destruct (String.eqb name "risk"); [injection H as <-|destruct (String.eqb name "return"); [injection H as <-|discriminate]]].
  all: pres_go sd_refl sd_trans ltac:(first [apply sd_solve | sd_mod]).
Qed.
Lemma safe_methods : forall sv pinv name m v, ef_methods sv pinv name = Some m -> safe (m v).
Proof.
  intros sv pinv name m v H. unfold ef_methods in H.
  destruct (String.eqb name "utility"); [injection H as <-|destruct (String.eqb name "risk"); [injection H as <-|destruct (String.eqb name "return"); [injection H as <-|discriminate]]].
  - exact (safe_run sv (fun _ => ([], true)) pinv (KUtility v false)).
  - exact (safe_run sv (fun _ => ([], true)) pinv (KRisk (NFloat v) false)).
  - exact (safe_run sv (fun _ => ([], true)) pinv (KReturn (NFloat v) false)).
Qed.
Lemma point_ext : forall o o', same_data o o' -> e_weights o' = e_weights o -> ef_point o' = ef_point o.
Proof. intros o o' [A [B C]] D. unfold ef_point, ef_performance. rewrite A, B, C, D. reflexivity. Qed.
(** a parameter that fails leaves the performance alone *)
Theorem failed_attempt : forall sv pinv name v w o w' o' e, attempt (ef_methods sv pinv) name v w o = (w', o', Err e) -> e <> FloatSpecial ->
  ef_point o' = ef_point o.
Proof.
  intros sv pinv name v w o w' o' e H He. unfold attempt in H. destruct (ef_methods sv pinv name) as [m|] eqn:E.
  - apply point_ext; [eapply sd_methods; eassumption|eapply safe_methods; eassumption].
  - inversion H; subst. reflexivity.
Qed.
(** the plot of a longer list *)
Lemma plot_app : forall sv pinv name vs vs' w o, plot_ef sv pinv name (vs ++ vs') w o =
  match plot_ef sv pinv name vs w o with
  | (w1, o1, Ok ps) => match plot_ef sv pinv name vs' w1 o1 with (w2, o2, Ok qs) => (w2, o2, Ok (ps ++ qs)) | (w2, o2, Err e) => (w2, o2, Err e) end
  | (w1, o1, Err e) => (w1, o1, Err e)
  end.
Proof.
  intros sv pinv name vs vs'. unfold plot_ef. induction vs as [|v vs IH]; intros w o; cbn [app plot_loop].
  - destruct (plot_loop _ _ _ vs' w o) as [[? ?] [?|?]]; reflexivity.
  - destruct (attempt _ name v w o) as [[w1 o1] [[]|e]].
    + destruct (ef_point o1) as [p|e]; [|reflexivity]. rewrite IH. destruct (plot_loop _ _ _ vs w1 o1) as [[w2 o2] [ps|e]]; [|reflexivity].
      destruct (plot_loop _ _ _ vs' w2 o2) as [[w3 o3] [qs|e]]; reflexivity.
    + destruct e; try reflexivity.
      * destruct (ef_point o1) as [p|e]; [|reflexivity]. rewrite IH. destruct (plot_loop _ _ _ vs w1 o1) as [[w2 o2] [ps|e]]; [|reflexivity].
        destruct (plot_loop _ _ _ vs' w2 o2) as [[w3 o3] [qs|e]]; reflexivity.
      * apply IH.
Qed.
(** after a plot with points the object reports the last point *)
Lemma plot_last : forall sv pinv name vs w o w' o' ps, plot_ef sv pinv name vs w o = (w', o', Ok ps) ->
  forall d, ef_point o = Ok d \/ ps <> [] -> ef_point o' = Ok (last ps d).
Proof.
  intros sv pinv name. induction vs as [|v vs IH]; intros w o w' o' ps H d Hd.
  - injection H as _ <- <-. destruct Hd as [Hd|Hd]; [exact Hd|congruence].
  - unfold plot_ef in *. cbn [plot_loop] in H. destruct (attempt (ef_methods sv pinv) name v w o) as [[w1 o1] [[]|e]] eqn:E.
    + destruct (ef_point o1) as [p|e] eqn:P; [|discriminate H]. destruct (plot_loop _ _ _ vs w1 o1) as [[w2 o2] [qs|e]] eqn:L; [|discriminate H].
      injection H as <- <- <-. pose proof (IH _ _ _ _ _ L p (or_introl P)) as Q. rewrite Q. f_equal. clear. destruct qs as [|q qs]; [reflexivity|].
      cbn [last]. revert q. induction qs as [|r qs IH]; intros q; [reflexivity|]. exact (IH r).
    + destruct e; try discriminate H.
      * destruct (ef_point o1) as [p|e] eqn:P; [|discriminate H]. destruct (plot_loop _ _ _ vs w1 o1) as [[w2 o2] [qs|e]] eqn:L; [|discriminate H].
        injection H as <- <- <-. pose proof (IH _ _ _ _ _ L p (or_introl P)) as Q. rewrite Q. f_equal. clear. destruct qs as [|q qs]; [reflexivity|].
        cbn [last]. revert q. induction qs as [|r qs IH]; intros q; [reflexivity|]. exact (IH r).
      * assert (Q : ef_point o1 = ef_point o) by (eapply failed_attempt; [exact E|discriminate]). eapply IH; [exact H|]. destruct Hd as [Hd|Hd]; [left; congruence|right; exact Hd].
Qed.
(** C78: a ValueError repeats the previous point *)
Theorem plot_stale : forall sv pinv name vs v vs' w o w' o' ps w1 o1 w2 o2 qs q,
  plot_ef sv pinv name vs w o = (w1, o1, Ok (qs ++ [q])) ->
  attempt (ef_methods sv pinv) name v w1 o1 = (w2, o2, Err ValueError) ->
  plot_ef sv pinv name (vs ++ v :: vs') w o = (w', o', Ok ps) ->
  exists rest, ps = qs ++ [q; q] ++ rest /\ plot_ef sv pinv name vs' w2 o2 = (w', o', Ok rest).
Proof.
  intros sv pinv name vs v vs' w o w' o' ps w1 o1 w2 o2 qs q H1 H2 H. rewrite plot_app, H1 in H.
  assert (P : ef_point o1 = Ok q).
  { rewrite (plot_last _ _ _ _ _ _ _ _ _ H1 q); [rewrite last_last; reflexivity|]. right. destruct qs; discriminate. }
  assert (P2 : ef_point o2 = Ok q) by (rewrite <- P; eapply failed_attempt; [exact H2|discriminate]).
  unfold plot_ef in H at 1. cbn [plot_loop] in H. rewrite H2, P2 in H. fold (plot_ef sv pinv) in H.
  change (plot_loop (ef_methods sv pinv) ef_point name vs' w2 o2) with (plot_ef sv pinv name vs' w2 o2) in H.
  destruct (plot_ef sv pinv name vs' w2 o2) as [[w3 o3] [rs|e]]; [|discriminate H]. injection H as <- <- <-.
  exists rs. split; [|reflexivity]. rewrite <- !app_assoc. reflexivity.
Qed.
(** the same when nothing has been plotted yet but the object holds weights *)
Theorem plot_stale_first : forall sv pinv name v vs w o w1 o1 w' o' ps,
  attempt (ef_methods sv pinv) name v w o = (w1, o1, Err ValueError) ->
  plot_ef sv pinv name (v :: vs) w o = (w', o', Ok ps) -> exists p rest, ef_point o = Ok p /\ ps = p :: rest.
Proof.
  intros sv pinv name v vs w o w1 o1 w' o' ps H1 H. unfold plot_ef in H. cbn [plot_loop] in H. rewrite H1 in H.
  assert (P : ef_point o1 = ef_point o) by (eapply failed_attempt; [exact H1|discriminate]). rewrite P in H.
  destruct (ef_point o) as [p|]; [|discriminate H]. destruct (plot_loop _ _ _ vs w1 o1) as [[? ?] [?|?]]; [|discriminate H]. injection H as _ _ <-.
  eexists _, _. split; reflexivity.
Qed.
(** on an object without weights a first ValueError stops the plot with a ValueError *)
Theorem plot_first_failure : forall sv pinv name v vs w o w1 o1, e_weights o = None ->
  attempt (ef_methods sv pinv) name v w o = (w1, o1, Err ValueError) ->
  plot_ef sv pinv name (v :: vs) w o = (w1, o1, Err ValueError).
Proof.
  intros sv pinv name v vs w o w1 o1 Hw H1. unfold plot_ef. cbn [plot_loop]. rewrite H1.
  assert (P : ef_point o1 = ef_point o) by (eapply failed_attempt; [exact H1|discriminate]). rewrite P.
  unfold ef_point, ef_performance. rewrite Hw. reflexivity.
Qed.
(** skipping *)
Theorem plot_skip : forall sv pinv name vs v vs' w o w1 o1 w2 o2 qs,
  plot_ef sv pinv name vs w o = (w1, o1, Ok qs) ->
  attempt (ef_methods sv pinv) name v w1 o1 = (w2, o2, Err OptimizationError) ->
  ef_point o2 = ef_point o1 /\
  plot_ef sv pinv name (vs ++ v :: vs') w o =
    match plot_ef sv pinv name vs' w2 o2 with (w', o', Ok rest) => (w', o', Ok (qs ++ rest)) | (w', o', Err e) => (w', o', Err e) end.
Proof.
  intros sv pinv name vs v vs' w o w1 o1 w2 o2 qs H1 H2. split; [eapply failed_attempt; [exact H2|discriminate]|].
  rewrite plot_app, H1. unfold plot_ef at 1. cbn [plot_loop]. rewrite H2. reflexivity.
Qed.

(** ** The default range *)
Lemma linspace_spaced : forall a b n, (0 < n)%nat -> List.length (linspace a b n) = n /\ evenly_spaced a b (linspace a b n).
Proof.
  intros a b [|[|n]] Hn; [lia| |].
  - split; [reflexivity|]. split; [reflexivity|]. cbn. split; [lia|]. exists 0. intros i Hi. lia.
  - assert (EL : List.length (linspace a b (S (S n))) = S (S n)) by (cbn [linspace]; rewrite map_length, seq_length; reflexivity).
    split; [exact EL|]. unfold evenly_spaced. rewrite EL.
    assert (N : forall i, (i < S (S n))%nat -> nth i (linspace a b (S (S n))) a = a + INR i * ((b - a) / INR (S n))).
    { intros i Hi. cbn [linspace]. rewrite (nth_indep _ a (a + INR 0 * ((b - a) / INR (S (S n) - 1)))) by (rewrite map_length, seq_length; exact Hi).
      rewrite (map_nth (fun i => a + INR i * ((b - a) / INR (S (S n) - 1)))). rewrite seq_nth by exact Hi. reflexivity. }
    split; [rewrite N by lia; cbn; ring|]. split.
    + intros _. rewrite N by lia. replace (S (S n) - 1)%nat with (S n) by lia. field. apply not_0_INR. lia.
    + exists ((b - a) / INR (S n)). intros i Hi. rewrite !N by lia. rewrite S_INR. ring.
Qed.
Theorem default_range_spec : forall sv points w o w' o' vs, default_range sv points w o = (w', o', Ok vs) -> (0 < points)%nat ->
  o' = o /\ List.length vs = points /\
  exists w1 o1 d lo sg sr w2 o2 hi, min_volatility sv w o = (w1, o1, Ok d) /\ ef_performance (2 / 100) o1 = Ok (Some lo, sg, sr) /\
    max_return sv w1 o = (w2, o2, Ok hi) /\ evenly_spaced lo (hi - 1 / 10000) vs.
Proof.
  intros sv points w o w' o' vs H Hp. unfold default_range, bind, on_copy, drop, get, lift_res, deepcopy in H. unfold bind, ret in H.
  destruct (min_volatility sv w o) as [[w1 o1] [d|e]] eqn:E1; [|discriminate H].
  destruct (ef_performance (2 / 100) o1) as [[[lo sg] sr]|e] eqn:E2; cbn [rbind fst snd] in H; [|discriminate H].
  destruct (max_return sv w1 o) as [[w2 o2] [hi|e]] eqn:E3; [|discriminate H].
  destruct lo as [lo|]; [|discriminate H]. injection H as _ <- <-. destruct (linspace_spaced lo (hi - 1 / 10000) points Hp) as [A B].
  split; [reflexivity|]. split; [exact A|]. exists w1, o1, d, lo, sg, sr, w2, o2, hi. repeat split; try assumption; apply B.
Qed.
(** the numbers of an evenly spaced list lie between its ends *)
Lemma spaced_between : forall a b l, evenly_spaced a b l -> a <= b -> Forall (fun x => a <= x <= Rmax a b) l.
Proof.
  intros a b l [A [B [d D]]] Hab. destruct l as [|x l]; [constructor|].
  assert (N : forall i, (i < List.length (x :: l))%nat -> nth i (x :: l) a = a + INR i * d).
  { induction i as [|i IH]; intros Hi; [cbn [INR]; rewrite A; ring|]. rewrite S_INR. specialize (D i Hi). specialize (IH ltac:(lia)). lra. }
  rewrite Rmax_right by exact Hab.
  apply Forall_forall. intros y Hy. apply (In_nth _ _ a) in Hy. destruct Hy as [i [Hi <-]].
  destruct (Nat.eq_dec (List.length (x :: l)) 1) as [E1|E1].
  { rewrite E1 in Hi. replace i with O by lia. rewrite A. lra. }
  assert (H1 : (1 < List.length (x :: l))%nat) by (cbn in *; lia). specialize (B H1). rewrite N in B by lia.
  rewrite N by exact Hi.
  assert (K : 0 < INR (List.length (x :: l) - 1)) by (apply lt_0_INR; lia).
  assert (0 <= d). { destruct (Rle_or_lt 0 d); [assumption|]. assert (INR (List.length (x :: l) - 1) * d < 0) by (apply Ropp_lt_cancel; rewrite Ropp_0, Ropp_mult_distr_r; apply Rmult_lt_0_compat; lra). lra. }
  assert (INR i <= INR (List.length (x :: l) - 1)) by (apply le_INR; lia). assert (0 <= INR i) by apply pos_INR.
  assert (0 <= INR i * d) by (apply Rmult_le_pos; assumption). assert (INR i * d <= INR (List.length (x :: l) - 1) * d) by (apply Rmult_le_compat_r; assumption). lra.
Qed.
