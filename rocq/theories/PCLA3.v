(** * Critical line algorithm: statements about CLA objects *)
From Coq Require Import ZArith List Bool Reals Lra Lia Permutation.
From Verif Require Import Num Py MBase MCLA SLin SCLA RBase PyLemmas Sums Mat PBase PCLA1 PCLA2.
Import ListNotations.
Local Open Scope R_scope.

Lemma feasible_nearly : forall lb ub w tol, 0 <= tol -> feasible lb ub w -> nearly_feasible tol lb ub w.
Proof.
  intros lb ub w tol Ht [H1 [H2 H3]]. split; [|split].
  - rewrite H1, Rminus_diag_eq, Rabs_R0 by reflexivity. exact Ht.
  - apply Forall2_nth in H2. apply Forall2_nth. destruct H2 as [Hl H2]. split; [exact Hl|]. intros i Hi. specialize (H2 i Hi). lra.
  - apply Forall2_nth in H3. apply Forall2_nth. destruct H3 as [Hl H3]. split; [exact Hl|]. intros i Hi. specialize (H3 i Hi). lra.
Qed.

(** ** C47 *)
Theorem first_point_kept : forall fuel inv ord (o : cla R) f w, init_algo o = Ok (f, w) -> length (c_ub o) = length (c_lb o) ->
  feasible (c_lb o) (c_ub o) w ->
  exists rest, c_tp (fst (solve fuel inv ord o)) = mkTP w None None f :: rest.
Proof.
  intros fuel inv ord o f w Ei Hlen Hf. pose proof (init_algo_length o f w Ei) as Hw. unfold solve. rewrite Ei.
  destruct (loop inv ord (c_mean o) (c_cov o) (c_lb o) (c_ub o) (c_int o) fuel f w None [mkTP w None None f]) as [pts r] eqn:El.
  assert (Hw1 : Forall (fun p : tp R => length (t_w p) = length (c_lb o)) [mkTP w None None f]) by (constructor; [exact Hw|constructor]).
  destruct (loop_lengths _ _ _ _ _ _ _ _ _ _ _ _ _ _ _ Hw Hw1 El) as [_ [more Hm]]. cbn [app] in Hm. subst pts.
  destruct r as [u|e]; [|exists more; reflexivity].
  rewrite purge_tol_eq, purge_num_err_filter. cbn [filter t_w].
  rewrite (proj2 (num_err_false tol9 (c_lb o) (c_ub o) w Hw Hlen)) by (apply feasible_nearly; [left; apply tol9_pos|exact Hf]). cbn [negb].
  destruct (filter _ more) as [|q rest].
  - rewrite purge_excess_few by (cbn; lia). exists []. reflexivity.
  - rewrite purge_excess_ok. exists (keep (c_mean o) (q :: rest)). reflexivity.
Qed.

Theorem cla_start : forall fuel inv ord (o : cla R), c_int o = false -> boxes (c_n o) (c_lb o) (c_ub o) ->
  total (c_lb o) < 1 -> 1 <= total (c_ub o) ->
  exists a w rest, c_tp (fst (solve fuel inv ord o)) = mkTP w None None [a] :: rest /\ (a < c_n o)%nat /\ length w = c_n o /\
    max_return (c_mean o) (c_lb o) (c_ub o) w /\ at_bounds_except a (c_lb o) (c_ub o) w.
Proof.
  intros fuel inv ord o Hi Hb H1 H2. destruct (init_algo_ok o Hi Hb H1 H2) as [a [w [E [Ha [Hw [Hm [He _]]]]]]].
  destruct (first_point_kept fuel inv ord o [a] w E) as [rest Hr].
  - destruct Hb as [-> [-> _]]. reflexivity.
  - apply Hm.
  - exists a, w, rest. auto.
Qed.

(** ** C48 *)
Lemma call_solve_err : forall fuel inv ord (o : cla R) e c, c_tp o = [] -> solve fuel inv ord o = (o, Err e) ->
  do_call fuel inv ord c o = (o, Err e).
Proof.
  intros fuel inv ord o e c Ht E.
  assert (Ee : ensure fuel inv ord o = (o, Err e)) by (unfold ensure; rewrite Ht; exact E).
  destruct c; cbn [do_call]; unfold cla_min_volatility, cla_max_sharpe, cla_frontier; rewrite Ee; reflexivity.
Qed.
Theorem cla_boundary : forall fuel inv ord (o : cla R) c, c_tp o = [] -> boxes (c_n o) (c_lb o) (c_ub o) ->
  1 <= total (c_lb o) \/ ((c_int o = false \/ Forall (fun x => 0 <= x) (c_ub o)) /\ total (c_ub o) < 1) ->
  do_call fuel inv ord c o = (o, Err IndexError).
Proof.
  intros fuel inv ord o c Ht Hb H. apply call_solve_err; [exact Ht|]. apply solve_init_err.
  destruct H as [H|[Hi H]]; [apply init_algo_low, H|apply init_algo_short; assumption].
Qed.

(** ** C49 *)
Definition same_problem (o o' : cla R) : Prop :=
  b_tickers (c_base o') = b_tickers (c_base o) /\ c_mean o' = c_mean o /\ c_cov o' = c_cov o /\ c_lb o' = c_lb o /\ c_ub o' = c_ub o /\ c_int o' = c_int o.
Lemma ensure_ready : forall fuel inv ord (o : cla R), c_tp o <> [] -> ensure fuel inv ord o = (o, Ok tt).
Proof. intros fuel inv ord o H. unfold ensure. destruct (c_tp o); [congruence|reflexivity]. Qed.
Lemma solve_same : forall fuel inv ord o, same_problem o (fst (solve fuel inv ord o)).
Proof.
  intros fuel inv ord o. pose proof (solve_data fuel inv ord o) as H. unfold data in H. injection H as H1 H2 H3 H4 H5 H6.
  unfold same_problem. rewrite H1. auto 10.
Qed.
Lemma ensure_feasible : forall fuel inv ord (o o' : cla R), length (c_ub o) = length (c_lb o) -> c_tp o = [] \/ all_feasible o ->
  ensure fuel inv ord o = (o', Ok tt) -> same_problem o o' /\ all_feasible o'.
Proof.
  intros fuel inv ord o o' Hlen H E. destruct (c_tp o) as [|p l] eqn:Et.
  - unfold ensure in E. rewrite Et in E. pose proof (solve_same fuel inv ord o) as Hs. rewrite E in Hs. cbn [fst] in Hs.
    split; [exact Hs|]. unfold all_feasible. destruct Hs as [_ [_ [_ [-> [-> _]]]]]. apply (solve_feasible fuel inv ord o o' Hlen E).
  - rewrite ensure_ready in E by congruence. injection E as <-. split; [unfold same_problem; auto 10|].
    destruct H as [H|H]; [congruence|exact H].
Qed.

Lemma output_values : forall (b : base R) w, NoDup (b_tickers b) -> length (b_tickers b) = length w ->
  dvalues (make_output_of b w) = w.
Proof.
  intros b w Hn Hl. unfold make_output_of. rewrite dict_of_pairs_NoDup by (rewrite combine_map_fst by exact Hl; exact Hn).
  unfold dvalues. apply combine_map_snd, Hl.
Qed.

Lemma item_nth : forall {X} k (l : list X) x, item k l = Ok x -> nth_error l k = Some x.
Proof. intros X k l x E. unfold item in E. destruct (nth_error l k); congruence. Qed.

Lemma min_vol_run : forall fuel inv ord (o o1 o' : cla R) d, ensure fuel inv ord o = (o1, Ok tt) ->
  cla_min_volatility fuel inv ord o = (o', Ok d) ->
  exists p, In p (c_tp o1) /\ o' = set_cweights (t_w p) o1 /\ d = make_output_of (c_base o1) (t_w p) /\
    forall q, In q (c_tp o1) -> qform (c_cov o1) (t_w p) <= qform (c_cov o1) (t_w q).
Proof.
  intros fuel inv ord o o1 o' d Ee E. unfold cla_min_volatility in E. rewrite Ee in E.
  destruct (index_min (map (fun p => quad (c_cov o1) (t_w p)) (c_tp o1))) as [k|e] eqn:Ek; [|discriminate]. cbn [rbind] in E.
  destruct (item k (c_tp o1)) as [p|e] eqn:Ep; [|discriminate]. apply item_nth in Ep. injection E as <- <-.
  exists p. split; [apply (nth_error_In _ _ Ep)|]. split; [reflexivity|]. split; [reflexivity|].
  destruct (index_min_spec _ _ Ek) as [v [Hv Hm]]. rewrite nth_error_map, Ep in Hv. cbn in Hv. injection Hv as <-.
  intros q Hq. rewrite <- !quad_qform. apply Hm. apply (in_map (fun p => quad (c_cov o1) (t_w p))), Hq.
Qed.
Lemma sharpe_segments_spec : forall mean cov pts l n, Forall (fun p => length (t_w p) = n) pts -> sharpe_segments mean cov pts = Ok l ->
  forall x, In x l -> exists i p q a, nth_error pts i = Some p /\ nth_error pts (S i) = Some q /\ 0 <= a <= 1 /\
    fst x = combo a (t_w p) (t_w q) /\ eval_sr mean cov (t_w p) (t_w q) a = Ok (snd x).
Proof.
  intros mean cov. induction pts as [|p pts IH]; intros l n Hn E x Hx; [cbn in E; injection E as <-; contradiction|].
  destruct pts as [|q rest]; [cbn in E; injection E as <-; contradiction|].
  change (sharpe_segments mean cov (p :: q :: rest)) with
    (do r <- golden_section (eval_sr mean cov (t_w p) (t_w q)) 0 1 ;
     do l' <- sharpe_segments mean cov (q :: rest) ; Ok ((combo (fst r) (t_w p) (t_w q), snd r) :: l')) in E.
  destruct (golden_section _ 0 1) as [[a v]|e] eqn:Eg; [|discriminate]. cbn [rbind] in E.
  destruct (sharpe_segments mean cov (q :: rest)) as [l'|e] eqn:Es; [|discriminate]. cbn [rbind fst snd] in E. injection E as <-.
  inversion Hn; subst. destruct Hx as [<-|Hx].
  - exists O, p, q, a. apply golden_section_in in Eg; [|lra]. cbn [fst snd]. repeat split; try tauto.
  - destruct (IH l' _ H2 eq_refl x Hx) as [i [p1 [q1 [a1 H]]]]. exists (S i), p1, q1, a1. exact H.
Qed.
Lemma max_sharpe_run : forall fuel inv ord (o o1 o' : cla R) d n, ensure fuel inv ord o = (o1, Ok tt) ->
  Forall (fun p => length (t_w p) = n) (c_tp o1) -> cla_max_sharpe fuel inv ord o = (o', Ok d) ->
  exists i p q a, nth_error (c_tp o1) i = Some p /\ nth_error (c_tp o1) (S i) = Some q /\ 0 <= a <= 1 /\
    o' = set_cweights (combo a (t_w p) (t_w q)) o1 /\ d = make_output_of (c_base o1) (combo a (t_w p) (t_w q)).
Proof.
  intros fuel inv ord o o1 o' d n Ee Hn E. unfold cla_max_sharpe in E. rewrite Ee in E.
  destruct (sharpe_segments (c_mean o1) (c_cov o1) (c_tp o1)) as [l|e] eqn:El; [|discriminate]. cbn [rbind] in E.
  destruct (index_max (map snd l)) as [k|e]; [|discriminate]. cbn [rbind] in E.
  destruct (item k l) as [x|e] eqn:Ex; [|discriminate]. apply item_nth, nth_error_In in Ex. injection E as <- <-.
  destruct (sharpe_segments_spec _ _ _ _ n Hn El x Ex) as [i [p [q [a [H1 [H2 [H3 [H4 _]]]]]]]].
  exists i, p, q, a. rewrite H4. auto.
Qed.
Lemma mapM_len : forall {X Y} (f : X -> res Y) l m, mapM f l = Ok m -> length m = length l.
Proof. intros. apply (mapM_length f); assumption. Qed.
Lemma frontier_run : forall fuel inv ord k (o o1 o' : cla R) mu sg ws, ensure fuel inv ord o = (o1, Ok tt) ->
  cla_frontier fuel inv ord k o = (o', Ok (mu, sg, ws)) ->
  c_tp o1 <> [] /\ o' = set_frontier (mu, sg, ws) o1 /\ ws = frontier_weights (k / length (c_tp o1)) (c_tp o1) /\
  length mu = length ws /\ length sg = length ws /\ mu = map (fun w => inner w (c_mean o1)) ws /\
  Forall2 (fun w s => 0 <= qform (c_cov o1) w /\ s = sqrt (qform (c_cov o1) w)) ws sg.
Proof.
  intros fuel inv ord k o o1 o' mu sg ws Ee E. unfold cla_frontier in E. rewrite Ee in E.
  destruct (c_tp o1) as [|p pts] eqn:Et; [discriminate|]. rewrite <- Et in *.
  destruct (mapM (deviation_of (c_cov o1)) _) as [sg'|e] eqn:Es; [|discriminate]. injection E as <- <- <- <-.
  split; [congruence|]. split; [reflexivity|]. split; [reflexivity|]. split; [apply map_length|].
  split; [apply (mapM_len _ _ _ Es)|]. split; [apply map_ext; intros w; apply dot_inner|].
  revert sg' Es. induction (frontier_weights (k / length (c_tp o1)) (c_tp o1)) as [|w ws IH]; intros sg E; cbn [mapM] in E.
  - injection E as <-. constructor.
  - destruct (deviation_of (c_cov o1) w) as [s|e] eqn:Ed; [|discriminate]. cbn [rbind] in E.
    destruct (mapM _ ws) as [sg'|e] eqn:Em; [|discriminate]. cbn [rbind] in E. injection E as <-.
    constructor; [|apply IH; reflexivity]. unfold deviation_of in Ed. rewrite quad_qform in Ed.
    destruct (Rltb (qform (c_cov o1) w) 0) eqn:Er; [discriminate|]. rprop. injection Ed as <-. auto.
Qed.

Lemma all_lengths : forall o, all_feasible o -> Forall (fun p => length (t_w p) = length (c_lb o)) (c_tp o).
Proof. intros o [_ H]. revert H. apply Forall_impl. intros p. apply nearly_length. Qed.

Theorem call_feasible : forall fuel inv ord c (o o1 o' : cla R) r, well_labelled o -> length (c_ub o) = length (c_lb o) ->
  c_tp o = [] \/ all_feasible o -> ensure fuel inv ord o = (o1, Ok tt) ->
  do_call fuel inv ord c o = (o', r) ->
  same_problem o o' /\ all_feasible o' /\ c_tp o' = c_tp o1 /\
  forall ws, r = Ok ws -> Forall (nearly_feasible tol9 (c_lb o) (c_ub o)) ws.
Proof.
  intros fuel inv ord c o o1 o' r [Hn Hl] Hlen Hst Ee E.
  destruct (ensure_feasible _ _ _ _ _ Hlen Hst Ee) as [Hs Ha]. pose proof Hs as [S1 [S2 [S3 [S4 [S5 S6]]]]].
  pose proof (all_lengths o1 Ha) as Hln. pose proof Ha as [Ha2 Haf]. rewrite S4, S5 in Haf. rewrite S4 in Hln. rewrite Forall_forall in Haf.
  assert (Hmix : forall i p q a, nth_error (c_tp o1) i = Some p -> nth_error (c_tp o1) (S i) = Some q -> 0 <= a <= 1 ->
    nearly_feasible tol9 (c_lb o) (c_ub o) (combo a (t_w p) (t_w q))).
  { intros i p q a Hp Hq Hab. apply combo_feasible; [exact Hab|apply Haf, (nth_error_In _ _ Hp)|apply Haf, (nth_error_In _ _ Hq)]. }
  assert (Hout : forall w, nearly_feasible tol9 (c_lb o) (c_ub o) w -> dvalues (make_output_of (c_base o1) w) = w).
  { intros w Hw. apply output_values; rewrite S1; [exact Hn|]. rewrite Hl. symmetry. apply (nearly_length _ _ _ _ Hw). }
  destruct c as [| |k]; cbn [do_call] in E.
  - destruct (cla_min_volatility fuel inv ord o) as [o2 [d|e]] eqn:Em; injection E as <- <-.
    + destruct (min_vol_run _ _ _ _ _ _ _ Ee Em) as [p [Hp [-> [-> _]]]]. split; [exact Hs|]. split; [exact Ha|]. split; [reflexivity|].
      intros ws Hws. injection Hws as <-. constructor; [|constructor]. rewrite Hout; apply Haf, Hp.
    + unfold cla_min_volatility in Em. rewrite Ee in Em. destruct (rbind _ _) as [p|e'] in Em; [discriminate|].
      injection Em as <- <-. split; [exact Hs|]. split; [exact Ha|]. split; [reflexivity|]. discriminate.
  - destruct (cla_max_sharpe fuel inv ord o) as [o2 [d|e]] eqn:Em; injection E as <- <-.
    + destruct (max_sharpe_run _ _ _ _ _ _ _ _ Ee Hln Em) as [i [p [q [a [Hp [Hq [Hab [-> ->]]]]]]]].
      split; [exact Hs|]. split; [exact Ha|]. split; [reflexivity|].
      intros ws Hws. injection Hws as <-. constructor; [|constructor]. rewrite Hout; apply (Hmix i p q a); assumption.
    + unfold cla_max_sharpe in Em. rewrite Ee in Em. destruct (rbind _ _) as [p|e'] in Em; [discriminate|].
      injection Em as <- <-. split; [exact Hs|]. split; [exact Ha|]. split; [reflexivity|]. discriminate.
  - destruct (cla_frontier fuel inv ord k o) as [o2 [[[mu sg] ws]|e]] eqn:Em; injection E as <- <-.
    + destruct (frontier_run _ _ _ _ _ _ _ _ _ _ Ee Em) as [_ [-> [Hws _]]]. split; [exact Hs|]. split; [exact Ha|]. split; [reflexivity|].
      intros ws' E'. injection E' as <-. apply Forall_forall. intros w Hw. rewrite Hws in Hw.
      destruct (frontier_on_segment _ _ _ _ Hln Hw) as [i [p [q [j [Hp [Hq [Hj ->]]]]]]]. apply (Hmix i p q); auto; lra.
    + unfold cla_frontier in Em. rewrite Ee in Em. destruct (c_tp o1) as [|p pts] eqn:Et; [cbn in Ha2; lia|].
      destruct (mapM _ _) in Em; [discriminate|]. injection Em as <- <-. split; [exact Hs|]. split; [exact Ha|]. split; [exact Et|]. discriminate.
Qed.

Theorem calls_feasible : forall fuel inv ord cs (o : cla R), well_labelled o -> length (c_ub o) = length (c_lb o) ->
  c_tp o = [] \/ all_feasible o -> snd (ensure fuel inv ord o) = Ok tt ->
  forall r ws, In r (snd (do_calls fuel inv ord cs o)) -> r = Ok ws -> Forall (nearly_feasible tol9 (c_lb o) (c_ub o)) ws.
Proof.
  intros fuel inv ord. induction cs as [|c cs IH]; intros o Hw Hlen Hst He r ws Hr Ho; [contradiction|].
  cbn [do_calls] in Hr. destruct (do_call fuel inv ord c o) as [o2 r1] eqn:E1.
  destruct (ensure fuel inv ord o) as [o1 re] eqn:Ee. cbn [snd] in He. subst re.
  destruct (call_feasible _ _ _ _ _ _ _ _ Hw Hlen Hst Ee E1) as [Hs [Ha [Htp Hf]]].
  pose proof Hs as [S1 [S2 [S3 [S4 [S5 S6]]]]].
  destruct (do_calls fuel inv ord cs o2) as [o3 rs] eqn:E2. cbn [snd] in Hr. destruct Hr as [<-|Hr]; [apply Hf, Ho|].
  rewrite <- S4, <- S5. apply (IH o2) with (r := r); auto.
  - unfold well_labelled. rewrite S1, S4. exact Hw.
  - rewrite S4, S5. exact Hlen.
  - rewrite ensure_ready; [reflexivity|]. destruct Ha as [Ha _]. destruct (c_tp o2); [cbn in Ha; lia|discriminate].
  - rewrite E2. exact Hr.
Qed.

(** ** C51 *)
Theorem purge_excess_spec : forall mean pts,
  match pts with
  | p :: q :: l => exists l', purge_excess mean pts = (p :: l', Ok tt) /\ pruned mean (q :: l) l' /\ descending mean l'
  | _ => purge_excess mean pts = (pts, Err IndexError)
  end.
Proof.
  intros mean [|p [|q l]]; try reflexivity. exists (keep mean (q :: l)). split; [apply purge_excess_ok|].
  pose proof (keep_pruned mean (q :: l)) as H. split; [exact H|apply (pruned_descending _ _ _ H)].
Qed.
Theorem solve_descending : forall fuel inv ord (o o' : cla R), length (c_ub o) = length (c_lb o) -> solve fuel inv ord o = (o', Ok tt) ->
  descending (c_mean o) (tl (c_tp o')).
Proof.
  intros fuel inv ord o o' Hlen E. destruct (solve_ok _ _ _ _ _ Hlen E) as [f [w [pts [p [rest [_ [_ [_ [_ [Hr [Ht Hf]]]]]]]]]]].
  rewrite Ht. cbn [tl]. apply (pruned_descending _ rest), keep_pruned.
Qed.

(** ** C52 *)
Theorem min_vol_least : forall fuel inv ord (o o' : cla R) d, cla_min_volatility fuel inv ord o = (o', Ok d) ->
  exists w, b_weights (c_base o') = Some w /\ d = make_output_of (c_base o') w /\ In w (map t_w (c_tp o')) /\
    forall p, In p (c_tp o') -> qform (c_cov o') w <= qform (c_cov o') (t_w p).
Proof.
  intros fuel inv ord o o' d E. destruct (ensure fuel inv ord o) as [o1 [u|e]] eqn:Ee.
  - destruct u. destruct (min_vol_run _ _ _ _ _ _ _ Ee E) as [p [Hp [-> [-> Hm]]]]. exists (t_w p).
    split; [reflexivity|]. split; [reflexivity|]. split; [apply in_map, Hp|exact Hm].
  - unfold cla_min_volatility in E. rewrite Ee in E. discriminate.
Qed.

(** ** C54 *)
Theorem frontier_spec : forall fuel inv ord points (o o1 o' : cla R) mu sg ws n, ensure fuel inv ord o = (o1, Ok tt) ->
  Forall (fun p => length (t_w p) = n) (c_tp o1) -> (2 <= length (c_tp o1))%nat ->
  cla_frontier fuel inv ord points o = (o', Ok (mu, sg, ws)) ->
  length ws = (if (points <? length (c_tp o1))%nat then 0 else (length (c_tp o1) - 1) * (points / length (c_tp o1) - 1) + 1)%nat /\
  length mu = length ws /\ length sg = length ws /\
  mu = map (fun w => inner w (c_mean o1)) ws /\ Forall2 (fun w s => s = sqrt (qform (c_cov o1) w)) ws sg /\
  forall w, In w ws -> exists i p q, nth_error (c_tp o1) i = Some p /\ nth_error (c_tp o1) (S i) = Some q /\ on_segment w (t_w p) (t_w q).
Proof.
  intros fuel inv ord points o o1 o' mu sg ws n Ee Hn Hm E.
  destruct (frontier_run _ _ _ _ _ _ _ _ _ _ Ee E) as [_ [_ [Hws [L1 [L2 [Hmu Hsg]]]]]]. split; [|split; [exact L1|split; [exact L2|split; [exact Hmu|split]]]].
  - rewrite Hws, frontier_length by exact Hm. destruct (Nat.ltb_spec points (length (c_tp o1))) as [Hlt|Hge].
    + rewrite Nat.div_small by exact Hlt. reflexivity.
    + assert (1 <= points / length (c_tp o1))%nat by (apply Nat.div_le_lower_bound; lia).
      destruct (points / length (c_tp o1))%nat; [lia|reflexivity].
  - apply (Forall2_impl_In (fun w s => 0 <= qform (c_cov o1) w /\ s = sqrt (qform (c_cov o1) w))); [|exact Hsg].
    intros w s _ _ H. apply H.
  - intros w Hw. rewrite Hws in Hw. destruct (frontier_on_segment _ _ _ _ Hn Hw) as [i [p [q [j [Hp [Hq [Hj ->]]]]]]].
    assert (Lp : length (t_w p) = n) by (rewrite Forall_forall in Hn; apply Hn, (nth_error_In _ _ Hp)).
    assert (Lq : length (t_w q) = n) by (rewrite Forall_forall in Hn; apply Hn, (nth_error_In _ _ Hq)).
    exists i, p, q. split; [exact Hp|]. split; [exact Hq|]. split; [apply combo_length; congruence|]. split; [congruence|].
    exists j. split; [exact Hj|]. intros k. rewrite combo_nth by congruence. ring.
Qed.
