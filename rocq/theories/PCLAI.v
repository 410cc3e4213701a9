(** * Critical line algorithm: integer bounds (C89) *)
From Coq Require Import ZArith QArith Qreals String List Bool Reals Lra Lia Permutation.
From Verif Require Import Num Py MBase MCLA SLin SBL SCLA RBase PyLemmas QRBase Sums Mat PBase PCLA1 PCLA2 PCLA3 PCLA4 PCLA9 PCLAQ PCLAW.
Import ListNotations.
Local Open Scope R_scope.

Lemma mapM_Forall : forall {X Y} (f : X -> res Y) l r, mapM f l = Ok r -> length r = length l.
Proof.
  intros X Y f. induction l as [|x l IH]; intros r E; cbn in E; [injection E as <-; reflexivity|].
  destruct (f x) as [y|]; [|discriminate]. cbn [rbind] in E. destruct (mapM f l) as [ys|]; [|discriminate]. injection E as <-. cbn. f_equal. apply IH. reflexivity.
Qed.
Lemma pint_integral : forall l : list (pynum R), forallb is_pint l = true -> Forall integral (map pval l).
Proof.
  induction l as [|p l IH]; intros H; cbn; constructor; cbn in H; apply andb_prop in H; destruct H as [H1 H2].
  - destruct p as [z|x]; [|discriminate]. exists z. reflexivity.
  - apply IH, H2.
Qed.
Theorem int_bounds_read : forall n b (lo hi : list R), read_cla_bounds n b = Ok (lo, hi, true) -> Forall integral lo.
Proof.
  intros n [l u|rows] lo hi E; [discriminate|]. unfold read_cla_bounds in E. destruct (item 0 rows) as [first|]; [|discriminate]. cbn [rbind] in E.
  destruct (length rows =? n)%nat.
  - destruct (mapM (item 0) rows) as [l|]; [|discriminate]. cbn [rbind] in E. destruct (mapM (item 1) rows) as [h|]; [|discriminate]. cbn [rbind] in E.
    injection E as <- _ E. apply pint_integral, E.
  - destruct (negb _); [discriminate|]. destruct (item 1 rows) as [h|]; [|discriminate]. cbn [rbind] in E. destruct (negb _); [discriminate|].
    injection E as <- _ E. apply pint_integral, E.
Qed.

Lemma Forall_list_set : forall {X} (P : X -> Prop) i v l, P v -> Forall P l -> Forall P (list_set i v l).
Proof. intros X P i v l Hv. revert i. induction l as [|x l IH]; intros i H; destruct i; cbn; auto; inversion H; subst; constructor; auto. Qed.
Lemma put_integral : forall i v w, Forall integral w -> Forall integral (put true i v w).
Proof. intros i v w H. apply Forall_list_set; [|exact H]. unfold stored. exists (ntrunc v). reflexivity. Qed.
Lemma put_all_integral : forall f wF w, Forall integral w -> Forall integral (put_all true f wF w).
Proof. induction f as [|i f IH]; intros [|x wF] w H; cbn; auto. apply IH, put_integral, H. Qed.
Lemma fill_integral : forall fuel order ub i w r, Forall integral w -> fill fuel true order ub i w = Ok r -> Forall integral (snd r).
Proof.
  induction fuel as [|k IH]; intros order ub i w r H E; [discriminate|]. cbn [fill] in E. destruct (nltb _ _).
  - destruct (py_index order (i - 1)) as [a|]; [|discriminate]. cbn [rbind] in E. eapply IH; [|exact E]. apply put_integral, H.
  - injection E as <-. exact H.
Qed.
Lemma init_integral : forall (o : cla R) f w, c_int o = true -> Forall integral (c_lb o) -> init_algo o = Ok (f, w) -> Forall integral w.
Proof.
  intros o f w Hi Hl E. unfold init_algo in E. rewrite Hi in E. destruct (fill _ _ _ _ _ _) as [[i v]|] eqn:Ef; [|discriminate]. cbn [rbind] in E.
  apply (fill_integral _ _ _ _ _ _ Hl) in Ef. destruct (py_index _ _) as [a|]; [|discriminate]. cbn [rbind] in E. injection E as _ <-. apply put_integral, Ef.
Qed.
Lemma loop_integral : forall inv ord mean cov lb ub fuel f w last pts, Forall integral w -> Forall (fun p => Forall integral (t_w p)) pts ->
  Forall (fun p => Forall integral (t_w p)) (fst (loop inv ord mean cov lb ub true fuel f w last pts)).
Proof.
  intros inv ord mean cov lb ub. induction fuel as [|k IH]; intros f w last pts Hw Hp; [exact Hp|]. cbn [loop].
  destruct (step inv ord mean cov lb ub true f w w last) as [[[f' w'] p]|e] eqn:E; [|exact Hp].
  assert (Hw' : Forall integral w' /\ t_w p = w').
  { unfold step in E. destruct (bound_free _ _ _ _ _ _ _ _) as [li|]; [|discriminate]. cbn [rbind] in E.
    destruct (free_bound _ _ _ _ _ _ _) as [lo|]; [|discriminate]. cbn [rbind] in E.
    destruct (next_event li lo) as [ev|]; [|discriminate]. cbn [rbind] in E.
    assert (Hev : Forall integral (snd (fst (after_event true ev f w)))) by (destruct ev; cbn [after_event fst snd]; [exact Hw|apply put_integral, Hw|exact Hw]).
    destruct (after_event true ev f w) as [[f1 w1] l]. cbn [fst snd] in Hev.
    destruct (matrices _ _ _ _ _ _) as [[[[P FB] mF] wB]|]; [|discriminate]. cbn [rbind] in E.
    destruct (compute_w _ _ _ _ _) as [[wF g]|]; [|discriminate]. cbn [rbind] in E. injection E as <- <- <-. split; [apply put_all_integral, Hev|reflexivity]. }
  destruct Hw' as [Hw' Ep]. assert (Hp' : Forall (fun p => Forall integral (t_w p)) (pts ++ [p])) by (apply Forall_app; split; [exact Hp|constructor; [rewrite Ep; exact Hw'|constructor]]).
  destruct (t_l p) as [l|]; [|exact Hp']. destruct (neqb _ _); [exact Hp'|]. apply IH; assumption.
Qed.
Lemma Forall_del : forall {X} (P : X -> Prop) i l, Forall P l -> Forall P (del_at i l).
Proof.
  intros X P i l H. unfold del_at. apply Forall_app. rewrite !Forall_forall in *. split; intros x Hx; apply H.
  - rewrite <- (firstn_skipn i l). apply in_or_app. left. exact Hx.
  - rewrite <- (firstn_skipn (S i) l). apply in_or_app. right. exact Hx.
Qed.
Lemma purge1_Forall : forall (P : tp R -> Prop) lb ub tol fuel i pts, Forall P pts -> Forall P (purge_num_err_loop fuel lb ub tol i pts).
Proof.
  intros P lb ub tol. induction fuel as [|k IH]; intros i pts H; [exact H|]. cbn [purge_num_err_loop]. destruct (nth_error pts i); [|exact H].
  destruct (num_err _ _ _ _); apply IH; [apply Forall_del|]; exact H.
Qed.
Lemma purge2_Forall : forall (P : tp R -> Prop) mean fuel i again pts, Forall P pts -> Forall P (fst (purge_excess_loop fuel mean i again pts)).
Proof.
  intros P mean. induction fuel as [|k IH]; intros i again pts H; [exact H|]. cbn [purge_excess_loop]. destruct (_ =? _)%nat; [exact H|].
  destruct (nth_error _ _); [|exact H]. destruct (existsb _ _); apply IH; [apply Forall_del|]; exact H.
Qed.
Theorem solve_integral : forall fuel inv ord (o : cla R), c_int o = true -> Forall integral (c_lb o) -> c_tp o = [] ->
  Forall (fun p => Forall integral (t_w p)) (c_tp (fst (solve fuel inv ord o))).
Proof.
  intros fuel inv ord o Hi Hl Ht. unfold solve. destruct (init_algo o) as [[f w]|e] eqn:E; [|cbn; rewrite Ht; constructor].
  pose proof (init_integral _ _ _ Hi Hl E) as Hw. rewrite Hi.
  assert (H : Forall (fun p => Forall integral (t_w p)) [mkTP w None None f]) by (constructor; [exact Hw|constructor]).
  pose proof (loop_integral inv ord (c_mean o) (c_cov o) (c_lb o) (c_ub o) fuel f w None _ Hw H) as Hp.
  destruct (loop _ _ _ _ _ _ _ _ _ _ _ _) as [pts [u|e]]; cbn [fst] in Hp; [|exact Hp].
  pose proof (purge2_Forall _ (c_mean o) (S (length (purge_num_err (c_lb o) (c_ub o) purge_tol pts))) 0%nat false _ (purge1_Forall _ (c_lb o) (c_ub o) purge_tol (length pts) 0%nat pts Hp)) as Hq.
  unfold purge_excess, purge_num_err in *. destruct (purge_excess_loop _ _ _ _ _) as [pts2 r]. exact Hq.
Qed.

(** integers near 0 and 1 *)
Lemma int_near : forall x, integral x -> - tol9 <= x -> x <= 1 + tol9 -> x = 0 \/ x = 1.
Proof.
  intros x [z ->] H1 H2. unfold tol9 in *. assert (-1 < z)%Z by (apply lt_IZR; lra). assert (z < 2)%Z by (apply lt_IZR; lra).
  assert (z = 0 \/ z = 1)%Z as [-> | ->] by lia; [left|right]; reflexivity.
Qed.
Lemma bits_sum : forall w, Forall (fun x => x = 0 \/ x = 1) w -> 0 <= total w /\ (total w = 0 -> w = repeat 0 (length w)) /\
  (total w < 2 -> total w = 0 \/ exists a, (a < length w)%nat /\ w = list_set a 1 (repeat 0 (length w))).
Proof.
  induction w as [|x w IH]; intros H.
  - cbn. split; [lra|]. split; [reflexivity|]. intros _. left. reflexivity.
  - inversion H as [|? ? Hx Hw]; subst. destruct (IH Hw) as [I1 [I2 I3]]. change (total (x :: w)) with (x + total w). cbn [length repeat].
    destruct Hx as [-> | ->]; (split; [lra|]).
    + rewrite Rplus_0_l. split; [intros E; f_equal; apply I2, E|]. intros E. destruct (I3 E) as [E' | [a [Ha Ew]]]; [left; exact E'|right]. exists (S a). split; [lia|]. cbn [list_set]. f_equal. exact Ew.
    + split; [intros; lra|]. intros E. destruct (I3 ltac:(lra)) as [E' | [a [Ha Ew]]].
      * right. exists 0%nat. split; [lia|]. cbn [list_set]. f_equal. apply I2, E'.
      * exfalso. assert (In 1 w). { rewrite Ew. replace 1 with (nth a (list_set a 1 (repeat 0 (length w))) 0) at 1; [apply nth_In; rewrite list_set_length, repeat_length; exact Ha|]. apply nth_list_set_same. rewrite repeat_length. exact Ha. }
        assert (1 <= total w). { clear - H0 Hw. induction w as [|y w IH]; [destruct H0|]. inversion Hw as [|? ? Hy Hw']; subst. change (total (y :: w)) with (y + total w).
          assert (0 <= total w). { clear - Hw'. induction w as [|z w IH]; [cbn; lra|]. inversion Hw'; subst. change (total (z :: w)) with (z + total w). specialize (IH H2). lra. }
          destruct H0 as [-> | H0]; [lra|]. specialize (IH Hw' H0). lra. }
        lra.
Qed.
(** all the money in one asset *)
Theorem single_asset : forall n lb ub w, boxes n lb ub -> Forall (fun x => 0 <= x) lb -> Forall (fun x => x <= 1) ub -> length w = n ->
  Forall integral w -> nearly_feasible tol9 lb ub w -> exists a, (a < n)%nat /\ w = list_set a 1 (repeat 0 n).
Proof.
  intros n lb ub w [L1 [L2 _]] Hlb Hub L Hi [Hs [Hl Hu]].
  assert (Hb : Forall (fun x => x = 0 \/ x = 1) w).
  { rewrite Forall_forall. intros x Hx. apply In_nth with (d := 0) in Hx. destruct Hx as [i [Hi' <-]]. apply int_near.
    - rewrite Forall_forall in Hi. apply Hi, nth_In, Hi'.
    - pose proof (proj2 (proj1 (Forall2_nth _ _ _) Hl) i ltac:(lia)) as K. rewrite Forall_forall in Hlb. specialize (Hlb (nth i lb 0) ltac:(apply nth_In; lia)). cbn in K. lra.
    - pose proof (proj2 (proj1 (Forall2_nth _ _ _) Hu) i ltac:(lia)) as K. rewrite Forall_forall in Hub. specialize (Hub (nth i ub 0) ltac:(apply nth_In; lia)). cbn in K. lra. }
  destruct (bits_sum w Hb) as [I1 [I2 I3]]. rewrite L in I3. unfold tol9, Rabs in Hs. destruct (Rcase_abs _) as [Hc|Hc].
  - destruct (I3 ltac:(lra)) as [E|E]; [lra|exact E].
  - destruct (I3 ltac:(lra)) as [E|E]; [lra|exact E].
Qed.
Theorem int_min_volatility : forall mu cov b fuel inv ord (o o' : cla R) ws, cla_init mu cov b = Ok o -> c_int o = true -> boxes (c_n o) (c_lb o) (c_ub o) ->
  Forall (fun x => 0 <= x) (c_lb o) -> Forall (fun x => x <= 1) (c_ub o) -> well_labelled o -> do_call fuel inv ord CallMinVol o = (o', Ok ws) ->
  exists a, (a < c_n o)%nat /\ ws = [list_set a 1 (repeat 0 (c_n o))].
Proof.
  intros mu cov b fuel inv ord o o' ws Eo Hi Hb Hlb Hub Hl E.
  assert (Ht : c_tp o = [] /\ Forall integral (c_lb o)).
  { unfold cla_init in Eo. destruct mu as [[labels mean]|]; [|discriminate]. destruct (read_cla_bounds _ b) as [[[lo hi] isint]|] eqn:Er; [|discriminate]. cbn [rbind] in Eo.
    injection Eo as <-. cbn [c_int c_tp c_lb] in *. subst isint. split; [reflexivity|]. eapply int_bounds_read, Er. }
  destruct Ht as [Ht Hint]. cbn [do_call] in E. destruct (cla_min_volatility fuel inv ord o) as [o1 [d|e]] eqn:Em; [|discriminate]. injection E as <- <-.
  assert (Hs : exists os, solve fuel inv ord o = (os, Ok tt)).
  { unfold cla_min_volatility, ensure in Em. rewrite Ht in Em. destruct (solve fuel inv ord o) as [os [[]|e]]; [exists os; reflexivity|discriminate]. }
  destruct Hs as [os Es]. assert (Hlen : length (c_ub o) = length (c_lb o)) by (destruct Hb as [L1 [L2 _]]; congruence).
  destruct (solve_feasible _ _ _ _ _ Hlen Es) as [_ Hf]. pose proof (solve_integral fuel inv ord o Hi Hint Ht) as Hz. rewrite Es in Hz. cbn [fst] in Hz.
  assert (Ee : ensure fuel inv ord o = (os, Ok tt)) by (unfold ensure; rewrite Ht; exact Es).
  destruct (min_vol_least _ _ _ _ _ _ Em) as [w [Hw [-> [Hin _]]]].
  assert (Hos : c_tp o1 = c_tp os /\ b_tickers (c_base o1) = b_tickers (c_base os)).
  { unfold cla_min_volatility in Em. rewrite Ee in Em. destruct (rbind _ _) as [p|] in Em; [|discriminate]. injection Em as <- _. split; reflexivity. }
  destruct Hos as [E1 E2]. rewrite E1 in Hin. apply in_map_iff in Hin. destruct Hin as [p [<- Hp]].
  rewrite Forall_forall in Hf, Hz. pose proof (Hf p Hp) as Kf. pose proof (Hz p Hp) as Kz.
  assert (Lw : length (t_w p) = c_n o). { destruct Kf as [_ [Kf _]]. apply Forall2_length in Kf. destruct Hb as [L1 _]. congruence. }
  destruct (single_asset _ _ _ _ Hb Hlb Hub Lw Kz Kf) as [a [Ha Ea]]. exists a. split; [exact Ha|]. f_equal. rewrite <- Ea.
  pose proof (solve_same fuel inv ord o) as Hsame. rewrite Es in Hsame. cbn [fst] in Hsame. destruct Hsame as [S1 _].
  apply output_values; rewrite E2, S1; [apply Hl|]. destruct Hl as [_ ->]. destruct Hb as [L1 _]. congruence.
Qed.

(** two assets with bounds ((0, 1), (0, 1)): all money goes into the first asset *)
Definition whole : cla Q := mkCLA (mkBase [LInt 0; LInt 1] None) [2; 1]%Q [[1; 0]; [0; 1]]%Q [0; 0]%Q [1; 1]%Q true [] None.
Definition whole_tp : list (tp Q) := [mkTP [1; 0]%Q None None [0%nat]; mkTP [1; 0]%Q (Some 1%Q) (Some (-1)%Q) [0%nat; 1%nat]].
Lemma whole_run : forall k, @solve Q QNum (10 + k) qinv idord whole = (set_tp whole_tp whole, Ok tt).
Proof. intros k. vm_compute. reflexivity. Qed.
Theorem int_misses_minimum : exists o,
  cla_init (Some (None, [2; 1])) [[1; 0]; [0; 1]] (CSeq [[PInt 0; PInt 1]; [PInt 0; PInt 1]]) = Ok o /\
  feasible (c_lb o) (c_ub o) [1 / 2; 1 / 2] /\ qform (c_cov o) [1 / 2; 1 / 2] = 1 / 2 /\ qform (c_cov o) [1; 0] = 1 /\
  forall k inv, sound_inverse inv -> complete_inverse inv -> snd (do_call (10 + k) inv idord CallMinVol o) = Ok [[1; 0]].
Proof.
  assert (Q2 : Q2R 2 = 2) by (unfold Q2R; cbn; lra).
  assert (Ew : qcla whole = mkCLA (mkBase [LInt 0; LInt 1] None) [2; 1] [[1; 0]; [0; 1]] [0; 0] [1; 1] true [] None).
  { unfold qcla, whole, qm, qv, qbase. cbn [map c_base c_mean c_cov c_lb c_ub c_int c_tp c_frontier b_tickers b_weights option_map]. rewrite Q2, RMicromega.Q2R_0, RMicromega.Q2R_1. reflexivity. }
  exists (qcla whole). split; [rewrite Ew; reflexivity|]. split; [rewrite Ew; cbn [c_lb c_ub]; feas|]. split; [rewrite Ew; unfold qform; cbn; lra|]. split; [rewrite Ew; unfold qform; cbn; lra|].
  intros k inv Hs Hc. rewrite (call_first _ _ _ whole (set_tp whole_tp whole) [1; 0]%Q).
  - unfold qv. cbn [map]. rewrite RMicromega.Q2R_0, RMicromega.Q2R_1. reflexivity.
  - rewrite (solve_Q inv qinv idord (10 + k)); rewrite ?whole_run; [reflexivity|apply checked_follows; assumption|reflexivity|discriminate].
  - reflexivity.
  - vm_compute. reflexivity.
  - repeat constructor; cbn; intuition congruence.
  - reflexivity.
Qed.

Theorem int_calls_fail : forall fuel inv ord (o : cla R) c, c_tp o = [] -> boxes (c_n o) (c_lb o) (c_ub o) ->
  c_int o = true -> Forall (fun x => x = 0) (c_lb o) -> Forall (fun x => 0 <= x < 1) (c_ub o) -> do_call fuel inv ord c o = (o, Err IndexError).
Proof.
  intros fuel inv ord o c Ht Hb Hi Hl Hu. pose proof (init_algo_int_short o Hb Hi Hl Hu) as E.
  assert (Ee : ensure fuel inv ord o = (o, Err IndexError)) by (unfold ensure, solve; rewrite Ht, E; reflexivity).
  destruct c; cbn [do_call]; unfold cla_min_volatility, cla_max_sharpe, cla_frontier; rewrite Ee; reflexivity.
Qed.
