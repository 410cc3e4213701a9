(** * Critical line algorithm: clean-up, golden section and the portfolios handed out *)
From Coq Require Import ZArith List Bool Reals Lra Lia Permutation.
From Verif Require Import Num Py MBase MCLA SLin SCLA RBase PyLemmas Sums Mat PBase PCLA1.
Import ListNotations.
Local Open Scope R_scope.

(** ** The tolerance check *)
Lemma tol9_pos : 0 < tol9.
Proof. unfold tol9. lra. Qed.
Lemma purge_tol_eq : purge_tol (A:=R) = tol9.
Proof. reflexivity. Qed.

Lemma existsb_bounds : forall tol lb ub (w : list R), length w = length lb -> length ub = length lb ->
  (existsb (fun x : R * (R * R) => let '(v, (l, u)) := x in (nltb (nsub v l) (nopp tol)) || (nltb tol (nsub v u)))
     (combine w (combine lb ub)) = false <->
   Forall2 (fun l x => l - tol <= x) lb w /\ Forall2 (fun x u => x <= u + tol) w ub).
Proof.
  intros tol. induction lb as [|l lb IH]; intros [|u ub] [|x w] H1 H2; try discriminate.
  - cbn. split; auto.
  - cbn [combine existsb]. rewrite orb_false_iff, orb_false_iff. rewrite IH by (cbn in *; lia). runfold.
    rewrite !Rltb_false. split.
    + intros [[Ha Hb] [Hc Hd]]. split; constructor; auto; lra.
    + intros [Ha Hb]. inversion Ha; inversion Hb; subst. repeat split; auto; lra.
Qed.

Lemma num_err_false : forall tol lb ub w, length w = length lb -> length ub = length lb ->
  (num_err lb ub tol w = false <-> nearly_feasible tol lb ub w).
Proof.
  intros tol lb ub w H1 H2. unfold num_err, nearly_feasible. rewrite vsum_total, nabs_Rabs. runfold.
  destruct (Rltb tol (Rabs (total w - 1))) eqn:E; rprop.
  - split; [discriminate|]. intros [Hc _]. lra.
  - rewrite existsb_bounds by assumption. tauto.
Qed.

(** ** _purge_num_err is a filter *)
Lemma del_at_nth : forall {X} (l1 : list X) p l2, del_at (length l1) (l1 ++ p :: l2) = l1 ++ l2.
Proof.
  intros X l1 p l2. unfold del_at. rewrite firstn_app, Nat.sub_diag, firstn_all. cbn [firstn]. rewrite app_nil_r.
  rewrite skipn_app. replace (S (length l1) - length l1)%nat with 1%nat by lia. rewrite skipn_all2 by lia. reflexivity.
Qed.
Lemma purge_num_err_filter : forall lb ub tol pts,
  purge_num_err lb ub tol pts = filter (fun p => negb (num_err lb ub tol (t_w p))) pts.
Proof.
  intros lb ub tol. unfold purge_num_err.
  assert (H : forall post pre fuel, (length post <= fuel)%nat ->
    purge_num_err_loop fuel lb ub tol (length pre) (pre ++ post) = pre ++ filter (fun p => negb (num_err lb ub tol (t_w p))) post).
  { induction post as [|p post IH]; intros pre fuel Hf; cbn [filter].
    - destruct fuel as [|fuel]; cbn [purge_num_err_loop]; [reflexivity|].
      rewrite (proj2 (nth_error_None _ _)); [reflexivity|]. rewrite app_length. cbn. lia.
    - destruct fuel as [|fuel]; [cbn in Hf; lia|]. cbn [purge_num_err_loop].
      rewrite nth_error_app2, Nat.sub_diag by lia. cbn [nth_error].
      destruct (num_err lb ub tol (t_w p)); cbn [negb].
      + rewrite del_at_nth. apply IH. cbn in Hf; lia.
      + specialize (IH (pre ++ [p]) fuel). rewrite app_length, <- !app_assoc in IH. cbn [length app] in IH.
        replace (S (length pre)) with (length pre + 1)%nat by lia. apply IH. cbn in Hf; lia. }
  intros pts. apply (H pts []). reflexivity.
Qed.

(** ** _purge_excess *)
Fixpoint keep (mean : list R) (l : list (tp R)) : list (tp R) :=
  match l with
  | [] => []
  | p :: l' => if existsb (fun q => Rltb (inner (t_w p) mean) (inner (t_w q) mean)) l' then keep mean l' else p :: keep mean l'
  end.
Lemma keep_pruned : forall mean l, pruned mean l (keep mean l).
Proof.
  intros mean. induction l as [|p l IH]; cbn [keep]; [constructor|].
  destruct (existsb _ l) eqn:E; constructor; auto.
  - apply existsb_exists in E. destruct E as [q [Hq E]]. rewrite Rltb_true in E. exists q; auto.
  - intros q Hq. destruct (Rle_lt_dec (inner (t_w q) mean) (inner (t_w p) mean)) as [|Hlt]; [assumption|].
    assert (existsb (fun q : tp R => Rltb (inner (t_w p) mean) (inner (t_w q) mean)) l = true); [|congruence].
    apply existsb_exists. exists q. split; [exact Hq|]. apply Rltb_true, Hlt.
Qed.
Lemma skipn_app_S : forall {X} (pre : list X) p post, skipn (S (length pre)) (pre ++ p :: post) = post.
Proof.
  intros X pre p post. rewrite skipn_app. replace (S (length pre) - length pre)%nat with 1%nat by lia.
  rewrite skipn_all2 by lia. reflexivity.
Qed.
Lemma purge_excess_run : forall mean post pre fuel (again : bool) i, post <> [] -> (length post <= fuel)%nat ->
  (if again then i = length pre else (S i = length pre)%nat) ->
  purge_excess_loop fuel mean i again (pre ++ post) = (pre ++ keep mean post, Ok tt).
Proof.
  intros mean. induction post as [|p post IH]; intros pre fuel again i Hne Hf Hi; [congruence|].
  destruct fuel as [|fuel]; [cbn in Hf; lia|]. cbn [purge_excess_loop].
  assert (Ei : (if again then i else S i) = length pre) by (destruct again; lia). rewrite Ei.
  rewrite app_length. cbn [length].
  destruct post as [|q post].
  - cbn [length keep existsb]. rewrite (proj2 (Nat.eqb_eq _ _)) by lia. reflexivity.
  - rewrite (proj2 (Nat.eqb_neq _ _)) by (cbn [length]; lia).
    rewrite nth_error_app2, Nat.sub_diag by lia. cbn [nth_error]. rewrite skipn_app_S.
    assert (Ee : existsb (fun q0 : tp R => nltb (dot (t_w p) mean) (dot (t_w q0) mean)) (q :: post) =
                 existsb (fun q0 : tp R => Rltb (inner (t_w p) mean) (inner (t_w q0) mean)) (q :: post)).
    { clear. induction (q :: post) as [|x l IHl]; [reflexivity|]. cbn [existsb]. rewrite IHl, !dot_inner. reflexivity. }
    rewrite Ee. clear Ee. change (keep mean (p :: q :: post)) with
      (if existsb (fun q0 : tp R => Rltb (inner (t_w p) mean) (inner (t_w q0) mean)) (q :: post) then keep mean (q :: post) else p :: keep mean (q :: post)).
    generalize (existsb (fun q0 : tp R => Rltb (inner (t_w p) mean) (inner (t_w q0) mean)) (q :: post)). intros [|].
    + rewrite del_at_nth. apply IH; [discriminate|cbn in *; lia|reflexivity].
    + specialize (IH (pre ++ [p]) fuel false (length pre)). rewrite <- !app_assoc, app_length in IH. cbn [app length] in IH.
      apply IH; [discriminate|cbn in *; lia|lia].
Qed.
Lemma purge_excess_ok : forall mean p q l, purge_excess mean (p :: q :: l) = (p :: keep mean (q :: l), Ok tt).
Proof. intros. unfold purge_excess. apply (purge_excess_run mean (q :: l) [p]); [discriminate|cbn; lia|reflexivity]. Qed.
Lemma purge_excess_few : forall mean pts, (length pts <= 1)%nat -> purge_excess mean pts = (pts, Err IndexError).
Proof.
  intros mean [|p [|q l]] H; [reflexivity|reflexivity|cbn in H; lia].
Qed.
Lemma pruned_incl : forall mean l l', pruned mean l l' -> incl l' l.
Proof.
  intros mean l l' H. induction H; intros x Hx; [exact Hx| |right; auto].
  destruct Hx as [->|Hx]; [left; reflexivity|right; auto].
Qed.
Lemma keep_last : forall mean l d, l <> [] -> last (keep mean l) d = last l d /\ keep mean l <> [].
Proof.
  intros mean. induction l as [|p l IH]; intros d Hne; [congruence|]. destruct l as [|q l].
  - cbn. split; [reflexivity|discriminate].
  - destruct (IH d ltac:(discriminate)) as [E1 E2].
    change (keep mean (p :: q :: l)) with
      (if existsb (fun q0 : tp R => Rltb (inner (t_w p) mean) (inner (t_w q0) mean)) (q :: l) then keep mean (q :: l) else p :: keep mean (q :: l)).
    destruct (existsb _ (q :: l)).
    + split; [|exact E2]. rewrite E1. reflexivity.
    + split; [|discriminate]. change (last (p :: q :: l) d) with (last (q :: l) d). rewrite <- E1.
      destruct (keep mean (q :: l)); [congruence|reflexivity].
Qed.

Lemma pruned_descending : forall mean l l', pruned mean l l' -> descending mean l'.
Proof.
  intros mean l l' H. induction H as [|p l l' Hp H IH|p l l' Hp H IH].
  - intros [|i] j p q _ Hi; discriminate.
  - intros i j a b Hij Hi Hj. destruct i as [|i].
    + cbn in Hi. injection Hi as <-. destruct j as [|j]; cbn in Hj; [injection Hj as <-; apply Rle_refl|].
      apply Hp. apply (pruned_incl _ _ _ H). apply (nth_error_In _ _ Hj).
    + destruct j as [|j]; [lia|]. cbn in Hi, Hj. apply (IH i j); auto. lia.
  - exact IH.
Qed.

(** ** Golden section *)
Lemma gs_r_range : 0 < gs_r < 1.
Proof. unfold gs_r. lra. Qed.
Definition gs_inv (obj : R -> res R) (a b : R) (s : gs) : Prop :=
  a <= gs_a s <= b /\ a <= gs_b s <= b /\ a <= gs_x1 s <= b /\ a <= gs_x2 s <= b /\
  obj (gs_x1 s) = Ok (-1 * gs_f1 s) /\ obj (gs_x2 s) = Ok (-1 * gs_f2 s).
Lemma between : forall t x y a b, 0 < t < 1 -> a <= x <= b -> a <= y <= b -> a <= t * x + (1 - t) * y <= b.
Proof.
  intros t x y a b Ht Hx Hy. split.
  - apply Rle_trans with (t * a + (1 - t) * a); [lra|]. apply Rplus_le_compat; apply Rmult_le_compat_l; lra.
  - apply Rle_trans with (t * b + (1 - t) * b); [|lra]. apply Rplus_le_compat; apply Rmult_le_compat_l; lra.
Qed.
Lemma gs_step_inv : forall obj a b s s', gs_inv obj a b s -> gs_step obj s = Ok s' -> gs_inv obj a b s'.
Proof.
  intros obj a b s s' [H1 [H2 [H3 [H4 [H5 H6]]]]] E. unfold gs_step in E. pose proof gs_r_range as Hr.
  destruct (Rltb (gs_f2 s) (gs_f1 s)).
  - destruct (obj (gs_c * gs_x1 s + gs_r * gs_b s)) as [v|e] eqn:Ev; [|discriminate]. cbn [rbind] in E. injection E as <-.
    unfold gs_inv. cbn [gs_a gs_b gs_x1 gs_x2 gs_f1 gs_f2]. split; [|split; [|split; [|split; [|split]]]]; auto.
    + replace (gs_c * gs_x1 s + gs_r * gs_b s) with (gs_r * gs_b s + (1 - gs_r) * gs_x1 s) by (unfold gs_c; ring). apply between; auto.
    + rewrite Ev. f_equal. ring.
  - destruct (obj (gs_r * gs_a s + gs_c * gs_x2 s)) as [v|e] eqn:Ev; [|discriminate]. cbn [rbind] in E. injection E as <-.
    unfold gs_inv. cbn [gs_a gs_b gs_x1 gs_x2 gs_f1 gs_f2]. split; [|split; [|split; [|split; [|split]]]]; auto.
    + unfold gs_c. apply between; auto.
    + rewrite Ev. f_equal. ring.
Qed.
Lemma gs_loop_inv : forall obj a b k s s', gs_inv obj a b s -> gs_loop obj k s = Ok s' -> gs_inv obj a b s'.
Proof.
  intros obj a b. induction k as [|k IH]; intros s s' H E; cbn [gs_loop] in E; [congruence|].
  destruct (gs_step obj s) as [s1|e] eqn:E1; [|discriminate]. cbn [rbind] in E. apply (IH s1); [|exact E].
  apply (gs_step_inv obj a b s); assumption.
Qed.
Theorem golden_section_in : forall obj a b x v, a <= b -> golden_section obj a b = Ok (x, v) -> a <= x <= b /\ obj x = Ok v.
Proof.
  intros obj a b x v Hab E. unfold golden_section in E. pose proof gs_r_range as Hr.
  destruct (obj (gs_r * a + gs_c * b)) as [v1|e] eqn:E1; [|discriminate]. cbn [rbind] in E.
  destruct (obj (gs_c * a + gs_r * b)) as [v2|e] eqn:E2; [|discriminate]. cbn [rbind] in E.
  destruct (gs_loop _ _ _) as [s|e] eqn:E3; [|discriminate]. cbn [rbind] in E.
  apply (gs_loop_inv obj a b) in E3.
  - destruct E3 as [_ [_ [H3 [H4 [H5 H6]]]]]. destruct (Rltb (gs_f1 s) (gs_f2 s)); injection E as <- <-; split; assumption.
  - unfold gs_inv. cbn [gs_a gs_b gs_x1 gs_x2 gs_f1 gs_f2]. split; [lra|]. split; [lra|]. split; [|split; [|split]].
    + unfold gs_c. apply between; lra.
    + replace (gs_c * a + gs_r * b) with (gs_r * b + (1 - gs_r) * a) by (unfold gs_c; ring). apply between; lra.
    + rewrite E1. f_equal; ring.
    + rewrite E2. f_equal; ring.
Qed.
(** it fails only when the objective fails somewhere in the bracket *)
Theorem golden_section_total : forall obj a b, a <= b -> (forall x, a <= x <= b -> exists v, obj x = Ok v) ->
  exists r, golden_section obj a b = Ok r.
Proof.
  intros obj a b Hab Hobj. pose proof gs_r_range as Hr. unfold golden_section.
  assert (Hx1 : a <= gs_r * a + gs_c * b <= b) by (unfold gs_c; apply between; lra).
  assert (Hx2 : a <= gs_c * a + gs_r * b <= b).
  { replace (gs_c * a + gs_r * b) with (gs_r * b + (1 - gs_r) * a) by (unfold gs_c; ring). apply between; lra. }
  destruct (Hobj _ Hx1) as [v1 E1]. rewrite E1. destruct (Hobj _ Hx2) as [v2 E2]. rewrite E2. cbn [rbind].
  assert (HL : forall k s, gs_inv obj a b s -> exists s', gs_loop obj k s = Ok s').
  { induction k as [|k IH]; intros s Hs; cbn [gs_loop]; [eexists; reflexivity|].
    assert (Hst : exists s1, gs_step obj s = Ok s1).
    { destruct Hs as [H1 [H2 [H3 [H4 _]]]]. unfold gs_step. destruct (Rltb (gs_f2 s) (gs_f1 s)).
      - destruct (Hobj (gs_c * gs_x1 s + gs_r * gs_b s)) as [v E]; [|rewrite E; eexists; reflexivity].
        replace (gs_c * gs_x1 s + gs_r * gs_b s) with (gs_r * gs_b s + (1 - gs_r) * gs_x1 s) by (unfold gs_c; ring). apply between; auto.
      - destruct (Hobj (gs_r * gs_a s + gs_c * gs_x2 s)) as [v E]; [|rewrite E; eexists; reflexivity].
        unfold gs_c. apply between; auto. }
    destruct Hst as [s1 Es]. rewrite Es. cbn [rbind]. apply IH. apply (gs_step_inv obj a b s); assumption. }
  destruct (HL (num_iter a b) (mkGS a b (gs_r * a + gs_c * b) (gs_c * a + gs_r * b) (-1 * v1) (-1 * v2))) as [s Es].
  - unfold gs_inv. cbn [gs_a gs_b gs_x1 gs_x2 gs_f1 gs_f2]. split; [lra|]. split; [lra|]. split; [exact Hx1|]. split; [exact Hx2|]. split.
    + rewrite E1. f_equal; ring.
    + rewrite E2. f_equal; ring.
  - rewrite Es. cbn [rbind]. eexists. reflexivity.
Qed.

(** ** Lengths of the stored points *)
Lemma put_length : forall isint i (v : R) w, length (put isint i v w) = length w.
Proof. intros. unfold put. apply list_set_length. Qed.
Lemma put_all_length : forall isint f (wF w : list R), length (put_all isint f wF w) = length w.
Proof. intros isint. induction f as [|i f IH]; intros [|x wF] w; cbn [put_all]; auto. rewrite IH. apply put_length. Qed.
Lemma step_length : forall inv ord mean cov lb ub isint f (w wl : list R) last f' w' p,
  step inv ord mean cov lb ub isint f w wl last = Ok (f', w', p) -> length w' = length w /\ t_w p = w' /\ t_f p = f' /\ t_l p <> None.
Proof.
  intros inv ord mean cov lb ub isint f w wl last f' w' p E. unfold step in E.
  destruct (bound_free _ _ _ _ _ _ _ _) as [l_in|e]; [|discriminate]. cbn [rbind] in E.
  destruct (free_bound _ _ _ _ _ _ _) as [l_out|e]; [|discriminate]. cbn [rbind] in E.
  destruct (next_event l_in l_out) as [ev|e]; [|discriminate]. cbn [rbind] in E.
  destruct (after_event isint ev f w) as [[f1 w1] l] eqn:Ea.
  destruct (matrices _ _ _ _ _ _) as [[[[P FB] meanF] wB]|e]; [|discriminate]. cbn [rbind] in E.
  destruct (compute_w _ _ _ _ _) as [[wF g]|e]; [|discriminate]. cbn [rbind] in E. injection E as <- <- <-.
  cbn [t_w t_f t_l]. rewrite put_all_length. split; [|split; [reflexivity|split; [reflexivity|discriminate]]].
  destruct ev; cbn in Ea; injection Ea as <- <- <-; auto. apply put_length.
Qed.
Lemma loop_lengths : forall inv ord mean cov lb ub isint n fuel f (w : list R) last pts pts' r, length w = n ->
  Forall (fun p => length (t_w p) = n) pts ->
  loop inv ord mean cov lb ub isint fuel f w last pts = (pts', r) ->
  Forall (fun p => length (t_w p) = n) pts' /\ exists more, pts' = pts ++ more.
Proof.
  intros inv ord mean cov lb ub isint n. induction fuel as [|fuel IH]; intros f w last pts pts' r Hw Hp E; cbn [loop] in E.
  - injection E as <- <-. split; [exact Hp|]. exists []. symmetry; apply app_nil_r.
  - destruct (step inv ord mean cov lb ub isint f w w last) as [[[f1 w1] p]|e] eqn:Es.
    2:{ injection E as <- <-. split; [exact Hp|]. exists []. symmetry; apply app_nil_r. }
    apply step_length in Es. destruct Es as [Hl [Hpw _]].
    assert (Hp' : Forall (fun q => length (t_w q) = n) (pts ++ [p])).
    { apply Forall_app. split; [exact Hp|]. constructor; [|constructor]. rewrite Hpw. lia. }
    destruct (t_l p) as [l|]; [|injection E as <- <-; split; [exact Hp'|exists [p]; reflexivity]].
    destruct (neqb l n0); [injection E as <- <-; split; [exact Hp'|exists [p]; reflexivity]|].
    destruct (IH f1 w1 (Some l) (pts ++ [p]) pts' r) as [H1 [more H2]]; auto; [lia|].
    split; [exact H1|]. exists (p :: more). rewrite H2, <- app_assoc. reflexivity.
Qed.

(** ** What a completed run of _solve leaves behind *)
Lemma fill_length : forall isint order ub fuel i (w : list R) j w', fill fuel isint order ub i w = Ok (j, w') -> length w' = length w.
Proof.
  intros isint order ub. induction fuel as [|fuel IH]; intros i w j w' E; cbn [fill] in E; [discriminate|].
  destruct (nltb (vsum w) n1); [|congruence]. destruct (py_index order (i - 1)) as [a|e]; [|discriminate]. cbn [rbind] in E.
  apply IH in E. rewrite E. apply put_length.
Qed.
Lemma init_algo_length : forall (o : cla R) f w, init_algo o = Ok (f, w) -> length w = length (c_lb o).
Proof.
  intros o f w E. unfold init_algo in E. destruct (fill _ _ _ _ _ _) as [[i w1]|e] eqn:Ef; [|discriminate]. cbn [rbind] in E.
  destruct (py_index _ i) as [a|e]; [|discriminate]. cbn [rbind] in E. injection E as <- <-. rewrite put_length.
  apply (fill_length _ _ _ _ _ _ _ _ Ef).
Qed.

Definition data (o : cla R) := (c_base o, c_mean o, c_cov o, c_lb o, c_ub o, c_int o).
Lemma solve_data : forall fuel inv ord (o : cla R), data (fst (solve fuel inv ord o)) = data o.
Proof.
  intros fuel inv ord o. unfold solve. destruct (init_algo o) as [[f w]|e]; [|reflexivity].
  destruct (loop _ _ _ _ _ _ _ _ _ _ _ _) as [pts [u|e]]; [|reflexivity].
  destruct (purge_excess _ _) as [pts2 r]. reflexivity.
Qed.

(** the points before clean-up *)

Lemma solve_ok : forall fuel inv ord (o o' : cla R), length (c_ub o) = length (c_lb o) -> solve fuel inv ord o = (o', Ok tt) ->
  exists f w pts p rest, init_algo o = Ok (f, w) /\ raw_points fuel inv ord o f w = (pts, Ok tt) /\
    (Forall (fun p => length (t_w p) = length (c_lb o)) pts) /\
    purge_num_err (c_lb o) (c_ub o) tol9 pts = p :: rest /\ rest <> [] /\ c_tp o' = p :: keep (c_mean o) rest /\
    Forall (fun p => nearly_feasible tol9 (c_lb o) (c_ub o) (t_w p)) (p :: rest).
Proof.
  intros fuel inv ord o o' Hlen E. unfold solve in E. destruct (init_algo o) as [[f w]|e] eqn:Ei; [|discriminate].
  pose proof (init_algo_length o f w Ei) as Hw.
  destruct (loop inv ord (c_mean o) (c_cov o) (c_lb o) (c_ub o) (c_int o) fuel f w None [mkTP w None None f]) as [pts [u|e]] eqn:El; [|discriminate].
  destruct u. exists f, w, pts.
  assert (Hw1 : Forall (fun p : tp R => length (t_w p) = length (c_lb o)) [mkTP w None None f]) by (constructor; [exact Hw|constructor]).
  destruct (loop_lengths _ _ _ _ _ _ _ _ _ _ _ _ _ _ _ Hw Hw1 El) as [Hl _].
  rewrite purge_tol_eq in E.
  destruct (purge_num_err (c_lb o) (c_ub o) tol9 pts) as [|p [|q rest]] eqn:Ep.
  - rewrite purge_excess_few in E by (cbn; lia). discriminate.
  - rewrite purge_excess_few in E by (cbn; lia). discriminate.
  - rewrite purge_excess_ok in E. injection E as <-. exists p, (q :: rest). split; [reflexivity|]. split; [exact El|]. split; [exact Hl|].
    split; [reflexivity|]. split; [discriminate|]. split; [reflexivity|]. rewrite <- Ep, purge_num_err_filter.
    apply Forall_forall. intros x Hx. apply filter_In in Hx. destruct Hx as [Hx Hn]. rewrite Forall_forall in Hl.
    apply num_err_false; [apply Hl, Hx|exact Hlen|]. apply negb_true_iff, Hn.
Qed.
Lemma incl_keep : forall mean rest, incl (keep mean rest) rest.
Proof. intros. apply (pruned_incl mean), keep_pruned. Qed.

Theorem solve_feasible : forall fuel inv ord (o o' : cla R), length (c_ub o) = length (c_lb o) -> solve fuel inv ord o = (o', Ok tt) ->
  (2 <= length (c_tp o'))%nat /\ Forall (fun p => nearly_feasible tol9 (c_lb o) (c_ub o) (t_w p)) (c_tp o').
Proof.
  intros fuel inv ord o o' Hlen E. destruct (solve_ok _ _ _ _ _ Hlen E) as [f [w [pts [p [rest [_ [_ [_ [_ [Hr [Ht Hf]]]]]]]]]]].
  rewrite Ht. split.
  - destruct (keep_last (c_mean o) rest p Hr) as [_ Hk]. destruct (keep (c_mean o) rest); [congruence|cbn; lia].
  - inversion Hf; subst. constructor; [assumption|]. rewrite Forall_forall in *. intros x Hx. apply H2, (incl_keep _ _ _ Hx).
Qed.

(** ** Mixtures of feasible portfolios *)
Lemma nearly_length : forall tol lb ub w, nearly_feasible tol lb ub w -> length w = length lb.
Proof. intros tol lb ub w [_ [H _]]. apply Forall2_length in H. auto. Qed.
Lemma combo_nth : forall a w0 w1 i, length w0 = length w1 -> nth i (combo a w0 w1) 0 = a * nth i w0 0 + (1 - a) * nth i w1 0.
Proof.
  intros a. unfold combo. induction w0 as [|x w0 IH]; intros [|y w1] [|i] H; try discriminate; cbn [map2 nth].
  - ring.
  - ring.
  - reflexivity.
  - apply IH. cbn in H; lia.
Qed.
Lemma combo_length : forall a w0 w1, length w0 = length w1 -> length (combo a w0 w1) = length w0.
Proof. intros a w0 w1 H. unfold combo. rewrite map2_length, H. apply Nat.min_id. Qed.
Lemma total_combo : forall a w0 w1, length w0 = length w1 -> total (combo a w0 w1) = a * total w0 + (1 - a) * total w1.
Proof.
  intros a w0 w1 H. rewrite !total_sumn, combo_length, <- H by exact H. rewrite <- !sumn_scal, <- sumn_plus.
  apply sumn_ext. intros i _. apply combo_nth, H.
Qed.
Lemma combo_feasible : forall tol lb ub a w0 w1, 0 <= a <= 1 -> nearly_feasible tol lb ub w0 -> nearly_feasible tol lb ub w1 ->
  nearly_feasible tol lb ub (combo a w0 w1).
Proof.
  intros tol lb ub a w0 w1 Ha H0 H1. pose proof (nearly_length _ _ _ _ H0) as L0. pose proof (nearly_length _ _ _ _ H1) as L1.
  assert (HL : length w0 = length w1) by lia.
  destruct H0 as [S0 [B0 C0]], H1 as [S1 [B1 C1]]. apply Forall2_nth in B0, B1, C0, C1.
  destruct B0 as [_ B0], B1 as [_ B1], C0 as [Lu C0], C1 as [_ C1]. split; [|split].
  - rewrite total_combo by exact HL. replace (a * total w0 + (1 - a) * total w1 - 1) with (a * (total w0 - 1) + (1 - a) * (total w1 - 1)) by ring.
    eapply Rle_trans; [apply Rabs_triang|]. rewrite !Rabs_mult, (Rabs_pos_eq a), (Rabs_pos_eq (1 - a)) by lra.
    apply Rle_trans with (a * tol + (1 - a) * tol); [|lra]. apply Rplus_le_compat; apply Rmult_le_compat_l; lra.
  - apply Forall2_nth. rewrite combo_length by exact HL. split; [lia|]. intros i Hi. rewrite combo_nth by exact HL.
    specialize (B0 i Hi). specialize (B1 i Hi).
    apply Rle_trans with (a * (nth i lb 0 - tol) + (1 - a) * (nth i lb 0 - tol)); [lra|]. apply Rplus_le_compat; apply Rmult_le_compat_l; lra.
  - apply Forall2_nth. rewrite combo_length by exact HL. split; [lia|]. intros i Hi. rewrite combo_nth by exact HL.
    assert (C0' := C0 i Hi). assert (C1' := C1 i ltac:(lia)).
    apply Rle_trans with (a * (nth i ub 0 + tol) + (1 - a) * (nth i ub 0 + tol)); [|lra]. apply Rplus_le_compat; apply Rmult_le_compat_l; lra.
Qed.
Lemma mix_combo : forall j w0 w1, length w0 = length w1 -> mix j w0 w1 = combo (1 - j) w0 w1.
Proof.
  intros j. unfold mix, combo. induction w0 as [|x w0 IH]; intros [|y w1] H; try discriminate; [reflexivity|].
  cbn [map2]. runfold. rewrite IH by (cbn in H; lia). f_equal. ring.
Qed.

(** ** The grid on a segment *)
Lemma unit_grid_spec : forall k, length (unit_grid (A:=R) k) = k /\ Forall (fun j => 0 <= j <= 1) (unit_grid (A:=R) k).
Proof.
  intros [|[|k]]; cbn [unit_grid].
  - split; [reflexivity|constructor].
  - split; [reflexivity|]. constructor; [|constructor]. runfold. lra.
  - split; [rewrite map_length; apply seq_length|]. apply Forall_forall. intros j Hj. apply in_map_iff in Hj.
    destruct Hj as [i [<- Hi]]. apply in_seq in Hi. runfold.
    assert (H1 : 0 < IZR (Z.of_nat (S (S k) - 1))) by (apply IZR_lt; lia).
    assert (H2 : 0 <= IZR (Z.of_nat i)) by (apply IZR_le; lia).
    assert (H3 : IZR (Z.of_nat i) <= IZR (Z.of_nat (S (S k) - 1))) by (apply IZR_le; lia).
    split; [apply Rmult_le_pos; [lra|left; apply Rinv_0_lt_compat; lra]|]. apply (Rmult_le_reg_r (IZR (Z.of_nat (S (S k) - 1)))); [lra|].
    unfold Rdiv. rewrite Rmult_assoc, Rinv_l by lra. lra.
Qed.
Lemma removelast_length : forall {X} (l : list X), length (removelast l) = (length l - 1)%nat.
Proof. induction l as [|x [|y l] IH]; [reflexivity|reflexivity|]. cbn [removelast length] in *. rewrite IH. lia. Qed.
Lemma removelast_incl : forall {X} (l : list X), incl (removelast l) l.
Proof.
  induction l as [|x l IH]; intros y Hy; [contradiction|]. destruct l as [|z l]; [contradiction|].
  change (removelast (x :: z :: l)) with (x :: removelast (z :: l)) in Hy. destruct Hy as [->|Hy]; [left; reflexivity|right; apply IH, Hy].
Qed.
Lemma frontier_cons : forall k (p q : tp R) rest, frontier_weights k (p :: q :: rest) =
  map (fun j => mix j (t_w p) (t_w q)) (match rest with [] => unit_grid k | _ => removelast (unit_grid k) end) ++ frontier_weights k (q :: rest).
Proof. reflexivity. Qed.
Lemma frontier_length : forall k (pts : list (tp R)), (2 <= length pts)%nat ->
  length (frontier_weights k pts) = match k with O => O | _ => ((length pts - 1) * (k - 1) + 1)%nat end.
Proof.
  intros k. induction pts as [|p pts IH]; intros H; [cbn in H; lia|]. destruct pts as [|q rest]; [cbn in H; lia|].
  rewrite frontier_cons, app_length, map_length. destruct rest as [|r rest].
  - rewrite (proj1 (unit_grid_spec k)). cbn [frontier_weights length]. destruct k; lia.
  - rewrite removelast_length, (proj1 (unit_grid_spec k)), IH by (cbn; lia). cbn [length]. destruct k; [reflexivity|]. nia.
Qed.
Lemma frontier_on_segment : forall k (pts : list (tp R)) w n, Forall (fun p => length (t_w p) = n) pts -> In w (frontier_weights k pts) ->
  exists i p q j, nth_error pts i = Some p /\ nth_error pts (S i) = Some q /\ 0 <= j <= 1 /\ w = combo (1 - j) (t_w p) (t_w q).
Proof.
  intros k pts w n Hn. induction pts as [|p pts IH]; intros Hw; [contradiction|]. destruct pts as [|q rest]; [contradiction|].
  rewrite frontier_cons in Hw. apply in_app_or in Hw. inversion Hn; subst. destruct Hw as [Hw|Hw].
  - apply in_map_iff in Hw. destruct Hw as [j [<- Hj]]. exists O, p, q, j. split; [reflexivity|]. split; [reflexivity|]. split.
    + destruct (unit_grid_spec k) as [_ Hg]. rewrite Forall_forall in Hg. apply Hg. destruct rest; [exact Hj|apply removelast_incl, Hj].
    + apply mix_combo. inversion H2; congruence.
  - destruct (IH H2 Hw) as [i [a [b [j Hij]]]]. exists (S i), a, b, j. exact Hij.
Qed.

(** ** Best positions *)
Lemma arg_best_spec : forall (better : R -> R -> bool) (le : R -> R -> Prop),
  (forall x, le x x) -> (forall x y z, le x y -> le y z -> le x z) ->
  (forall x y, better x y = true -> le x y) -> (forall x y, better x y = false -> le y x) ->
  forall l i best v all, all = firstn i all ++ l -> (length (firstn i all) = i)%nat -> (best < i)%nat -> nth_error all best = Some v ->
  (forall x, In x (firstn i all) -> le v x) ->
  exists v', nth_error all (arg_best better l i best v) = Some v' /\ forall x, In x all -> le v' x.
Proof.
  intros better le Hr Ht H1 H2. induction l as [|x l IH]; intros i best v all Ha Hi Hb Hv Hm; cbn [arg_best].
  - exists v. split; [exact Hv|]. rewrite app_nil_r in Ha. rewrite Ha. exact Hm.
  - assert (Hx : nth_error all i = Some x) by (rewrite Ha, nth_error_app2, Hi, Nat.sub_diag by lia; reflexivity).
    assert (Hf : firstn (S i) all = firstn i all ++ [x]).
    { rewrite Ha at 1. rewrite firstn_app, Hi. replace (S i - i)%nat with 1%nat by lia. rewrite firstn_all2 by lia. reflexivity. }
    assert (Ha' : all = firstn (S i) all ++ l) by (rewrite Hf, <- app_assoc; exact Ha).
    assert (Hi' : length (firstn (S i) all) = S i) by (rewrite Hf, app_length, Hi; cbn; lia).
    destruct (better x v) eqn:E.
    + apply IH; auto. rewrite Hf. intros y Hy. apply in_app_or in Hy. destruct Hy as [Hy|[<-|[]]]; [|apply Hr].
      apply (Ht _ v); [apply H1, E|apply Hm, Hy].
    + apply IH; auto. rewrite Hf. intros y Hy. apply in_app_or in Hy. destruct Hy as [Hy|[<-|[]]]; [apply Hm, Hy|apply H2, E].
Qed.
Lemma index_min_spec : forall l k, index_min l = Ok k -> exists v : R, nth_error l k = Some v /\ forall x, In x l -> v <= x.
Proof.
  intros [|x l] k E; [discriminate|]. unfold index_min, index_best in E. injection E as <-.
  apply (arg_best_spec _ Rle Rle_refl Rle_trans) with (all := x :: l).
  - intros a b H. runfold. rprop. lra.
  - intros a b H. runfold. rprop. lra.
  - reflexivity.
  - reflexivity.
  - lia.
  - reflexivity.
  - cbn. intros y [<-|[]]. apply Rle_refl.
Qed.
Lemma index_max_spec : forall l k, index_max l = Ok k -> exists v : R, nth_error l k = Some v /\ forall x, In x l -> x <= v.
Proof.
  intros [|x l] k E; [discriminate|]. unfold index_max, index_best in E. injection E as <-.
  apply (arg_best_spec _ (fun a b => b <= a)) with (all := x :: l).
  - intros a; apply Rle_refl.
  - intros a b c H1 H2. lra.
  - intros a b H. runfold. rprop. lra.
  - intros a b H. runfold. rprop. lra.
  - reflexivity.
  - reflexivity.
  - lia.
  - reflexivity.
  - cbn. intros y [<-|[]]. apply Rle_refl.
Qed.
