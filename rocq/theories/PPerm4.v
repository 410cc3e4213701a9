(** * C41: a call succeeds for one order if and only if it succeeds for the other *)
From Coq Require Import ZArith String List Bool Reals Lra Lia Permutation.
From Verif Require Import Num Py RBase PyLemmas SBL MBase MConvex MEF SLin SBase SConvex SPerm Sums Mat PBase PConvex PEF PEF2 PEF3 PEF4 PDown PDown2 PDown5 PObj SObj SHRP PPerm PPerm2 PEF5 PEF6 PPerm3.
Import ListNotations.
Local Open Scope R_scope.

Definition only (w : world) (v : nat) (x : list R) : env := upd (fun i => repeat 0 (nth i (w_sizes w) 0%nat)) v x.
Lemma only_sized : forall w v x n, nth_error (w_sizes w) v = Some n -> length x = n -> well_sized (w_sizes w) (only w v x).
Proof.
  intros w v x n Hn Hx. apply upd_sized; [intros i Hi; apply repeat_length|]. rewrite (nth_error_nth' _ _ _ Hn). exact Hx.
Qed.
Lemma only_same : forall w v x, only w v x v = x. Proof. intros. apply upd_same. Qed.
Lemma chosen_least : forall w o lb ub sum (ok : list R -> Prop) cost x, nth_error (w_sizes w) (e_w o) = Some (e_n o) -> e_add o = [] ->
  chosen (e_n o) lb ub sum ok cost x -> least w o [] lb ub sum ok cost (only w (e_w o) x).
Proof.
  intros w o lb ub sum ok cost x Hn Ha [C1 [C2 [C3 [C4 C5]]]]. unfold least, admissible. rewrite only_same, Ha. split.
  - split; [apply (only_sized _ _ _ _ Hn C1)|auto].
  - split; [exact C4|]. intros s' [S1 [S2 [S3 _]]] Hok. unfold penalty. cbn [map total].
    enough (cost x <= cost (s' (e_w o))) by lra. apply C5; try assumption. apply (sized_nth _ _ _ _ S1 Hn).
Qed.
Lemma in_force_exists : forall mn o, exists lb ub, bounds_in_force mn o lb ub.
Proof.
  intros mn o. unfold bounds_in_force. destruct mn; [|eauto 8].
  assert (D : no_short_allowed (e_lb o) \/ ~ no_short_allowed (e_lb o)).
  { unfold no_short_allowed. induction (e_lb o) as [|b l IH]; [left; constructor|].
    destruct IH as [IH|IH]; [|right; intros F; inversion F; contradiction].
    destruct b as [l0|]; [|right; intros F; inversion F; contradiction].
    destruct (Rle_dec 0 l0); [left; constructor; assumption|right; intros F; inversion F; contradiction]. }
  destruct D as [D|D]; [do 2 eexists; left|do 2 eexists; right]; auto.
Qed.

Section Iff.
  Context (sv : solver_t) (w : world) (o : ef).
  Context (Hex : exact_solver sv) (Hco : complete_solver sv) (Hop : open_ef w o []) (Had : e_add o = []).
  Let Hn : nth_error (w_sizes w) (e_w o) = Some (e_n o). Proof. apply Hop. Qed.

  Lemma min_volatility_iff : succeeds (min_volatility sv) w o <->
    exists x, chosen (e_n o) (e_lb o) (e_ub o) 1 (fun _ => True) (qform (e_cov o)) x.
  Proof.
    split.
    - intros [w' [o' [d E]]]. apply (min_volatility_best _ _ _ _ _ _ _ Hex Hop) in E.
      destruct (best_chosen _ _ _ _ _ _ _ _ _ Hn Had E) as [x [r [C _]]]. eauto.
    - intros [x C]. apply (min_volatility_found sv w o [] (only w (e_w o) x) Hco Hop). apply chosen_least; assumption.
  Qed.
  Context (m : list R) (Em : e_mu o = Some m) (mn : bool).
  Lemma utility_iff : forall ra, 0 < ra -> fresh_name w o "risk_aversion" -> (succeeds (max_quadratic_utility sv ra mn) w o <->
    exists lb ub x, bounds_in_force mn o lb ub /\ chosen (e_n o) lb ub (if mn then 0 else 1) (fun _ => True) (fun x => - (inner m x - ra / 2 * qform (e_cov o) x)) x).
  Proof.
    intros ra Hra Hf. split.
    - intros [w' [o' [d E]]]. apply (utility_best _ _ _ _ _ _ _ _ _ _ Hex Hop Em Hf) in E. destruct E as [_ [lb [ub [B E]]]].
      destruct (best_chosen _ _ _ _ _ _ _ _ _ Hn Had E) as [x [r [C _]]]. exists lb, ub, x. auto.
    - intros [lb [ub [x [B C]]]]. apply (utility_found sv w o [] mn m Hco Hop Em ra Hra Hf). exists lb, ub, (only w (e_w o) x). split; [exact B|].
      apply chosen_least; assumption.
  Qed.
  Lemma risk_iff : forall pinv tg t, target_of tg = Some t -> fresh_name w o "target_variance" -> (succeeds (efficient_risk sv pinv tg mn) w o <->
    0 <= t /\ below_global_min pinv (e_cov o) t = false /\
    exists lb ub x, bounds_in_force mn o lb ub /\ chosen (e_n o) lb ub (if mn then 0 else 1) (fun x => qform (e_cov o) x <= t * t) (fun x => - inner m x) x).
  Proof.
    intros pinv tg t Et Hf. split.
    - intros [w' [o' [d E]]]. assert (Hb : below_global_min pinv (e_cov o) t = false).
      { unfold efficient_risk in E. rewrite Et in E. destruct (Rltb t 0); [discriminate E|]. unfold bind at 1, get in E.
        destruct (below_global_min pinv (e_cov o) t); [discriminate E|reflexivity]. }
      apply (efficient_risk_best _ _ _ _ _ _ _ _ _ _ _ Hex Hop Em Hf) in E. destruct E as [t' [lb [ub [Et' [Ht [B E]]]]]]. assert (t' = t) by congruence. subst t'.
      destruct (best_chosen _ _ _ _ _ _ _ _ _ Hn Had E) as [x [r [C _]]]. split; [exact Ht|]. split; [exact Hb|]. exists lb, ub, x. auto.
    - intros [Ht [Hb [lb [ub [x [B C]]]]]]. apply (risk_found sv w o [] mn m Hco Hop Em pinv tg t Et Ht Hb Hf). exists lb, ub, (only w (e_w o) x). split; [exact B|].
      apply chosen_least; assumption.
  Qed.
  Lemma return_iff : forall t, e_maxret o = None -> fresh_name w o "target_return" -> (succeeds (efficient_return sv (NFloat t) mn) w o <->
    (exists y, t <= inner m y /\ chosen (e_n o) (e_lb o) (e_ub o) 1 (fun _ => True) (fun x => - inner m x) y) /\
    exists lb ub x, bounds_in_force mn o lb ub /\ chosen (e_n o) lb ub (if mn then 0 else 1) (fun x => t <= inner m x) (qform (e_cov o)) x).
  Proof.
    intros t Hmr Hf. split.
    - intros [w' [o' [d E]]]. split.
      + unfold efficient_return in E. unfold bind at 1, get in E. rewrite Hmr in E. cbn [falsy when] in E. unfold bind at 1 in E. unfold bind at 1 in E.
        destruct (on_copy (max_return sv) w o) as [[w0 o0] [v|x]] eqn:Ecp; [|discriminate E].
        destruct (max_return_copy sv w o [] m w0 o0 v Hex Hop Em Ecp) as [-> [_ [_ [[s [[S1 [S2 [S3 _]]] Sv]] Hge]]]].
        unfold modify in E. unfold bind at 1 in E. cbn [e_maxret set_maxret] in E. destruct (Rltb v t) eqn:Ev; [discriminate E|]. apply Rltb_false in Ev.
        exists (s (e_w o)). split; [lra|]. split; [apply (sized_nth _ _ _ _ S1 Hn)|]. do 2 (split; [assumption|]). split; [exact I|].
        intros y Ly Y1 Y2 _. specialize (Hge (only w (e_w o) y)). rewrite only_same in Hge.
        enough (inner m y <= v) by lra. apply Hge. split; [apply (only_sized _ _ _ _ Hn Ly)|]. rewrite only_same. auto.
      + apply (efficient_return_best _ _ _ _ _ _ _ _ _ _ Hex Hop Em Hf) in E. destruct E as [t' [lb [ub [Et' [B E]]]]]. assert (t' = t) by congruence. subst t'.
        destruct (best_chosen _ _ _ _ _ _ _ _ _ Hn Had E) as [x [r [C _]]]. exists lb, ub, x. auto.
    - intros [[y [Hy [C1 [C2 [C3 [_ C5]]]]]] [lb [ub [x [B C]]]]].
      apply (return_found sv w o [] mn m Hco Hop Em t (only w (e_w o) y) Hmr Hf).
      + split; [apply (only_sized _ _ _ _ Hn C1)|]. rewrite only_same. auto.
      + intros s [S1 [S2 [S3 _]]]. rewrite only_same. specialize (C5 (s (e_w o)) (sized_nth _ _ _ _ S1 Hn) S2 S3 I). lra.
      + rewrite only_same. exact Hy.
      + exact Hex.
      + exists lb, ub, (only w (e_w o) x). split; [exact B|]. apply chosen_least; assumption.
  Qed.
  Lemma sharpe_iff : forall rf r, psd (e_n o) (e_cov o) -> Forall (fun b => b <> None) (e_lb o) -> Forall (fun b => b <> None) (e_ub o) ->
    target_of rf = Some r -> (succeeds (max_sharpe sv rf) w o <->
    Exists (fun a => r < a) m /\ exists x, best_ratio (e_n o) (e_lb o) (e_ub o) m (e_cov o) r x).
  Proof.
    intros rf r HP Fl Fu Er. split.
    - intros [w' [o' [d E]]]. split.
      + unfold max_sharpe in E. assert (exists mx, list_max m = Some mx /\ r < mx) as [mx [Emx Hlt]].
        { destruct rf as [x|z|]; [| |discriminate E]; unfold bind at 1, get in E; rewrite Em in E; destruct (list_max m) as [mx|] eqn:Emx; try discriminate E; exists mx; cbn in Er; inversion Er; subst r.
          - destruct (Rleb mx x) eqn:Q; [discriminate E|]. apply Rleb_false in Q. auto.
          - destruct (Rleb mx (IZR z)) eqn:Q; [discriminate E|]. apply Rleb_false in Q. auto. }
        destruct m as [|a l]; [discriminate Emx|]. cbn [list_max] in Emx. inversion Emx; subst mx. clear - Hlt.
        revert a Hlt. induction l as [|b l IH]; intros a Hlt; cbn [fold_left] in Hlt; [left; exact Hlt|]. apply IH in Hlt.
        inversion Hlt as [? ? H|? ? H]; subst; [|right; right; exact H]. unfold Rmax in H. destruct (Rle_dec a b); [right; left; exact H|left; exact H].
      + destruct (sharpe_ratio _ _ _ _ _ _ _ _ Hex Hop Had HP Em E) as [r' [z [rr [Er' [B _]]]]]. assert (r' = r) by congruence. subst r'. eauto.
    - intros [Hx [x [X1 [X2 [X3 [X4 X5]]]]]].
      apply (sharpe_found sv w o [] m rf r (only w (e_w o) x) Hex Hco Hop Had HP (Forall_nil _) (Forall_nil _) Fl Fu Em Er Hx).
      + split; [apply (only_sized _ _ _ _ Hn X1)|]. rewrite only_same. auto.
      + rewrite only_same. exact X4.
      + intros s [S1 [S2 [S3 _]]]. rewrite only_same. apply X5; [apply (sized_nth _ _ _ _ S1 Hn)|exact S2|exact S3].
  Qed.
End Iff.

Lemma chosen_both : forall n p lb ub sum (ok1 ok2 : list R -> Prop) (cost1 cost2 : list R -> R), ordering n p -> length lb = n -> length ub = n ->
  (forall x, length x = n -> (ok1 x <-> ok2 (pick 0 p x))) -> (forall x, length x = n -> cost2 (pick 0 p x) = cost1 x) ->
  forall Q1 Q2 : list R -> Prop, (forall x, length x = n -> (Q1 x <-> Q2 (pick 0 p x))) ->
  ((exists x, Q1 x /\ chosen n lb ub sum ok1 cost1 x) <-> (exists x, Q2 x /\ chosen n (pick None p lb) (pick None p ub) sum ok2 cost2 x)).
Proof.
  intros n p lb ub sum ok1 ok2 cost1 cost2 H Hl Hu Hok Hc Q1 Q2 HQ. split.
  - intros [x [Qx C]]. assert (Lx : length x = n) by apply C. exists (pick 0 p x). split; [apply HQ; assumption|]. apply (chosen_pick n p lb ub sum ok1 ok2 cost1 cost2); assumption.
  - intros [x [Qx C]]. assert (Lx : length x = n) by apply C. rewrite <- (pick_unpick 0 n p x H Lx) in Qx, C.
    assert (Lu : length (unpick 0 p x) = n) by (rewrite unpick_length; apply ordering_length; exact H).
    exists (unpick 0 p x). split; [apply HQ; assumption|]. apply (chosen_pick n p lb ub sum ok1 ok2 cost1 cost2); assumption.
Qed.
Lemma ratio_both : forall n p lb ub m M rf, ordering n p -> square n M -> length lb = n -> length ub = n -> length m = n ->
  ((exists x, best_ratio n lb ub m M rf x) <-> (exists x, best_ratio n (pick None p lb) (pick None p ub) (pick 0 p m) (cov_reordered p M) rf x)).
Proof.
  intros n p lb ub m M rf H HM Hl Hu Hm. pose proof (ordering_length _ _ H) as L. split.
  - intros [x [X1 [X2 [X3 [X4 X5]]]]]. exists (pick 0 p x). unfold best_ratio, excess in *.
    rewrite pick_length, (inner_pick n), (total_pick n), (qform_pick n) by assumption.
    split; [exact L|]. split; [apply (within_pick n); assumption|]. do 2 (split; [assumption|]).
    intros y Ly Y1 Y2. rewrite <- (pick_unpick 0 n p y H Ly) in Y1, Y2 |- *.
    assert (Lu : length (unpick 0 p y) = n) by (rewrite unpick_length; exact L).
    rewrite (inner_pick n), (qform_pick n) by assumption. apply X5; [exact Lu|apply (within_pick n p) in Y1; assumption|rewrite (total_pick n) in Y2; assumption].
  - intros [x B]. assert (Lx : length x = n) by apply B. rewrite <- (pick_unpick 0 n p x H Lx) in B. exists (unpick 0 p x).
    apply (ratio_pick n p); try assumption. rewrite unpick_length. exact L.
Qed.

Section Both.
  Variables (p : list nat) (s : list (label * R)) (cols : list label) (rows : list (list R)) (b b' : bounds_arg) (v1 v2 w1 w2 : world) (o1 o2 : ef).
  Hypothesis T : twins p s cols rows b b' v1 v2 w1 w2 o1 o2.
  Variables (sv1 sv2 : solver_t).
  Hypothesis X1 : exact_solver sv1.
  Hypothesis X2 : exact_solver sv2.
  Hypothesis K1 : complete_solver sv1.
  Hypothesis K2 : complete_solver sv2.
  Let n := length s.

  Theorem both_min_volatility : succeeds (min_volatility sv1) w1 o1 <-> succeeds (min_volatility sv2) w2 o2.
  Proof.
    destruct (twins_facts _ _ _ _ _ _ _ _ _ _ _ _ T) as [H [HM [O1 [O2 [N1 [N2 [A1 [A2 [T1 [T2 [M1 [M2 [C1 [C2 [L1 [L2 [L3 [L4 _]]]]]]]]]]]]]]]]]].
    rewrite min_volatility_iff, min_volatility_iff by assumption. rewrite N1, N2, C1, C2, L3, L4.
    pose proof (chosen_both n p (e_lb o1) (e_ub o1) 1 (fun _ => True) (fun _ => True) (qform rows) (qform (cov_reordered p rows)) H L1 L2
      ltac:(intros; tauto) ltac:(intros; apply (qform_pick n); assumption) (fun _ => True) (fun _ => True) ltac:(intros; tauto)) as G.
    split; intros [x C]; [destruct (proj1 G (ex_intro _ x (conj I C))) as [y [_ D]]|destruct (proj2 G (ex_intro _ x (conj I C))) as [y [_ D]]]; exists y; exact D.
  Qed.
  (** the same with the bounds in force *)
  Lemma force_both : forall mn sum (ok1 ok2 : list R -> Prop) (cost1 cost2 : list R -> R),
    (forall x, length x = n -> (ok1 x <-> ok2 (pick 0 p x))) -> (forall x, length x = n -> cost2 (pick 0 p x) = cost1 x) ->
    ((exists lb ub x, bounds_in_force mn o1 lb ub /\ chosen n lb ub sum ok1 cost1 x) <->
     (exists lb ub x, bounds_in_force mn o2 lb ub /\ chosen n lb ub sum ok2 cost2 x)).
  Proof.
    intros mn sum ok1 ok2 cost1 cost2 Hok Hc.
    destruct (twins_facts _ _ _ _ _ _ _ _ _ _ _ _ T) as [H _].
    destruct (in_force_exists mn o2) as [lb2 [ub2 B2]].
    destruct (in_force_pick _ _ _ _ _ _ _ _ _ _ _ _ T _ _ _ B2) as [lb [ub [B1 [Q1 [Q2 [-> ->]]]]]].
    pose proof (chosen_both n p lb ub sum ok1 ok2 cost1 cost2 H Q1 Q2 Hok Hc (fun _ => True) (fun _ => True) ltac:(intros; tauto)) as G.
    split; intros [l [u [x [B C]]]].
    - destruct (in_force_unique _ _ _ _ _ _ B B1) as [-> ->]. destruct (proj1 G (ex_intro _ x (conj I C))) as [y [_ D]]. eexists _, _, y. split; [exact B2|exact D].
    - destruct (in_force_unique _ _ _ _ _ _ B B2) as [-> ->]. destruct (proj2 G (ex_intro _ x (conj I C))) as [y [_ D]]. exists lb, ub, y. auto.
  Qed.
  Theorem both_utility : forall ra mn, succeeds (max_quadratic_utility sv1 ra mn) w1 o1 <-> succeeds (max_quadratic_utility sv2 ra mn) w2 o2.
  Proof.
    intros ra mn.
    destruct (twins_facts _ _ _ _ _ _ _ _ _ _ _ _ T) as [H [HM [O1 [O2 [N1 [N2 [A1 [A2 [T1 [T2 [M1 [M2 [C1 [C2 [L1 [L2 [L3 [L4 [F1 F2]]]]]]]]]]]]]]]]]]].
    destruct (Rle_dec ra 0) as [Hra|Hra].
    - split; intros [w' [o' [d E]]]; unfold max_quadratic_utility in E; rewrite (proj2 (Rleb_true ra 0) Hra) in E; discriminate E.
    - apply Rnot_le_lt in Hra. rewrite (utility_iff sv1 w1 o1 X1 K1 O1 A1 _ M1 mn ra Hra (F1 _)), (utility_iff sv2 w2 o2 X2 K2 O2 A2 _ M2 mn ra Hra (F2 _)).
      rewrite N1, N2, C1, C2. apply force_both; [intros; tauto|]. intros x Hx. cbv beta. rewrite (qform_pick n), (inner_pick n) by (try assumption; apply map_length). reflexivity.
  Qed.
  Theorem both_return : forall tg mn, succeeds (efficient_return sv1 tg mn) w1 o1 <-> succeeds (efficient_return sv2 tg mn) w2 o2.
  Proof.
    intros tg mn.
    destruct (twins_facts _ _ _ _ _ _ _ _ _ _ _ _ T) as [H [HM [O1 [O2 [N1 [N2 [A1 [A2 [T1 [T2 [M1 [M2 [C1 [C2 [L1 [L2 [L3 [L4 [F1 F2]]]]]]]]]]]]]]]]]]].
    assert (R1 : e_maxret o1 = None /\ e_maxret o2 = None).
    { destruct T as [_ [_ [_ [E1 E2]]]]. destruct (ef_init_inv _ _ _ _ _ _ E1) as [? [? [? [_ [_ [_ [_ ->]]]]]]]. destruct (ef_init_inv _ _ _ _ _ _ E2) as [? [? [? [_ [_ [_ [_ ->]]]]]]]. split; reflexivity. }
    destruct R1 as [R1 R2]. destruct tg as [t|z|]; try (split; intros [w' [o' [d E]]]; discriminate E).
    rewrite (return_iff sv1 w1 o1 X1 K1 O1 A1 _ M1 mn t R1 (F1 _)), (return_iff sv2 w2 o2 X2 K2 O2 A2 _ M2 mn t R2 (F2 _)).
    rewrite N1, N2, C1, C2, L3, L4.
    pose proof (chosen_both n p (e_lb o1) (e_ub o1) 1 (fun _ => True) (fun _ => True) (fun x => - inner (map snd s) x) (fun x => - inner (pick 0 p (map snd s)) x) H L1 L2
      ltac:(intros; tauto) ltac:(intros x Hx; cbv beta; rewrite (inner_pick n) by (try assumption; apply map_length); reflexivity)
      (fun y => t <= inner (map snd s) y) (fun y => t <= inner (pick 0 p (map snd s)) y) ltac:(intros x Hx; cbv beta; rewrite (inner_pick n) by (try assumption; apply map_length); tauto)) as G.
    cbv beta in G. unfold n in G. rewrite G.
    fold n. rewrite (force_both mn (if mn then 0 else 1) (fun x => t <= inner (map snd s) x) (fun x => t <= inner (pick 0 p (map snd s)) x) (qform rows) (qform (cov_reordered p rows))); [reflexivity| |].
    - intros x Hx. rewrite (inner_pick n) by (try assumption; apply map_length). tauto.
    - intros x Hx. apply (qform_pick n); assumption.
  Qed.
  Lemma total_rows_pick : forall M, square n M -> ordering n p -> total (map total (cov_reordered p M)) = total (map total M).
  Proof.
    intros M [HM1 HM2] H. unfold cov_reordered. rewrite pick_map. cbn [total]. rewrite map_map.
    rewrite (map_ext_in _ total); [apply (total_pick n); [exact H|rewrite map_length; exact HM1]|].
    intros row Hr. apply (total_pick n); [exact H|]. rewrite Forall_forall in HM2. apply HM2. exact Hr.
  Qed.
  Theorem both_risk : forall pinv1 pinv2 tg mn, inverse_reordered p n rows pinv1 pinv2 ->
    (succeeds (efficient_risk sv1 pinv1 tg mn) w1 o1 <-> succeeds (efficient_risk sv2 pinv2 tg mn) w2 o2).
  Proof.
    intros pinv1 pinv2 tg mn [P1 P2].
    destruct (twins_facts _ _ _ _ _ _ _ _ _ _ _ _ T) as [H [HM [O1 [O2 [N1 [N2 [A1 [A2 [T1 [T2 [M1 [M2 [C1 [C2 [L1 [L2 [L3 [L4 [F1 F2]]]]]]]]]]]]]]]]]]].
    destruct (target_of tg) as [t|] eqn:Et; [|split; intros [w' [o' [d E]]]; unfold efficient_risk in E; rewrite Et in E; discriminate E].
    rewrite (risk_iff sv1 w1 o1 X1 K1 O1 A1 _ M1 mn pinv1 tg t Et (F1 _)), (risk_iff sv2 w2 o2 X2 K2 O2 A2 _ M2 mn pinv2 tg t Et (F2 _)).
    rewrite N1, N2, C1, C2. replace (below_global_min pinv2 (cov_reordered p rows) t) with (below_global_min pinv1 rows t).
    2:{ unfold below_global_min. rewrite P2. enough (E : vsum (map vsum (cov_reordered p (pinv1 rows))) = vsum (map vsum (pinv1 rows))) by (rewrite E; reflexivity).
        rewrite !vsum_total. rewrite !(map_ext vsum total vsum_total). apply total_rows_pick; assumption. }
    fold n. rewrite (force_both mn (if mn then 0 else 1) (fun x => qform rows x <= t * t) (fun x => qform (cov_reordered p rows) x <= t * t) (fun x => - inner (map snd s) x) (fun x => - inner (pick 0 p (map snd s)) x)); [reflexivity| |].
    - intros x Hx. rewrite (qform_pick n) by assumption. tauto.
    - intros x Hx. cbv beta. rewrite (inner_pick n) by (try assumption; apply map_length). reflexivity.
  Qed.
  Theorem both_sharpe : forall rf, psd n rows -> Forall (fun c => c <> None) (e_lb o1) -> Forall (fun c => c <> None) (e_ub o1) ->
    (succeeds (max_sharpe sv1 rf) w1 o1 <-> succeeds (max_sharpe sv2 rf) w2 o2).
  Proof.
    intros rf HP Fl Fu.
    destruct (twins_facts _ _ _ _ _ _ _ _ _ _ _ _ T) as [H [HM [O1 [O2 [N1 [N2 [A1 [A2 [T1 [T2 [M1 [M2 [C1 [C2 [L1 [L2 [L3 [L4 [F1 F2]]]]]]]]]]]]]]]]]]].
    destruct (target_of rf) as [r|] eqn:Er.
    2:{ destruct rf; try discriminate Er. split; intros [w' [o' [d E]]]; discriminate E. }
    rewrite (sharpe_iff sv1 w1 o1 X1 K1 O1 A1 _ M1 rf r), (sharpe_iff sv2 w2 o2 X2 K2 O2 A2 _ M2 rf r); try assumption.
    - rewrite N1, N2, C1, C2, L3, L4. fold n. rewrite (ratio_both n p) by (try assumption; apply map_length).
      assert (Q : Exists (fun a => r < a) (map snd s) <-> Exists (fun a => r < a) (pick 0 p (map snd s))); [|rewrite Q; reflexivity].
      rewrite !Exists_exists. pose proof (pick_perm 0 p (map snd s) ltac:(rewrite map_length; exact H)) as PP.
      split; intros [a [Ha1 Ha2]]; exists a; split; auto; [apply (Permutation_in _ (Permutation_sym PP))|apply (Permutation_in _ PP)]; exact Ha1.
    - rewrite N2, C2. apply psd_pick; assumption.
    - rewrite L3. apply (Permutation_Forall (Permutation_sym (pick_perm None p (e_lb o1) ltac:(rewrite L1; exact H)))). exact Fl.
    - rewrite L4. apply (Permutation_Forall (Permutation_sym (pick_perm None p (e_ub o1) ltac:(rewrite L2; exact H)))). exact Fu.
    - rewrite N1, C1. exact HP.
  Qed.
End Both.
