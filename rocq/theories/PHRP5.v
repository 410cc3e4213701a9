(** * Hierarchical risk parity: clusters stay together, distances, performance *)
From Coq Require Import ZArith List String Bool Reals Lra Lia Permutation Sorted Arith.
From Verif Require Import Num Py RBase PyLemmas MBase MFrame MHRP SLin SBase SHRP SHRP3 SHRP2 Sums PBase PHRP PHRP2 PHRP3 PHRP4 PFrame.
Import ListNotations.
Local Open Scope R_scope.

(** ** the leaf order *)
Lemma build_gathered : forall n link done nodes used nodes', List.length nodes = (n + List.length done)%nat ->
  (forall i, (i < List.length nodes)%nat -> gathered n (done ++ link) i (leaves_at nodes i)) ->
  build_tree link nodes used = Ok nodes' ->
  List.length nodes' = (n + List.length (done ++ link))%nat /\ forall i, (i < List.length nodes')%nat -> gathered n (done ++ link) i (leaves_at nodes' i).
Proof.
  intros n. induction link as [|[[a b] s] link IH]; intros done nodes used nodes' Hl Hg E.
  - injection E as <-. rewrite app_nil_r in *. auto.
  - cbn [build_tree] in E. destruct (_ || _); [discriminate E|]. destruct (nth_error nodes a) as [ta|] eqn:Ea; [|discriminate E]. destruct (nth_error nodes b) as [tb|] eqn:Eb; [|discriminate E].
    destruct (Nat.eqb _ _); [|discriminate E].
    replace (done ++ (a, b, s) :: link) with ((done ++ [(a, b, s)]) ++ link) in * by (rewrite <- app_assoc; reflexivity).
    apply (IH (done ++ [(a, b, s)])) in E; [exact E| |].
    + rewrite !app_length, Hl. cbn [List.length]. lia.
    + intros i Hi. rewrite app_length in Hi. cbn [List.length] in Hi. unfold leaves_at.
      assert (La : (a < List.length nodes)%nat) by (apply nth_error_Some; congruence).
      assert (Lb : (b < List.length nodes)%nat) by (apply nth_error_Some; congruence).
      destruct (Nat.eq_dec i (List.length nodes)) as [->|Hne].
      * rewrite app_nth2, Nat.sub_diag by lia. cbn [nth leaves]. rewrite Hl. apply gathered_two with (a := a) (b := b) (s := s).
        -- rewrite nth_error_app1 by (rewrite app_length; cbn [List.length]; lia). rewrite nth_error_app2, Nat.sub_diag by lia. reflexivity.
        -- specialize (Hg a La). unfold leaves_at in Hg. rewrite (nth_error_nth _ _ (Leaf 0) Ea) in Hg. exact Hg.
        -- specialize (Hg b Lb). unfold leaves_at in Hg. rewrite (nth_error_nth _ _ (Leaf 0) Eb) in Hg. exact Hg.
      * rewrite app_nth1 by lia. apply Hg. lia.
Qed.
Theorem quasi_diag_gathered : forall n link, valid_linkage n link -> exists ix, get_quasi_diag link = Ok ix /\ gathered n link (2 * n - 2) ix.
Proof.
  intros n link Hv. destruct (quasi_diag_perm n link Hv) as (ix & E & _). exists ix. split; [exact E|]. destruct Hv as (Hn & Hl & _).
  unfold get_quasi_diag in E. assert (El : to_tree link = do nodes <- build_tree link (map Leaf (seq 0 (List.length link + 1))) [] ; Ok (last nodes (Leaf 0)))
    by (destruct link; [cbn [List.length] in Hl; lia|reflexivity]). rewrite El in E. replace (List.length link + 1)%nat with n in E by lia.
  destruct (build_tree link (map Leaf (seq 0 n)) []) as [nodes|] eqn:EB; [|discriminate E]. cbn [rbind] in E. injection E as <-.
  destruct (build_gathered n link [] (map Leaf (seq 0 n)) [] nodes) as [L G]; [rewrite map_length, seq_length; cbn [List.length]; lia| |exact EB|].
  - intros i Hi. rewrite map_length, seq_length in Hi. unfold leaves_at. rewrite map_nth, seq_nth by exact Hi. apply gathered_one. exact Hi.
  - cbn [app] in *. assert (Hlt : (2 * n - 2 < List.length nodes)%nat) by lia. specialize (G _ Hlt). unfold leaves_at in G.
    replace (last nodes (Leaf 0)) with (nth (2 * n - 2) nodes (Leaf 0)); [exact G|].
    assert (Hne : nodes <> []) by (intros ->; cbn [List.length] in L; lia). destruct (exists_last Hne) as (l & x & ->). rewrite last_last. rewrite app_length in L. cbn [List.length] in L.
    rewrite app_nth2 by lia. replace (2 * n - 2 - List.length l)%nat with 0%nat by lia. reflexivity.
Qed.

(** every cluster below the top is merged into a later one *)
Lemma link_sizes_below : forall link sizes, link_sizes sizes link -> forall k a b s, nth_error link k = Some (a, b, s) -> (a < List.length sizes + k)%nat /\ (b < List.length sizes + k)%nat.
Proof.
  induction link as [|[[a b] s] link IH]; intros sizes H k a' b' s' E; [destruct k; discriminate E|]. cbn [link_sizes] in H. destruct H as (sa & sb & Ha & Hb & _ & H).
  destruct k as [|k]; cbn [nth_error] in E.
  - injection E as <- <- _. assert (a < List.length sizes)%nat by (apply nth_error_Some; congruence). assert (b < List.length sizes)%nat by (apply nth_error_Some; congruence). lia.
  - specialize (IH _ H k a' b' s' E). rewrite app_length in IH. cbn [List.length] in IH. lia.
Qed.
Lemma merged_once : forall n link i, valid_linkage n link -> (i < 2 * n - 2)%nat -> exists k a b s, nth_error link k = Some (a, b, s) /\ (a = i \/ b = i) /\ (i < n + k)%nat /\ (k < n - 1)%nat.
Proof.
  intros n link i (Hn & Hl & Hs & Hd) Hi. assert (B := link_sizes_below link _ Hs). rewrite repeat_length in B.
  assert (Hin : In i (flat_map (fun r => [fst (fst r); snd (fst r)]) link)).
  { apply (NoDup_length_incl Hd (l' := seq 0 (2 * n - 2))).
    - rewrite seq_length. assert (EL : forall l : list (nat * nat * nat), List.length (flat_map (fun r => [fst (fst r); snd (fst r)]) l) = (2 * List.length l)%nat).
      { induction l as [|r l IH]; [reflexivity|]. cbn [flat_map app List.length]. rewrite IH. lia. } rewrite EL, Hl. lia.
    - intros x Hx. apply in_flat_map in Hx. destruct Hx as ([[a b] s] & Hr & Hx). apply In_nth_error in Hr. destruct Hr as [k Hk]. pose proof (B k a b s Hk).
      assert (k < List.length link)%nat by (apply nth_error_Some; congruence). apply in_seq. cbn [fst snd In] in Hx. lia.
    - apply in_seq. lia. }
  apply in_flat_map in Hin. destruct Hin as ([[a b] s] & Hr & Hx). apply In_nth_error in Hr. destruct Hr as [k Hk]. exists k, a, b, s. pose proof (B k a b s Hk). cbn [fst snd In] in Hx.
  assert (k < List.length link)%nat by (apply nth_error_Some; congruence). split; [exact Hk|]. split; [tauto|]. split; [destruct Hx as [<-|[<-|[]]]; lia|lia].
Qed.
Theorem clusters_together : forall n link ix, valid_linkage n link -> get_quasi_diag link = Ok ix ->
  forall i, (i <= 2 * n - 2)%nat -> exists before l after, gathered n link i l /\ ix = before ++ l ++ after.
Proof.
  intros n link ix Hv E i Hi. destruct (quasi_diag_gathered n link Hv) as (ix' & E' & G). assert (ix' = ix) by congruence. subst ix'.
  remember (2 * n - 2 - i)%nat as m eqn:Hm. revert i Hi Hm. induction m as [m IH] using lt_wf_ind. intros i Hi Hm.
  destruct (Nat.eq_dec i (2 * n - 2)) as [->|Hne]; [exists [], ix, []; rewrite app_nil_r; auto|].
  destruct (merged_once n link i Hv ltac:(lia)) as (k & a & b & s & Hk & Hab & Hlt & Hkn).
  destruct (IH (2 * n - 2 - (n + k))%nat ltac:(lia) (n + k)%nat ltac:(lia) eq_refl) as (p & l & q & Hg & Ei).
  inversion Hg as [j Hj|k' a' b' s' la lb Hk' Ga Gb Ek El]; [lia|]. subst l. assert (k' = k) by lia. subst k'. rewrite Hk in Hk'. injection Hk' as <- <- _.
  destruct Hab as [<-|<-].
  - exists p, la, (lb ++ q). split; [exact Ga|]. rewrite Ei, <- !app_assoc. reflexivity.
  - exists (p ++ la), lb, q. split; [exact Gb|]. rewrite Ei, <- !app_assoc. reflexivity.
Qed.

(** ** the distances *)
Lemma clip_spec : forall x, clip01 x = Rmax 0 (Rmin 1 x).
Proof.
  intros x. unfold clip01. destruct (Rltb x 0) eqn:E1; [apply Rltb_true in E1; rewrite Rmin_right, Rmax_left by lra; reflexivity|]. apply Rltb_false in E1.
  destruct (Rltb 1 x) eqn:E2; [apply Rltb_true in E2; rewrite Rmin_left, Rmax_right by lra; reflexivity|]. apply Rltb_false in E2. rewrite Rmin_right, Rmax_right by lra. reflexivity.
Qed.
Lemma distance_spec : forall r, corr_distance r = correlation_distance r.
Proof. intros r. unfold corr_distance, correlation_distance. rewrite clip_spec. reflexivity. Qed.
Lemma upper_names : forall (g : label -> label -> R) done names, upper (List.length done) (map (fun t => map (g t) (done ++ names)) names) = pair_distances g names.
Proof.
  intros g done names. revert done. induction names as [|t ts IH]; intros done; [reflexivity|]. cbn [map upper pair_distances]. f_equal.
  - rewrite map_app. cbn [map]. rewrite <- (map_length (g t) done). generalize (map (g t) done). intros l. induction l as [|a l IHl]; [reflexivity|]. cbn [List.length app skipn]. exact IHl.
  - specialize (IH (done ++ [t])). rewrite app_length in IH. cbn [List.length] in IH. rewrite Nat.add_1_r in IH. rewrite <- IH. f_equal. apply map_ext. intros u. rewrite <- app_assoc. reflexivity.
Qed.
Lemma upper_labelled : forall f g names, (forall t u, In t names -> In u names -> f (g t u) = correlation_distance (g t u)) ->
  upper 0 (map (map f) (f_rows (labelled names g))) = pair_distances (fun t u => correlation_distance (g t u)) names.
Proof.
  intros f g names H. rewrite <- (upper_names _ [] names). cbn [app List.length labelled f_rows]. f_equal. rewrite map_map. apply map_ext_in. intros t Ht. rewrite map_map. apply map_ext_in. intros u Hu. apply H; assumption.
Qed.
Lemma pair_distances_ext : forall g h names, (forall t u, In t names -> In u names -> g t u = h t u) -> pair_distances g names = pair_distances h names.
Proof.
  intros g h names H. induction names as [|t ts IH]; [reflexivity|]. cbn [pair_distances]. f_equal.
  - apply map_ext_in. intros u Hu. apply H; [left; reflexivity|right; exact Hu].
  - apply IH. intros a b Ha Hb. apply H; right; assumption.
Qed.

(** the whole of optimize *)
Lemma optimize_traced : forall lk m h names c g, In m linkage_methods -> hrp_inputs h = Ok (labelled names c, labelled names g) ->
  b_tickers (h_base h) = names -> (2 <= List.length names)%nat -> NoDup names -> positive_risk c names -> linkage_valid lk m (List.length names) ->
  let link := lk m (pair_distances (fun t u => correlation_distance (g t u)) names) in
  exists h' d ix w, hrp_optimize lk m h = (h', Ok d) /\ h_clusters h' = Some link /\ gathered (List.length names) link (2 * List.length names - 2) ix /\
    bisected (first_share c) 1 (map (fun i => nth i names (LInt 0)) ix) w /\ Permutation d w /\ h_returns h' = h_returns h /\ h_cov h' = h_cov h.
Proof.
  intros lk m h names c g Hm Hin Hb Hn Hnd Hp Hlk link. unfold hrp_optimize. rewrite (method_ok m Hm), Hin.
  rewrite (upper_labelled corr_distance g names) by (intros; apply distance_spec).
  assert (HD : exists x xs, pair_distances (fun t u => correlation_distance (g t u)) names = x :: xs).
  { destruct names as [|a [|b names]]; cbn [List.length] in Hn; try lia. cbn [pair_distances map app]. eauto. }
  destruct HD as (x & xs & HD). unfold link. rewrite HD. set (l := lk m (x :: xs)). cbn [f_index labelled].
  destruct (hrp_weights_ok names c l Hnd Hp (Hlk _)) as (d & Ed & Hk & Hs & _). fold (labelled names c). rewrite Ed. cbn [h_base].
  destruct (set_weights_perm (h_base h) d) as (w & -> & _); [rewrite Hb; exact Hnd|rewrite Hb; exact Hk|].
  unfold hrp_weights in Ed. destruct (quasi_diag_perm _ _ (Hlk (x :: xs))) as (ix & Eix & Hix). fold l in Eix. rewrite Eix in Ed. cbn [rbind] in Ed.
  destruct (mapM_names names ix Hix) as (ts & Ets & Hts). rewrite Ets in Ed. cbn [rbind] in Ed.
  assert (EtsE : ts = map (fun i => nth i names (LInt 0)) ix).
  { rewrite (mapM_ok _ (fun i => nth i names (LInt 0))) in Ets; [injection Ets as <-; reflexivity|]. intros i Hi. apply (Permutation_in i Hix) in Hi. apply in_seq in Hi. rewrite (nth_error_nth' names (LInt 0)) by lia. reflexivity. }
  destruct (raw_hrp_allocation (labelled names c) ts) as [w0|] eqn:Ew; [|discriminate Ed]. cbn [rbind] in Ed. injection Ed as <-.
  assert (Hndt : NoDup ts) by (apply (Permutation_NoDup (Permutation_sym Hts)); exact Hnd).
  assert (Hi : incl ts names) by (intros u Hu; apply (Permutation_in u Hts Hu)).
  destruct (quasi_diag_gathered _ _ (Hlk (x :: xs))) as (ix' & Eix' & G). fold l in Eix', G. assert (ix' = ix) by congruence. subst ix'.
  pose proof (raw_bisected names c ts w0 Hndt Hi Ew) as HB. rewrite EtsE in HB.
  eexists _, _, ix, w0. split; [reflexivity|]. cbn [h_clusters h_returns h_cov]. split; [reflexivity|]. split; [exact G|]. split; [exact HB|]. split; [|auto].
  pose proof (proj2 (raw_cut (labelled names c) ts w0 Hndt Ew)) as HK.
  assert (Hps := sort_index_perm w0). rewrite dict_of_pairs_NoDup; [exact Hps|]. apply (Permutation_NoDup (Permutation_sym (Permutation_map fst Hps))). rewrite HK. exact Hndt.
Qed.
Theorem optimize_returns_traced : forall lk m T dates names x cov, In m linkage_methods -> (2 <= List.length names)%nat -> NoDup names -> (2 <= T)%nat ->
  (forall t, In t names -> List.length (x t) = T) ->
  let c := fun t u => sample_covariance (x t) (x u) in
  positive_risk c names -> linkage_valid lk m (List.length names) ->
  let link := lk m (pair_distances (fun t u => correlation_distance (correlation_of c t u)) names) in
  exists h0 h d ix w, hrp_init (HRetFrame (history T dates names x)) cov = Ok h0 /\ hrp_optimize lk m h0 = (h, Ok d) /\ h_clusters h = Some link /\
    gathered (List.length names) link (2 * List.length names - 2) ix /\ bisected (first_share c) 1 (map (fun i => nth i names (LInt 0)) ix) w /\ Permutation d w.
Proof.
  intros lk m T dates names x cov Hm Hn Hnd HT Hx c Hp Hlk link. pose proof (INR_ge2 T HT) as HI.
  assert (Hdev : forall t, In t names -> 0 < dev_sum (x t) (x t)).
  { intros t Ht. pose proof (diag_pos c names Hp t Ht) as H. unfold c in H. rewrite sample_dev in H by (rewrite (Hx t Ht); exact HT).
    rewrite (Hx t Ht) in H. apply (Rmult_lt_reg_r (/ (INR T - 1))); [apply Rinv_0_lt_compat; lra|]. rewrite Rmult_0_l. exact H. }
  set (g := fun t u => dev_sum (x t) (x u) / sqrt (dev_sum (x t) (x t) * dev_sum (x u) (x u))).
  assert (Eg : forall t u, In t names -> In u names -> g t u = correlation_of c t u).
  { intros t u Ht Hu. unfold g, correlation_of, c. rewrite !sample_dev by (rewrite !Hx by assumption; exact HT). rewrite !Hx by assumption. pose proof (Hdev t Ht). pose proof (Hdev u Hu).
    rewrite !sqrt_div by lra. rewrite sqrt_mult by lra. pose proof (sqrt_lt_R0 _ (Hdev t Ht)). pose proof (sqrt_lt_R0 _ (Hdev u Hu)). assert (HS : 0 < sqrt (INR T - 1)) by (apply sqrt_lt_R0; lra).
    rewrite <- (sqrt_sqrt (INR T - 1)) at 1 by lra. field. repeat split; lra. }
  assert (E0 : exists h0, hrp_init (HRetFrame (history T dates names x)) cov = Ok h0 /\ h_returns h0 = Some (history T dates names x) /\
    b_tickers (h_base h0) = names) by (destruct cov; eexists; split; try reflexivity; split; reflexivity).
  destruct E0 as (h0 & E0 & Er & Eb). exists h0.
  destruct (optimize_traced lk m h0 names c g Hm) as (h' & d & ix & w & E & Ec & G & B & P & _); try assumption.
  { unfold hrp_inputs. rewrite Er. rewrite (frame_cov_history T dates names x HT Hx), (frame_corr_history T dates names x Hx Hdev). cbn [f_rows f_index f_cols].
    rewrite (all_some_table (fun t u => sample_covariance (x t) (x u))), (all_some_table g). reflexivity. }
  assert (EL : pair_distances (fun t u => correlation_distance (g t u)) names = pair_distances (fun t u => correlation_distance (correlation_of c t u)) names) by (apply pair_distances_ext; intros; rewrite Eg by assumption; reflexivity).
  rewrite EL in *. exists h', d, ix, w. auto 10.
Qed.
Theorem optimize_cov_traced : forall lk m names c, In m linkage_methods -> (2 <= List.length names)%nat -> NoDup names ->
  positive_risk c names -> linkage_valid lk m (List.length names) ->
  exists h0 h d ix w r, let link := lk m (pair_distances (fun t u => correlation_distance (r t u)) names) in
    hrp_init HRetNone (HCovFrame (labelled names c)) = Ok h0 /\ hrp_optimize lk m h0 = (h, Ok d) /\ h_clusters h = Some link /\
    (forall t u, In t names -> In u names -> rounded 6 (correlation_of c t u) (r t u)) /\
    gathered (List.length names) link (2 * List.length names - 2) ix /\ bisected (first_share c) 1 (map (fun i => nth i names (LInt 0)) ix) w /\ Permutation d w.
Proof.
  intros lk m names c Hm Hn Hnd Hp Hlk. set (h0 := mkHRP None (Some (labelled names c)) (base_init (List.length names) (Some names)) None).
  set (g := fun t u => np_round 6 (1 / sqrt (c t t) * (c t u * (1 / sqrt (c u u))))).
  destruct (optimize_traced lk m h0 names c g Hm) as (h' & d & ix & w & E & Ec & G & B & P & _); try assumption; try reflexivity.
  { unfold hrp_inputs. cbn [h0 h_returns h_cov]. rewrite cov_to_corr_labelled by (intros t Ht; apply (diag_pos c names Hp t Ht)). cbn [rbind]. unfold labelled, g. cbn [f_index f_cols f_rows].
    rewrite map_map. do 3 f_equal. apply map_ext. intros t. rewrite map_map. reflexivity. }
  exists h0, h', d, ix, w, g. split; [reflexivity|]. split; [exact E|]. split; [exact Ec|]. split; [|auto].
  intros t u Ht Hu. unfold g, correlation_of. replace (c t u / (sqrt (c t t) * sqrt (c u u))) with (1 / sqrt (c t t) * (c t u * (1 / sqrt (c u u)))); [apply np_round_rounded; lia|].
  pose proof (sqrt_lt_R0 _ (diag_pos c names Hp t Ht)). pose proof (sqrt_lt_R0 _ (diag_pos c names Hp u Hu)). field. split; lra.
Qed.

(** ** performance *)
Lemma labelled_square : forall names c, square (List.length names) (f_rows (labelled names c)).
Proof. intros. split; [apply map_length|]. apply Forall_map, Forall_forall. intros t _. apply map_length. Qed.
Theorem performance_returns : forall T dates names x cov h0 w rf fr, (2 <= T)%nat -> (forall t, In t names -> List.length (x t) = T) ->
  hrp_init (HRetFrame (history T dates names x)) cov = Ok h0 -> List.length w = List.length names ->
  let C := f_rows (labelled names (fun t u => sample_covariance (x t) (x u) * fr)) in
  0 < qform C w -> forall h, h_returns h = h_returns h0 -> b_weights (h_base h) = Some w ->
  exists r s, hrp_performance h rf fr = Ok (Some r, s, Some ((r - rf) / s)) /\ r = inner w (map (fun t => average (x t) * fr) names) /\ 0 < s /\ s * s = qform C w.
Proof.
  intros T dates names x cov h0 w rf fr HT Hx E0 Hw C HC h Hr Hb.
  assert (Er : h_returns h0 = Some (history T dates names x)) by (destruct cov; injection E0 as <-; reflexivity). rewrite Er in Hr.
  unfold hrp_performance. rewrite Hb, Hr. rewrite (frame_cov_history T dates names x HT Hx). cbn [f_rows]. rewrite (all_some_table (fun t u => sample_covariance (x t) (x u))).
  assert (Em : all_some (frame_mean (history T dates names x)) = Some (map (fun t => average (x t)) names)).
  { unfold frame_mean. rewrite columns_history by exact Hx. rewrite map_map. rewrite (map_ext_in _ (fun t => Some (average (x t)))).
    - rewrite <- (map_map (fun t => average (x t)) Some). apply all_some_map.
    - intros t Ht. apply mean_some. intros E. specialize (Hx t Ht). rewrite E in Hx. cbn in Hx. lia. }
  rewrite Em. set (mu := MuSeries _). set (cv := CovFrame _ _).
  assert (EC : cov_values cv = C).
  { unfold cv, C, labelled. cbn [cov_values f_rows]. rewrite map_map. apply map_ext. intros t. rewrite map_map. reflexivity. }
  destruct (perf_values mu (map (fun t => average (x t) * fr) names) cv rf w) as (r & s & sh & E & R1 & R2 & R3 & R4).
  - unfold mu, history. cbn [mu_values f_cols]. f_equal. rewrite map_map. apply combine_snd. rewrite map_length. reflexivity.
  - rewrite map_length. symmetry. exact Hw.
  - rewrite EC, Hw. apply labelled_square.
  - rewrite EC. exact HC.
  - exists r, s. rewrite <- R4. rewrite EC in R3. auto.
Qed.
Theorem performance_cov : forall names c h0 w rf fr, hrp_init HRetNone (HCovFrame (labelled names c)) = Ok h0 -> List.length w = List.length names ->
  let C := f_rows (labelled names c) in 0 <= qform C w -> forall h, h_returns h = h_returns h0 -> h_cov h = h_cov h0 -> b_weights (h_base h) = Some w ->
  exists s, hrp_performance h rf fr = Ok (None, s, None) /\ 0 <= s /\ s * s = qform C w.
Proof.
  intros names c h0 w rf fr E0 Hw C HC h Hr Hc Hb. injection E0 as <-. cbn [h_returns h_cov] in Hr, Hc. unfold hrp_performance. rewrite Hb, Hr, Hc.
  apply perf_no_returns; cbn [cov_values]; [rewrite Hw; apply labelled_square|exact HC].
Qed.
Theorem performance_before : forall r c h0 rf fr, hrp_init r c = Ok h0 -> forall t, hrp_performance h0 rf fr <> Ok t.
Proof.
  intros r c h0 rf fr E t H. assert (Hb : b_weights (h_base h0) = None) by (destruct r, c; try discriminate E; injection E as <-; reflexivity).
  unfold hrp_performance in H. rewrite Hb in H. destruct (h_returns h0); [destruct (all_some _); [destruct (all_some _)|]|destruct (h_cov h0)]; discriminate H.
Qed.
Theorem init_nothing : hrp_init HRetNone HCovNone = Err ValueError.
Proof. reflexivity. Qed.
Theorem init_not_a_table : forall c, hrp_init HRetOther c = Err TypeError.
Proof. intros []; reflexivity. Qed.
Theorem optimize_keeps : forall lk m h0 h r, hrp_optimize lk m h0 = (h, r) -> h_returns h = h_returns h0 /\ h_cov h = h_cov h0.
Proof.
  intros lk m h0 h r. unfold hrp_optimize. destruct (existsb _ _); [|intros E; injection E as <- <-; auto].
  destruct (hrp_inputs h0) as [[cov corr]|e]; [|intros E; injection E as <- <-; auto].
  destruct (upper 0 _); [intros E; injection E as <- <-; auto|]. cbv zeta.
  destruct (hrp_weights _ _ _) as [d|e]; [|intros E; injection E as <- <-; auto].
  destruct (set_weights _ _) as [b [[]|e]]; intros E; injection E as <- <-; auto.
Qed.
