(** * Hierarchical risk parity: leaf order, the object *)
From Coq Require Import ZArith List String Bool Reals Lra Lia Permutation Sorted Arith.
From Verif Require Import Num Py RBase PyLemmas MBase MFrame MHRP SLin SBase SHRP SHRP3 Sums PBase PHRP PHRP2.
Import ListNotations.
Local Open Scope R_scope.

(** ** Leaf order *)
Definition leaves_at (nodes : list tree) (i : nat) : list nat := leaves (nth i nodes (Leaf 0)).
Lemma in_perm : forall {X} (x : X) l, In x l -> exists l', Permutation l (x :: l').
Proof. intros X x l H. apply in_split in H. destruct H as [a [b ->]]. exists (a ++ b). symmetry. apply Permutation_middle. Qed.
Lemma flat_map_perm : forall {X Y} (f : X -> list Y) l m, Permutation l m -> Permutation (flat_map f l) (flat_map f m).
Proof.
  intros X Y f l m H. induction H; cbn [flat_map]; [constructor|apply Permutation_app_head; assumption| |etransitivity; eassumption].
  rewrite !app_assoc. apply Permutation_app_tail, Permutation_app_comm.
Qed.
Lemma flat_map_ext_in : forall {X Y} (f g : X -> list Y) l, (forall x, In x l -> f x = g x) -> flat_map f l = flat_map g l.
Proof. induction l as [|x l IH]; intros H; [reflexivity|]. cbn [flat_map]. rewrite (H x (or_introl eq_refl)), IH; [reflexivity|]. intros; apply H; right; assumption. Qed.
Lemma nat_existsb : forall a l, existsb (Nat.eqb a) l = false <-> ~ In a l.
Proof.
  intros a l. split.
  - intros H Hin. assert (existsb (Nat.eqb a) l = true); [|congruence]. apply existsb_exists. exists a. split; [exact Hin|apply Nat.eqb_refl].
  - intros H. destruct (existsb (Nat.eqb a) l) eqn:E; [|reflexivity]. apply existsb_exists in E. destruct E as [b [Hb E]]. apply Nat.eqb_eq in E. subst. contradiction.
Qed.

Definition link_ids (link : list link_row) : list nat := flat_map (fun r => [fst (fst r); snd (fst r)]) link.

Lemma build_ok : forall n link nodes used act, NoDup act ->
  (forall i, In i act <-> (i < List.length nodes)%nat /\ ~ In i used) -> (forall i, In i used -> (i < List.length nodes)%nat) ->
  Permutation (flat_map (leaves_at nodes) act) (seq 0 n) -> link_sizes (map tree_size nodes) link ->
  NoDup (link_ids link) -> (forall x, In x (link_ids link) -> ~ In x used) -> nodes <> [] ->
  (link = [] -> In (List.length nodes - 1)%nat act) ->
  exists nodes' act', build_tree link nodes used = Ok nodes' /\ NoDup act' /\
    Permutation (flat_map (leaves_at nodes') act') (seq 0 n) /\ (List.length act' + List.length link = List.length act)%nat /\
    In (List.length nodes' - 1)%nat act' /\ nodes' <> [].
Proof.
  intros n. induction link as [|[[a b] s] link IH]; intros nodes used act Hnd Hact Hused Hperm Hsz Hids Hun Hne Hlast.
  - exists nodes, act. split; [reflexivity|]. split; [exact Hnd|]. split; [exact Hperm|]. split; [cbn [List.length]; lia|]. split; auto.
  - cbn [link_sizes] in Hsz. destruct Hsz as [sa [sb [Ha [Hb [Hs Hsz]]]]]. rewrite nth_error_map in Ha, Hb.
    destruct (nth_error nodes a) as [ta|] eqn:Ea; [|discriminate Ha]. destruct (nth_error nodes b) as [tb|] eqn:Eb; [|discriminate Hb].
    cbn [option_map] in Ha, Hb. injection Ha as <-. injection Hb as <-.
    cbn [link_ids flat_map fst snd app] in Hids, Hun. fold (link_ids link) in Hids, Hun.
    apply NoDup_cons_iff in Hids. destruct Hids as [Hia Hids]. apply NoDup_cons_iff in Hids. destruct Hids as [Hib Hids].
    assert (Hab : a <> b) by (intros ->; apply Hia; left; reflexivity).
    pose proof (Hun a (or_introl eq_refl)) as Hua. pose proof (Hun b (or_intror (or_introl eq_refl))) as Hub.
    assert (La : (a < List.length nodes)%nat) by (apply nth_error_Some; congruence).
    assert (Lb : (b < List.length nodes)%nat) by (apply nth_error_Some; congruence).
    assert (Hsize : tree_size (Node ta tb) = s) by (unfold tree_size in *; cbn [leaves]; rewrite app_length; lia).
    destruct (in_perm a act) as [act1 P1]; [apply Hact; auto|].
    destruct (in_perm b act1) as [act2 P2].
    { assert (Hi : In b (a :: act1)) by (apply (Permutation_in b P1), Hact; auto). destruct Hi; [congruence|assumption]. }
    assert (P : Permutation act (a :: b :: act2)) by (rewrite P1; constructor; exact P2).
    pose proof (Permutation_NoDup P Hnd) as Hnd2. apply NoDup_cons_iff in Hnd2. destruct Hnd2 as [Na Hnd2]. apply NoDup_cons_iff in Hnd2. destruct Hnd2 as [Nb Hnd2].
    assert (Hin2 : forall i, In i act2 <-> (i < List.length nodes)%nat /\ ~ In i used /\ i <> a /\ i <> b).
    { intros i. split.
      - intros Hi. assert (In i act) by (apply (Permutation_in i (Permutation_sym P)); right; right; exact Hi). apply Hact in H.
        repeat split; try tauto; intros ->; [apply Na; right; exact Hi|apply Nb; exact Hi].
      - intros [H1 [H2 [H3 H4]]]. assert (Hi : In i (a :: b :: act2)) by (apply (Permutation_in i P), Hact; auto). destruct Hi as [|[|]]; congruence. }
    assert (Hnew : ~ In (List.length nodes) (a :: b :: used)) by (intros [H|[H|H]]; [lia|lia|apply Hused in H; lia]).
    destruct (IH (nodes ++ [Node ta tb]) (a :: b :: used) (List.length nodes :: act2)) as [nodes' [act' [E [R1 [R2 [R3 [R4 R5]]]]]]].
    + constructor; [|exact Hnd2]. intros Hi. apply Hin2 in Hi. lia.
    + intros i. rewrite app_length. cbn [List.length]. split.
      * intros [<-|Hi]; [split; [lia|exact Hnew]|]. apply Hin2 in Hi. split; [lia|]. cbn [In]. intuition congruence.
      * intros [H1 H2]. cbn [In] in H2. destruct (Nat.eq_dec (List.length nodes) i) as [|Hn]; [left; assumption|right].
        apply Hin2. repeat split; [lia|tauto|intros ->; tauto|intros ->; tauto].
    + intros i Hi. rewrite app_length. cbn [List.length]. destruct Hi as [<-|[<-|Hi]]; [lia|lia|]. apply Hused in Hi. lia.
    + rewrite <- Hperm. rewrite (flat_map_perm _ _ _ P). cbn [flat_map]. unfold leaves_at at 1. rewrite app_nth2, Nat.sub_diag by lia. cbn [nth leaves].
      unfold leaves_at at 2 3. rewrite (nth_error_nth _ _ (Leaf 0) Ea), (nth_error_nth _ _ (Leaf 0) Eb). rewrite <- app_assoc.
      apply Permutation_app_head, Permutation_app_head. rewrite (flat_map_ext_in _ (leaves_at nodes)); [reflexivity|].
      intros i Hi. apply Hin2 in Hi. unfold leaves_at. rewrite app_nth1 by lia. reflexivity.
    + rewrite map_app. cbn [map]. rewrite Hsize. exact Hsz.
    + exact Hids.
    + intros x Hx [H|[H|H]]; [subst x; apply Hia; right; exact Hx|subst x; contradiction|]. apply (Hun x); [right; right; exact Hx|exact H].
    + destruct nodes; discriminate.
    + intros _. rewrite app_length. cbn [List.length]. left. lia.
    + exists nodes', act'. split.
      * cbn [build_tree]. rewrite (proj2 (nat_existsb a used) Hua), (proj2 (nat_existsb b used) Hub), (proj2 (Nat.eqb_neq a b) Hab). cbn [orb].
        rewrite Ea, Eb, Hsize, Nat.eqb_refl. exact E.
      * split; [exact R1|]. split; [exact R2|]. split; [|auto]. cbn [List.length] in *. apply Permutation_length in P. cbn [List.length] in P. lia.
Qed.

Lemma quasi_diag_perm : forall n link, valid_linkage n link -> exists ix, get_quasi_diag link = Ok ix /\ Permutation ix (seq 0 n).
Proof.
  intros n link [Hn [Hl [Hs Hd]]]. unfold get_quasi_diag.
  assert (El : to_tree link = do nodes <- build_tree link (map Leaf (seq 0 (List.length link + 1))) [] ; Ok (last nodes (Leaf 0)))
    by (destruct link; [cbn [List.length] in Hl; lia|reflexivity]). rewrite El.
  assert (Hn1 : (List.length link + 1 = n)%nat) by lia. rewrite Hn1.
  destruct (build_ok n link (map Leaf (seq 0 n)) [] (seq 0 n)) as [nodes [act [E [R1 [R2 [R3 [R4 R5]]]]]]].
  - apply seq_NoDup.
  - intros i. rewrite map_length, seq_length, in_seq. cbn [In]. intuition lia.
  - intros i [].
  - rewrite (flat_map_ext_in _ (fun i => [i])).
    + clear. induction (seq 0 n); cbn [flat_map app]; auto.
    + intros i Hi. apply in_seq in Hi. unfold leaves_at.
      rewrite map_nth, seq_nth by lia. reflexivity.
  - rewrite map_map. replace (map (fun x => tree_size (Leaf x)) (seq 0 n)) with (repeat 1%nat n); [exact Hs|].
    clear. assert (Hk : forall k, repeat 1%nat n = map (fun x => tree_size (Leaf x)) (seq k n)); [|apply Hk]. induction n; intros k; cbn [repeat seq map]; [reflexivity|]. f_equal. apply IHn.
  - exact Hd.
  - intros x _ [].
  - destruct n; [lia|discriminate].
  - intros ->. cbn [List.length] in Hn1. lia.
  - rewrite E. cbn [rbind]. exists (leaves (last nodes (Leaf 0))). split; [reflexivity|]. rewrite <- R2.
    rewrite seq_length in R3. destruct act as [|i [|]]; cbn [List.length] in R3; [destruct R4| |lia].
    destruct R4 as [->|[]]. cbn [flat_map]. rewrite app_nil_r. unfold leaves_at.
    replace (last nodes (Leaf 0)) with (nth (List.length nodes - 1) nodes (Leaf 0)); [reflexivity|].
    clear -R5. destruct (exists_last R5) as [l [x ->]]. rewrite last_last, app_length. cbn [List.length].
    rewrite app_nth2 by lia. replace (List.length l + 1 - 1 - List.length l)%nat with 0%nat by lia. reflexivity.
Qed.

(** ** The object *)
Lemma string_leb_total : forall a b, String.leb a b = false -> String.leb b a = true.
Proof. intros a b H. unfold String.leb in *. rewrite String.compare_antisym. destruct (String.compare a b); try discriminate. reflexivity. Qed.
Lemma label_leb_total : forall x y, label_leb x y = false -> label_leb y x = true.
Proof.
  intros [x|x|x x'] [y|y|y y'] H; cbn [label_leb] in *; try reflexivity; try discriminate.
  - apply Z.leb_gt in H. apply Z.leb_le. lia.
  - apply string_leb_total; exact H.
  - rewrite String.eqb_sym. destruct (String.eqb x y); apply string_leb_total; exact H.
Qed.
Lemma sort_index_perm : forall d, Permutation (sort_index d) d.
Proof. intros. apply isort_perm. Qed.
Lemma sort_index_sorted : forall d, Sorted (fun a b => label_leb (fst a) (fst b) = true) (sort_index d).
Proof. intros. apply isort_sorted. intros a b. apply label_leb_total. Qed.

Lemma mapM_names : forall (names : list label) ix, Permutation ix (seq 0 (List.length names)) ->
  exists ts, mapM (fun i => match nth_error names i with Some t => Ok t | None => Err IndexError end) ix = Ok ts /\ Permutation ts names.
Proof.
  intros names ix Hp. exists (map (fun i => nth i names (LInt 0)) ix). split.
  - apply mapM_ok. intros i Hi. apply (Permutation_in i Hp) in Hi. apply in_seq in Hi.
    rewrite (nth_error_nth' names (LInt 0)) by lia. reflexivity.
  - rewrite (Permutation_map (fun i => nth i names (LInt 0)) Hp). clear.
    replace (map (fun i => nth i names (LInt 0)) (seq 0 (List.length names))) with names; [reflexivity|].
    induction names as [|x l IH]; [reflexivity|]. cbn [List.length seq map nth]. f_equal. rewrite <- seq_shift, map_map. exact IH.
Qed.

Lemma positive_risk_perm : forall c ts names, Permutation ts names -> positive_risk c names -> positive_risk c ts.
Proof. intros c ts names Hp H sub x H1 H2 H3. apply H; auto. intros t Ht. apply (Permutation_in t Hp), H3, Ht. Qed.

(** the result of the last part of [optimize], given a valid linkage matrix *)
Lemma hrp_weights_ok : forall names c link, NoDup names -> positive_risk c names -> valid_linkage (List.length names) link ->
  exists d, hrp_weights (labelled names c) names link = Ok d /\ Permutation (map fst d) names /\
    Sorted (fun a b => label_leb (fst a) (fst b) = true) d /\ total (map snd d) = 1 /\ Forall (fun v => 0 < v < 1) (map snd d).
Proof.
  intros names c link Hnd Hp Hl. unfold hrp_weights. destruct (quasi_diag_perm _ _ Hl) as [ix [-> Hix]]. cbn [rbind].
  destruct (mapM_names names ix Hix) as [ts [-> Hts]]. cbn [rbind].
  assert (Hndt : NoDup ts) by (apply (Permutation_NoDup (Permutation_sym Hts)); exact Hnd).
  assert (Hlen : (1 < List.length ts)%nat) by (rewrite (Permutation_length Hts); destruct Hl; lia).
  destruct (raw_portfolio names c ts Hndt) as [w [Hw [Hk [Ht [Hpos [_ Hlt]]]]]].
  { intros t Htt. apply (Permutation_in t Hts Htt). }
  { destruct ts; [cbn [List.length] in Hlen; lia|discriminate]. }
  { apply (positive_risk_perm c ts names Hts Hp). }
  rewrite Hw. cbn [rbind]. specialize (Hlt Hlen).
  assert (Hps := sort_index_perm w).
  assert (Hks : Permutation (map fst (sort_index w)) names) by (rewrite (Permutation_map fst Hps), Hk; exact Hts).
  rewrite dict_of_pairs_NoDup by (apply (Permutation_NoDup (Permutation_sym Hks)); exact Hnd).
  exists (sort_index w). split; [reflexivity|]. split; [exact Hks|]. split; [apply sort_index_sorted|]. split.
  - rewrite <- Ht, <- !vsum_total. apply vsum_perm, Permutation_map, Hps.
  - apply (Permutation_Forall (Permutation_map snd (Permutation_sym Hps))). rewrite Forall_forall in *. intros v Hv. split; auto.
Qed.

Lemma set_weights_perm : forall (b : base R) d, NoDup (b_tickers b) -> Permutation (map fst d) (b_tickers b) ->
  exists w, set_weights b d = (mkBase (b_tickers b) (Some w), Ok tt) /\ Forall2 (fun t v => dget t d = Some v) (b_tickers b) w /\
    Permutation w (map snd d).
Proof.
  intros b d Hnd Hp. unfold set_weights.
  assert (Hnd' : NoDup (map fst d)) by (apply (Permutation_NoDup (Permutation_sym Hp)); exact Hnd).
  set (g := fun t => match dget t d with Some v => v | None => 0 end).
  assert (Hg : forall t, In t (b_tickers b) -> dget t d = Some (g t)).
  { intros t Ht. apply (Permutation_in t (Permutation_sym Hp)) in Ht. apply dget_Some_iff in Ht. destruct Ht as [v Hv]. unfold g. rewrite Hv. reflexivity. }
  rewrite (mapM_ok _ g) by (intros t Ht; unfold dgetE; rewrite (Hg t Ht); reflexivity). exists (map g (b_tickers b)). split; [reflexivity|]. split.
  - clear -Hg. induction (b_tickers b) as [|t l IH]; constructor; [apply Hg; left; reflexivity|]. apply IH. intros; apply Hg; right; assumption.
  - rewrite (Permutation_map g (Permutation_sym Hp)), map_map. rewrite (map_ext_in _ snd); [reflexivity|]. intros [t v] Hv.
    unfold g. cbn [fst snd]. rewrite (In_dget d t v Hnd' Hv). reflexivity.
Qed.

Lemma upper_cons : forall (rows : list (list R)), (2 <= List.length rows)%nat -> Forall (fun r => List.length r = List.length rows) rows -> exists d ds, upper 0 rows = d :: ds.
Proof.
  intros [|r rows] H Hr; cbn [List.length] in H; [lia|]. apply Forall_inv in Hr. cbn [List.length] in Hr. cbn [upper].
  destruct r as [|x [|y r]]; cbn [List.length] in Hr; try lia. cbn [skipn app]. eauto.
Qed.

Lemma method_ok : forall m, In m linkage_methods -> existsb (String.eqb m) linkage_methods = true.
Proof. intros m H. apply existsb_exists. exists m. split; [exact H|apply String.eqb_refl]. Qed.

Lemma optimize_core : forall lk m h names c corr, In m linkage_methods -> hrp_inputs h = Ok (labelled names c, corr) ->
  f_index corr = names -> Forall (fun r => List.length r = List.length names) (f_rows corr) -> List.length (f_rows corr) = List.length names ->
  b_tickers (h_base h) = names -> (2 <= List.length names)%nat -> NoDup names -> positive_risk c names -> linkage_valid lk m (List.length names) ->
  exists h' d, hrp_optimize lk m h = (h', Ok d) /\ long_portfolio names d (h_base h') /\
    h_returns h' = h_returns h /\ h_cov h' = h_cov h.
Proof.
  intros lk m h names c corr Hm Hin Hidx Hrows Hlen Hb Hn Hnd Hp Hlk. unfold hrp_optimize. rewrite (method_ok m Hm), Hin.
  destruct (upper_cons (map (map corr_distance) (f_rows corr))) as [x [xs ->]].
  { rewrite map_length. lia. }
  { apply Forall_map. rewrite map_length, Hlen. apply (Forall_impl _) with (2 := Hrows). intros r Hr. rewrite map_length. exact Hr. }
  rewrite Hidx. destruct (hrp_weights_ok names c (lk m (x :: xs)) Hnd Hp (Hlk _)) as [d [-> [Hk [Hs [Ht Hv]]]]]. cbn [h_base].
  destruct (set_weights_perm (h_base h) d) as [w [-> [Hw Hperm]]]; [rewrite Hb; exact Hnd|rewrite Hb; exact Hk|].
  eexists _, d. split; [reflexivity|]. cbn [h_base h_returns h_cov b_weights]. split; [|auto]. split; [exact Hk|]. split; [exact Hs|].
  exists w. rewrite Hb in Hw. split; [reflexivity|]. split; [exact Hw|]. split.
  - rewrite <- Ht, <- !vsum_total. apply vsum_perm, Hperm.
  - apply (Permutation_Forall (Permutation_sym Hperm)). exact Hv.
Qed.

(** *** Given a covariance matrix *)
Lemma diagonal_labelled : forall names c, diagonal (f_rows (labelled names c)) = map (fun t => c t t) names.
Proof.
  intros names c. unfold diagonal, labelled. cbn [f_rows]. rewrite map_length.
  apply nth_ext0; rewrite !map_length, ?seq_length; [reflexivity|]. intros i Hi.
  rewrite (nth_indep _ 0 (nth 0 (nth 0 (map (fun t => map (c t) names) names) []) 0)) by (rewrite map_length, seq_length; exact Hi).
  rewrite (map_nth (fun i => nth i (nth i (map (fun t => map (c t) names) names) []) 0)), seq_nth by exact Hi. cbn [Nat.add].
  assert (Hd : forall d d' : label, nth i names d = nth i names d') by (intros; apply nth_indep; exact Hi).
  rewrite (nth_indep _ [] (map (c (LInt 0)) names)) by (rewrite map_length; exact Hi).
  rewrite (map_nth (fun t => map (c t) names)). rewrite (nth_indep _ 0 (c (nth i names (LInt 0)) (LInt 0))) by (rewrite map_length; exact Hi).
  rewrite map_nth. rewrite (nth_indep _ 0 (c (LInt 0) (LInt 0))) by (rewrite map_length; exact Hi).
  rewrite (map_nth (fun t => c t t)). reflexivity.
Qed.
Lemma map2_maps : forall {X Y Z W} (g : Y -> Z -> W) (f : X -> Y) (h : X -> Z) l, map2 g (map f l) (map h l) = map (fun t => g (f t) (h t)) l.
Proof. intros. induction l as [|x l IH]; [reflexivity|]. cbn [map map2]. rewrite IH. reflexivity. Qed.
Lemma cov_to_corr_labelled : forall names c, (forall t, In t names -> 0 < c t t) ->
  cov_to_corr (labelled names c) = Ok (labelled names (fun t u => 1 / sqrt (c t t) * (c t u * (1 / sqrt (c u u))))).
Proof.
  intros names c Hp. unfold cov_to_corr. rewrite diagonal_labelled.
  assert (H1 : forallb (fun row => (List.length row =? List.length (f_rows (labelled names c)))%nat) (f_rows (labelled names c)) = true).
  { apply forallb_forall. intros row Hr. unfold labelled in *. cbn [f_rows] in *. apply in_map_iff in Hr. destruct Hr as [t [<- _]].
    rewrite !map_length. apply Nat.eqb_refl. }
  assert (H2 : forallb (fun x => Rltb 0 x) (map (fun t => c t t) names) = true).
  { apply forallb_forall. intros x Hx. apply in_map_iff in Hx. destruct Hx as [t [<- Ht]]. apply Rltb_true. auto. }
  rewrite H1, H2. unfold labelled. cbn [f_index f_rows]. rewrite map_map, map2_maps. do 2 f_equal. apply map_ext. intros t. rewrite map2_maps. reflexivity.
Qed.
Definition round6 (f : frame R) : frame R := mkFrame (f_index f) (f_cols f) (map (map (np_round 6)) (f_rows f)).

Lemma optimize_cov : forall lk m names c, In m linkage_methods -> (2 <= List.length names)%nat -> NoDup names ->
  positive_risk c names -> linkage_valid lk m (List.length names) ->
  exists h0 h d, hrp_init HRetNone (HCovFrame (labelled names c)) = Ok h0 /\ hrp_optimize lk m h0 = (h, Ok d) /\ long_portfolio names d (h_base h).
Proof.
  intros lk m names c Hm Hn Hnd Hp Hlk. set (h0 := mkHRP None (Some (labelled names c)) (base_init (List.length names) (Some names)) None).
  exists h0. set (corr := round6 (labelled names (fun t u => 1 / sqrt (c t t) * (c t u * (1 / sqrt (c u u)))))).
  destruct (optimize_core lk m h0 names c corr) as [h' [d [E [Hl _]]]]; try assumption; try reflexivity.
  - unfold hrp_inputs. cbn [h0 h_returns h_cov].
    rewrite cov_to_corr_labelled by (intros t Ht; apply (diag_pos c names Hp t Ht)). cbn [rbind]. reflexivity.
  - unfold corr, round6. cbn [f_rows labelled]. apply Forall_map, Forall_map, Forall_forall. intros t _. rewrite !map_length. reflexivity.
  - unfold corr, round6. cbn [f_rows labelled]. rewrite !map_length. reflexivity.
  - exists h', d. split; [reflexivity|]. split; [exact E|exact Hl].
Qed.

(** one asset *)
Lemma optimize_single : forall lk m t c, In m linkage_methods -> 0 < c t t ->
  exists h0, hrp_init HRetNone (HCovFrame (labelled [t] c)) = Ok h0 /\ hrp_optimize lk m h0 = (h0, Err ValueError).
Proof.
  intros lk m t c Hm Hc. eexists. split; [reflexivity|]. unfold hrp_optimize. rewrite (method_ok m Hm). unfold hrp_inputs. cbn [h_returns h_cov].
  rewrite cov_to_corr_labelled by (intros u [<-|[]]; exact Hc). cbn [rbind f_rows labelled map upper skipn app]. reflexivity.
Qed.
Lemma raw_single : forall (f : frame R) t, raw_hrp_allocation f [t] = Ok [(t, 1)].
Proof. reflexivity. Qed.

(** diagonal *)
Lemma inverse_perm : forall c ts names t, Permutation ts names -> inverse_variance c ts t = inverse_variance c names t.
Proof.
  intros c ts names t Hp. unfold inverse_variance. f_equal. rewrite <- !vsum_total. apply vsum_perm, Permutation_map, Hp.
Qed.
Lemma optimize_diagonal : forall lk m names c, In m linkage_methods -> (2 <= List.length names)%nat -> NoDup names ->
  uncorrelated c names -> linkage_valid lk m (List.length names) ->
  exists h0 h d, hrp_init HRetNone (HCovFrame (labelled names c)) = Ok h0 /\ hrp_optimize lk m h0 = (h, Ok d) /\
    b_weights (h_base h) = Some (map (inverse_variance c names) names) /\
    forall t v, In (t, v) d -> v = inverse_variance c names t.
Proof.
  intros lk m names c Hm Hn Hnd Hc Hlk. pose proof (diag_positive c names Hc) as Hp.
  destruct (optimize_cov lk m names c Hm Hn Hnd Hp Hlk) as [h0 [h [d [E0 [E [Hk [_ [w [Hw [Hf _]]]]]]]]]]. exists h0, h, d.
  split; [exact E0|]. split; [exact E|].
  assert (Hv : forall t v, In (t, v) d -> v = inverse_variance c names t).
  { intros t v Hv. cbn [hrp_init] in E0. injection E0 as <-. unfold hrp_optimize in E. rewrite (method_ok m Hm) in E. unfold hrp_inputs in E. cbn [h_returns h_cov] in E.
    rewrite cov_to_corr_labelled in E by (apply (proj1 Hc)). cbn [rbind] in E.
    destruct (upper 0 _) as [|x xs]; [discriminate E|]. unfold hrp_weights in E. destruct (quasi_diag_perm _ _ (Hlk (x :: xs))) as [ix [Eix Hix]].
    rewrite Eix in E. cbn [rbind f_index labelled] in E. destruct (mapM_names names ix Hix) as [ts [Ets Hts]]. rewrite Ets in E. cbn [rbind] in E.
    assert (Hndt : NoDup ts) by (apply (Permutation_NoDup (Permutation_sym Hts)); exact Hnd).
    assert (Hi : incl ts names) by (intros u Hu; apply (Permutation_in u Hts Hu)).
    assert (Hct : uncorrelated c ts) by (split; [intros u Hu; apply (proj1 Hc); auto|intros a b Ha Hb; apply (proj2 Hc); auto]).
    assert (Hne : ts <> []) by (intros ->; apply Permutation_nil in Hts; subst; cbn [List.length] in Hn; lia).
    rewrite (raw_diagonal names c ts Hndt Hi Hct Hne) in E. cbn [rbind] in E.
    set (w0 := map (fun t => (t, inverse_variance c ts t)) ts) in E. assert (Hps := sort_index_perm w0).
    assert (Hks : Permutation (map fst (sort_index w0)) ts) by (rewrite (Permutation_map fst Hps); unfold w0; rewrite map_map, map_id; reflexivity).
    rewrite dict_of_pairs_NoDup in E by (apply (Permutation_NoDup (Permutation_sym Hks)); exact Hndt).
    destruct (set_weights _ (sort_index w0)) as [b [u|e]]; [|discriminate E]. injection E as _ <-.
    apply (Permutation_in _ Hps) in Hv. unfold w0 in Hv. apply in_map_iff in Hv. destruct Hv as [u' [Eu Hu]]. injection Eu as <- <-.
    apply inverse_perm. exact Hts. }
  split; [|exact Hv]. rewrite Hw. f_equal. clear -Hf Hv. revert Hv. generalize (inverse_variance c names). intros g Hv. induction Hf as [|t v names' w' Hg Hf IH]; [reflexivity|].
  cbn [map]. rewrite <- (Hv t v (dget_In _ _ _ Hg)). f_equal. exact IH.
Qed.

(** ** Scaling the covariance matrix *)
Lemma forallb_map : forall {X Y} (f : X -> Y) p l, forallb p (map f l) = forallb (fun x => p (f x)) l.
Proof. intros. induction l as [|x l IH]; [reflexivity|]. cbn [map forallb]. rewrite IH. reflexivity. Qed.
Lemma forallb_ext : forall {X} (p q : X -> bool) l, (forall x, p x = q x) -> forallb p l = forallb q l.
Proof. intros X p q l H. induction l as [|x l IH]; [reflexivity|]. cbn [forallb]. rewrite H, IH. reflexivity. Qed.
Lemma diagonal_scale : forall k m, diagonal (map (map (fun x => k * x)) m) = map (fun x => k * x) (diagonal m).
Proof.
  intros k m. unfold diagonal. rewrite map_length, map_map. apply map_ext. intros i.
  change (@nil R) with (map (fun x => k * x) []) at 1. rewrite map_nth.
  rewrite <- (map_nth (fun x => k * x)). rewrite Rmult_0_r. reflexivity.
Qed.
Lemma cov_to_corr_scale : forall k f, 0 < k -> cov_to_corr (scale_frame k f) = cov_to_corr f.
Proof.
  intros k f Hk. unfold cov_to_corr, scale_frame. cbn [f_rows f_index]. rewrite map_length, forallb_map.
  rewrite (forallb_ext _ (fun row => (List.length row =? List.length (f_rows f))%nat)) by (intros; rewrite map_length; reflexivity).
  destruct (forallb _ (f_rows f)); [|reflexivity]. rewrite diagonal_scale, forallb_map.
  rewrite (forallb_ext _ (fun x => Rltb 0 x)).
  2: { intros x. destruct (Rltb 0 x) eqn:E; [apply Rltb_true in E; apply Rltb_true; nra|apply Rltb_false in E; apply Rltb_false; nra]. }
  destruct (forallb (fun x => Rltb 0 x) (diagonal (f_rows f))) eqn:Hd; [|reflexivity]. do 2 f_equal. rewrite map_map.
  rewrite forallb_forall in Hd. assert (Hd' : Forall (fun x => 0 < x) (diagonal (f_rows f))) by (apply Forall_forall; intros x Hx; apply Rltb_true; auto).
  clear Hd.
  assert (Hs : forall x, 0 < x -> sqrt (k * x) = sqrt k * sqrt x) by (intros; apply sqrt_mult; lra).
  pose proof (sqrt_lt_R0 k Hk) as Hsk. pose proof (sqrt_sqrt k (Rlt_le _ _ Hk)) as Hkk.
  assert (Hrow : forall d di row, Forall (fun x => 0 < x) d -> 0 < di ->
    map2 (fun dj x => 1 / sqrt (k * di) * (x * dj)) (map (fun x => 1 / sqrt (k * x)) d) (map (fun x => k * x) row) =
    map2 (fun dj x => 1 / sqrt di * (x * dj)) (map (fun x => 1 / sqrt x) d) row).
  { induction d as [|y d IH]; intros di row H0 Hdi; [reflexivity|]. destruct row as [|x row]; [reflexivity|]. apply Forall_cons_iff in H0. destruct H0 as [Hy H0].
    cbn [map map2]. rewrite IH by assumption. f_equal. rewrite !Hs by assumption.
    pose proof (sqrt_lt_R0 di Hdi). pose proof (sqrt_lt_R0 y Hy). replace (k * x) with (sqrt k * sqrt k * x) by (rewrite Hkk; ring). field. lra. }
  assert (Hall : forall d1 rows, Forall (fun x => 0 < x) d1 ->
    map2 (fun di row => map2 (fun dj x => di * (x * dj)) (map (fun x => 1 / sqrt (k * x)) (diagonal (f_rows f))) row)
      (map (fun x => 1 / sqrt (k * x)) d1) (map (map (fun x => k * x)) rows) =
    map2 (fun di row => map2 (fun dj x => di * (x * dj)) (map (fun x => 1 / sqrt x) (diagonal (f_rows f))) row)
      (map (fun x => 1 / sqrt x) d1) rows).
  { induction d1 as [|di d1 IH]; intros rows Hd1; [reflexivity|].
    destruct rows as [|row rows]; [reflexivity|]. apply Forall_cons_iff in Hd1. destruct Hd1 as [Hdi Hd1]. cbn [map map2]. rewrite IH by exact Hd1.
    f_equal. apply Hrow; assumption. }
  apply Hall. exact Hd'.
Qed.
Lemma optimize_scale : forall lk m k f, 0 < k -> exists h h',
  hrp_init HRetNone (HCovFrame f) = Ok h /\ hrp_init HRetNone (HCovFrame (scale_frame k f)) = Ok h' /\
  snd (hrp_optimize lk m h') = snd (hrp_optimize lk m h) /\
  b_weights (h_base (fst (hrp_optimize lk m h'))) = b_weights (h_base (fst (hrp_optimize lk m h))).
Proof.
  intros lk m k f Hk. eexists _, _. split; [reflexivity|]. split; [reflexivity|]. unfold hrp_optimize.
  destruct (existsb (String.eqb m) linkage_methods); [|split; reflexivity]. unfold hrp_inputs. cbn [h_returns h_cov]. rewrite cov_to_corr_scale by exact Hk.
  destruct (cov_to_corr f) as [corr|e]; cbn [rbind]; [|split; reflexivity]. cbn [f_rows f_index f_cols scale_frame].
  destruct (upper 0 _) as [|x xs]; [split; reflexivity|].
  assert (Hw : forall link, hrp_weights (scale_frame k f) (f_index corr) link = hrp_weights f (f_index corr) link).
  { intros link. unfold hrp_weights. destruct (get_quasi_diag link); cbn [rbind]; [|reflexivity]. destruct (mapM _ x0) as [ts|e]; cbn [rbind]; [|reflexivity].
    rewrite raw_scale by lra. reflexivity. }
  cbn [h_base]. unfold scale_frame in Hw. rewrite Hw. destruct (hrp_weights f (f_index corr) _) as [d|e]; [|split; reflexivity].
  destruct (set_weights _ d) as [b [u|e]]; split; reflexivity.
Qed.
