(** * Hierarchical risk parity over the reals *)
From Coq Require Import ZArith List String Bool Reals Lra Lia Permutation Sorted Arith.
From Verif Require Import Num Py RBase PyLemmas MBase MFrame MHRP SLin SBase SHRP SHRP3 Sums PBase PHRP.
Import ListNotations.
Local Open Scope R_scope.

(** ** Reading a labelled matrix *)
Lemma position_in : forall t l, In t l -> exists i, position t l = Some i /\ nth_error l i = Some t.
Proof.
  induction l as [|u l IH]; intros H; [destruct H|]. cbn [position]. destruct (label_eqb_spec t u) as [->|Hne].
  - exists O. auto.
  - destruct H as [->|H]; [congruence|]. destruct (IH H) as [i [E1 E2]]. rewrite E1. exists (S i). auto.
Qed.
Lemma loc_labelled : forall names c t u, In t names -> In u names -> loc (labelled names c) t u = Ok (c t u).
Proof.
  intros names c t u Ht Hu. destruct (position_in t names Ht) as [i [Ei Ni]], (position_in u names Hu) as [j [Ej Nj]].
  unfold loc, labelled. cbn [f_index f_cols f_rows]. rewrite Ei, Ej, nth_error_map, Ni. cbn [option_map]. rewrite nth_error_map, Nj. reflexivity.
Qed.
Lemma mapM_ok : forall {X Y} (f : X -> res Y) (g : X -> Y) l, (forall x, In x l -> f x = Ok (g x)) -> mapM f l = Ok (map g l).
Proof.
  intros X Y f g. induction l as [|x l IH]; intros H; [reflexivity|]. cbn [mapM]. rewrite (H x (or_introl eq_refl)). cbn [rbind].
  rewrite IH by (intros; apply H; right; assumption). reflexivity.
Qed.
Lemma inner_maps : forall {X} (f g : X -> R) l, inner (map f l) (map g l) = total (map (fun t => f t * g t) l).
Proof. induction l as [|x l IH]; cbn [map inner total]; [reflexivity|]. rewrite IH. reflexivity. Qed.
Lemma total_map_scal : forall {X} (f : X -> R) k l, total (map (fun t => k * f t) l) = k * total (map f l).
Proof. induction l as [|x l IH]; cbn [map total]; [ring|]. rewrite IH. ring. Qed.
Lemma total_map_ext : forall {X} (f g : X -> R) l, (forall x, In x l -> f x = g x) -> total (map f l) = total (map g l).
Proof. induction l as [|x l IH]; intros H; cbn [map total]; [reflexivity|]. rewrite (H x), IH; cbn; auto. intros; apply H; right; assumption. Qed.
Lemma total_app : forall l m, total (l ++ m) = total l + total m.
Proof. induction l as [|x l IH]; intros m; cbn [app total]; [ring|]. rewrite IH. ring. Qed.
Lemma total_pos : forall l, l <> [] -> Forall (fun x => 0 < x) l -> 0 < total l.
Proof.
  intros l Hl H. rewrite <- vsum_total. apply vsum_pos; assumption.
Qed.

Lemma inv_mapM : forall l, Forall (fun d => d <> 0) l ->
  mapM (fun d => if neqb d n0 then Err FloatSpecial else Ok (ndiv n1 d)) l = Ok (map (fun d => 1 / d) l).
Proof.
  intros l H. apply mapM_ok. intros d Hd. rewrite Forall_forall in H. specialize (H d Hd). runfold. destruct (Reqb d 0) eqn:E; [|reflexivity].
  apply Reqb_true in E. contradiction.
Qed.
Lemma inv_mapM_inv : forall l v, mapM (fun d : R => if neqb d n0 then Err FloatSpecial else Ok (ndiv n1 d)) l = Ok v ->
  Forall (fun d => d <> 0) l /\ v = map (fun d => 1 / d) l.
Proof.
  induction l as [|d l IH]; intros v H; cbn [mapM] in H; [inversion H; split; [constructor|reflexivity]|].
  destruct (neqb d n0) eqn:E; cbn [rbind] in H; [discriminate|]. destruct (mapM _ l) as [v'|e] eqn:E'; cbn [rbind] in H; [|discriminate].
  injection H as <-. destruct (IH v' eq_refl) as [H1 ->]. split; [constructor; [|exact H1]|reflexivity].
  runfold. apply Reqb_false in E. exact E.
Qed.

Lemma cluster_value : forall c ts, quad (A:=R) (map (fun t => map (c t) ts) ts)
  (map (fun x => x / total (map (fun u => 1 / c u u) ts)) (map (fun t => 1 / c t t) ts)) = cluster_variance c ts.
Proof.
  intros c ts. rewrite quad_qform. unfold qform. rewrite !map_map.
  rewrite (inner_maps (fun x => 1 / c x x / total (map (fun u => 1 / c u u) ts))). unfold cluster_variance, variance.
  apply total_map_ext. intros t _. rewrite inner_maps, <- total_map_scal. apply total_map_ext. intros u _. unfold inverse_variance. ring.
Qed.

Lemma cluster_var_ok : forall names c ts, incl ts names ->
  (forall t, In t ts -> c t t <> 0) -> total (map (fun u => 1 / c u u) ts) <> 0 ->
  cluster_var (labelled names c) ts = Ok (cluster_variance c ts).
Proof.
  intros names c ts Hi Hd Hs. unfold cluster_var.
  rewrite (mapM_ok _ (fun t => map (c t) ts)).
  2: { intros t Ht. apply mapM_ok. intros u Hu. apply loc_labelled; apply Hi; assumption. }
  cbn [rbind]. rewrite (mapM_ok _ (fun t => c t t)) by (intros t Ht; apply loc_labelled; apply Hi; assumption). cbn [rbind].
  rewrite inv_mapM by (apply Forall_map, Forall_forall; exact Hd). cbn [rbind]. rewrite map_map. rewrite vsum_total.
  runfold. destruct (Reqb _ 0) eqn:E; [apply Reqb_true in E; contradiction|]. rewrite <- cluster_value. rewrite map_map. reflexivity.
Qed.
Lemma cluster_var_val : forall names c ts v, incl ts names -> cluster_var (labelled names c) ts = Ok v -> v = cluster_variance c ts.
Proof.
  intros names c ts v Hi H. unfold cluster_var in H.
  rewrite (mapM_ok _ (fun t => map (c t) ts)) in H.
  2: { intros t Ht. apply mapM_ok. intros u Hu. apply loc_labelled; apply Hi; assumption. }
  cbn [rbind] in H. rewrite (mapM_ok _ (fun t => c t t)) in H by (intros t Ht; apply loc_labelled; apply Hi; assumption). cbn [rbind] in H.
  destruct (mapM _ (map (fun t => c t t) ts)) as [inv|e] eqn:E; cbn [rbind] in H; [|discriminate].
  apply inv_mapM_inv in E. destruct E as [_ ->]. rewrite map_map, vsum_total in H. destruct (neqb _ n0); [discriminate|].
  injection H as <-. rewrite <- cluster_value. rewrite map_map. reflexivity.
Qed.
Lemma share_val : forall names c l1 l2 a, incl l1 names -> incl l2 names -> split_share (labelled names c) l1 l2 = Ok a ->
  a = first_share c l1 l2.
Proof.
  intros names c l1 l2 a H1 H2 H. unfold split_share in H.
  destruct (cluster_var _ l1) as [v1|e] eqn:E1; cbn [rbind] in H; [|discriminate].
  destruct (cluster_var _ l2) as [v2|e] eqn:E2; cbn [rbind] in H; [|discriminate].
  apply cluster_var_val in E1; [|exact H1]. apply cluster_var_val in E2; [|exact H2]. runfold. destruct (Reqb _ 0) eqn:E; [discriminate|].
  apply Reqb_false in E. injection H as <-. unfold first_share. rewrite <- E1, <- E2. field. exact E.
Qed.

Lemma cut_bisected : forall names c acc l d, cut_weights (labelled names c) acc l d -> incl l names -> bisected (first_share c) acc l d.
Proof.
  intros names c acc l d H. induction H as [acc l Hl|acc l1 l2 a d1 d2 Hl Hl1 Ha H1 IH1 H2 IH2]; intros Hi; [constructor; exact Hl|].
  assert (Hi1 : incl l1 names) by (intros t Ht; apply Hi, in_app_iff; auto).
  assert (Hi2 : incl l2 names) by (intros t Ht; apply Hi, in_app_iff; auto).
  apply share_val in Ha; [|assumption..]. subst a. apply bis_node; auto.
Qed.
Lemma raw_bisected : forall names c ts w, NoDup ts -> incl ts names -> raw_hrp_allocation (labelled names c) ts = Ok w ->
  bisected (first_share c) 1 ts w.
Proof. intros names c ts w Hnd Hi H. apply raw_cut in H; [|exact Hnd]. apply (cut_bisected names c _ _ _ (proj1 H) Hi). Qed.

(** ** Positive sub-portfolio risk *)
Section Positive.
  Context (c : label -> label -> R) (ts : list label) (Hp : positive_risk c ts).
  Lemma diag_pos : forall t, In t ts -> 0 < c t t.
  Proof.
    intros t Ht. pose proof (Hp [t] (fun _ => 1)) as H. unfold variance in H. cbn [map total] in H.
    assert (0 < 1 * c t t * 1 + 0 + 0); [|lra]. apply H; [discriminate|constructor; [intros []|constructor]|intros u [<-|[]]; exact Ht|intros; lra].
  Qed.
  Lemma inv_total_pos : forall l, l <> [] -> incl l ts -> 0 < total (map (fun u => 1 / c u u) l).
  Proof.
    intros l Hl Hi. apply total_pos; [destruct l; [congruence|discriminate]|]. apply Forall_map, Forall_forall. intros u Hu.
    pose proof (diag_pos u (Hi u Hu)). apply Rdiv_lt_0_compat; lra.
  Qed.
  Lemma cluster_pos : forall l, l <> [] -> NoDup l -> incl l ts -> 0 < cluster_variance c l.
  Proof.
    intros l Hl Hnd Hi. apply Hp; auto. intros t Ht. unfold inverse_variance.
    apply Rdiv_lt_0_compat; [|apply inv_total_pos; assumption]. pose proof (diag_pos t (Hi t Ht)). apply Rdiv_lt_0_compat; lra.
  Qed.
  Lemma share_between : forall l1 l2, l1 <> [] -> l2 <> [] -> NoDup (l1 ++ l2) -> incl (l1 ++ l2) ts -> 0 < first_share c l1 l2 < 1.
  Proof.
    intros l1 l2 H1 H2 Hnd Hi. apply nodup_app in Hnd. destruct Hnd as [N1 [N2 _]].
    assert (P1 : 0 < cluster_variance c l1) by (apply cluster_pos; auto; intros t Ht; apply Hi, in_app_iff; auto).
    assert (P2 : 0 < cluster_variance c l2) by (apply cluster_pos; auto; intros t Ht; apply Hi, in_app_iff; auto).
    unfold first_share. split; [apply Rdiv_lt_0_compat; lra|]. apply (Rmult_lt_reg_r (cluster_variance c l1 + cluster_variance c l2)); [lra|].
    field_simplify; lra.
  Qed.
  Lemma good_splits : forall names, incl ts names -> good_split (labelled names c) ts.
  Proof.
    intros names Hn l1 l2 H1 H2 I1 I2 Hnd. unfold split_share.
    assert (Hok : forall l, l <> [] -> incl l ts -> cluster_var (labelled names c) l = Ok (cluster_variance c l)).
    { intros l Hl Hi. apply cluster_var_ok; [intros t Ht; apply Hn, Hi, Ht| |].
      - intros t Ht. pose proof (diag_pos t (Hi t Ht)). lra.
      - pose proof (inv_total_pos l Hl Hi). lra. }
    rewrite (Hok l1 H1 I1), (Hok l2 H2 I2). cbn [rbind]. apply nodup_app in Hnd. destruct Hnd as [N1 [N2 _]].
    pose proof (cluster_pos l1 H1 N1 I1). pose proof (cluster_pos l2 H2 N2 I2). runfold. destruct (Reqb _ 0) eqn:E; [|eexists; reflexivity].
    apply Reqb_true in E. lra.
  Qed.
End Positive.

Lemma bisected_split : forall share ts acc l d, bisected share acc l d ->
  (forall l1 l2, l1 <> [] -> l2 <> [] -> NoDup (l1 ++ l2) -> incl (l1 ++ l2) ts -> 0 < share l1 l2 < 1) ->
  NoDup l -> incl l ts -> l <> [] -> 0 < acc ->
  map fst d = l /\ total (map snd d) = acc /\ Forall (fun v => 0 < v) (map snd d) /\ Forall (fun v => v <= acc) (map snd d) /\
  ((1 < List.length l)%nat -> Forall (fun v => v < acc) (map snd d)).
Proof.
  intros share ts acc l d H Hsh. induction H as [acc l Hl|acc l1 l2 d1 d2 Hl Hl1 H1 IH1 H2 IH2]; intros Hnd Hi Hne Hacc.
  - destruct l as [|t [|]]; cbn [List.length] in Hl; [congruence| |lia]. cbn [map fst snd total].
    split; [reflexivity|]. split; [lra|]. repeat split; try (constructor; [lra|constructor]). cbn [List.length]. intros; lia.
  - assert (Hh := half_bounds (List.length (l1 ++ l2)) Hl).
    assert (N1 : l1 <> []) by (intros ->; cbn [List.length] in Hl1; lia).
    assert (N2 : l2 <> []) by (intros ->; rewrite app_nil_r in *; lia).
    destruct (Hsh l1 l2 N1 N2 Hnd Hi) as [S1 S2]. pose proof Hnd as Hnd'. apply nodup_app in Hnd. destruct Hnd as [D1 [D2 _]].
    destruct IH1 as [K1 [T1 [P1 [L1 _]]]]; auto; [intros t Ht; apply Hi, in_app_iff; auto|nra|].
    destruct IH2 as [K2 [T2 [P2 [L2 _]]]]; auto; [intros t Ht; apply Hi, in_app_iff; auto|nra|].
    rewrite !map_app, K1, K2, total_app, T1, T2. split; [reflexivity|]. split; [ring|].
    split; [apply Forall_app; auto|].
    assert (Hlt : Forall (fun v => v < acc) (map snd d1 ++ map snd d2)).
    { apply Forall_app. split; [apply (Forall_impl _) with (2 := L1)|apply (Forall_impl _) with (2 := L2)]; intros v Hv; nra. }
    split; [|intros _; exact Hlt]. apply (Forall_impl _) with (2 := Hlt). intros; lra.
Qed.

Lemma raw_portfolio : forall names c ts, NoDup ts -> incl ts names -> ts <> [] -> positive_risk c ts ->
  exists w, raw_hrp_allocation (labelled names c) ts = Ok w /\ map fst w = ts /\ total (map snd w) = 1 /\
    Forall (fun v => 0 < v) (map snd w) /\ Forall (fun v => v <= 1) (map snd w) /\
    ((1 < List.length ts)%nat -> Forall (fun v => v < 1) (map snd w)).
Proof.
  intros names c ts Hnd Hi Hne Hp. destruct (raw_ok _ ts Hnd (good_splits c ts Hp names Hi)) as [w Hw]. exists w. split; [exact Hw|].
  apply (bisected_split (first_share c) ts 1 ts w); auto; [apply (raw_bisected names); assumption| |apply incl_refl|lra].
  intros; apply (share_between c ts Hp); assumption.
Qed.

(** ** Uncorrelated assets *)
Lemma total_one : forall (f : label -> R) l t, NoDup l -> In t l -> (forall u, In u l -> u <> t -> f u = 0) -> total (map f l) = f t.
Proof.
  induction l as [|u l IH]; intros t Hnd Hin H0; [destruct Hin|]. apply NoDup_cons_iff in Hnd. destruct Hnd as [Hni Hnd]. cbn [map total].
  destruct Hin as [->|Hin].
  - assert (total (map f l) = 0); [|lra]. rewrite (total_map_ext _ (fun _ => 0)).
    + clear. induction l; cbn [map total]; [reflexivity|]. lra.
    + intros v Hv. apply H0; [right; exact Hv|]. intros ->. contradiction.
  - rewrite (IH t Hnd Hin) by (intros v Hv; apply H0; right; exact Hv). rewrite (H0 u (or_introl eq_refl)); [ring|].
    intros ->. contradiction.
Qed.
Section Diagonal.
  Context (c : label -> label -> R) (ts : list label) (Hc : uncorrelated c ts).
  Lemma diag_total_pos : forall l, l <> [] -> incl l ts -> 0 < total (map (fun u => 1 / c u u) l).
  Proof.
    intros l Hl Hi. apply total_pos; [destruct l; [congruence|discriminate]|]. apply Forall_map, Forall_forall. intros u Hu.
    pose proof (proj1 Hc u (Hi u Hu)). apply Rdiv_lt_0_compat; lra.
  Qed.
  Lemma diag_variance : forall l x, NoDup l -> incl l ts -> variance c l x = total (map (fun t => x t * x t * c t t) l).
  Proof.
    intros l x Hnd Hi. unfold variance. apply total_map_ext. intros t Ht.
    rewrite (total_one (fun u => x t * c t u * x u) l t Hnd Ht); [ring|]. intros u Hu Hne. rewrite (proj2 Hc t u (Hi t Ht) (Hi u Hu)) by congruence. ring.
  Qed.
  Lemma diag_positive : positive_risk c ts.
  Proof.
    intros sub x Hs Hnd Hi Hx. rewrite diag_variance by assumption. apply total_pos; [destruct sub; [congruence|discriminate]|].
    apply Forall_map, Forall_forall. intros t Ht. pose proof (proj1 Hc t (Hi t Ht)). pose proof (Hx t Ht).
    apply Rmult_lt_0_compat; [apply Rmult_lt_0_compat|]; assumption.
  Qed.
  Lemma diag_cluster : forall l, l <> [] -> NoDup l -> incl l ts -> cluster_variance c l = 1 / total (map (fun u => 1 / c u u) l).
  Proof.
    intros l Hl Hnd Hi. unfold cluster_variance. rewrite diag_variance by assumption. pose proof (diag_total_pos l Hl Hi) as HS.
    unfold inverse_variance. set (S := total (map (fun u => 1 / c u u) l)) in *.
    rewrite (total_map_ext _ (fun t => 1 / (S * S) * (1 / c t t))).
    - rewrite total_map_scal. fold S. field. lra.
    - intros t Ht. pose proof (proj1 Hc t (Hi t Ht)). field. lra.
  Qed.
  Lemma diag_bisected : forall acc l d, bisected (first_share c) acc l d -> NoDup l -> incl l ts ->
    forall t v, In (t, v) d -> v = acc * inverse_variance c l t.
  Proof.
    intros acc l d H. induction H as [acc l Hl|acc l1 l2 d1 d2 Hl Hl1 H1 IH1 H2 IH2]; intros Hnd Hi t v Hv.
    - apply in_map_iff in Hv. destruct Hv as [u [E Hu]]. inversion E; subst u v. destruct l as [|a [|]]; [destruct Hu| |cbn [List.length] in Hl; lia].
      destruct Hu as [<-|[]]. unfold inverse_variance. cbn [map total]. pose proof (proj1 Hc a (Hi a (or_introl eq_refl))). field. lra.
    - assert (Hh := half_bounds (List.length (l1 ++ l2)) Hl).
      assert (N1 : l1 <> []) by (intros ->; cbn [List.length] in Hl1; lia).
      assert (N2 : l2 <> []) by (intros ->; rewrite app_nil_r in *; lia).
      apply nodup_app in Hnd. destruct Hnd as [D1 [D2 _]].
      assert (I1 : incl l1 ts) by (intros u Hu; apply Hi, in_app_iff; auto).
      assert (I2 : incl l2 ts) by (intros u Hu; apply Hi, in_app_iff; auto).
      pose proof (diag_total_pos l1 N1 I1) as P1. pose proof (diag_total_pos l2 N2 I2) as P2.
      assert (Hs : first_share c l1 l2 = total (map (fun u => 1 / c u u) l1) / (total (map (fun u => 1 / c u u) l1) + total (map (fun u => 1 / c u u) l2))).
      { unfold first_share. rewrite !diag_cluster by assumption. field. lra. }
      apply in_app_iff in Hv. destruct Hv as [Hv|Hv].
      + pose proof (proj1 Hc t). assert (Ht : In t l1 \/ ~ In t l1) by (destruct (in_dec label_eq_dec t l1); auto).
        rewrite (IH1 D1 I1 t v Hv), Hs. unfold inverse_variance. rewrite map_app, total_app. destruct Ht as [Ht|Ht].
        * pose proof (proj1 Hc t (I1 t Ht)). field. lra.
        * exfalso. apply Ht. clear -H1 Hv. assert (Hk : map fst d1 = l1) by
            (clear Hv; induction H1; [rewrite map_map; apply map_id|rewrite map_app, IHbisected1, IHbisected2; reflexivity]).
          rewrite <- Hk. apply (in_map fst) in Hv. exact Hv.
      + assert (Ht : In t l2).
        { clear -H2 Hv. assert (Hk : map fst d2 = l2) by
            (clear Hv; induction H2; [rewrite map_map; apply map_id|rewrite map_app, IHbisected1, IHbisected2; reflexivity]).
          rewrite <- Hk. apply (in_map fst) in Hv. exact Hv. }
        rewrite (IH2 D2 I2 t v Hv), Hs. unfold inverse_variance. rewrite map_app, total_app.
        pose proof (proj1 Hc t (I2 t Ht)). field. lra.
  Qed.
End Diagonal.
Lemma raw_diagonal : forall names c ts, NoDup ts -> incl ts names -> uncorrelated c ts -> ts <> [] ->
  raw_hrp_allocation (labelled names c) ts = Ok (map (fun t => (t, inverse_variance c ts t)) ts).
Proof.
  intros names c ts Hnd Hi Hc Hne. destruct (raw_portfolio names c ts Hnd Hi Hne (diag_positive c ts Hc)) as [w [Hw [Hk _]]]. rewrite Hw. f_equal.
  apply dict_ext; [rewrite Hk; exact Hnd|rewrite map_map, map_id; exact Hk|]. intros t v Hv.
  pose proof (diag_bisected c ts Hc 1 ts w (raw_bisected names c ts w Hnd Hi Hw) Hnd (incl_refl ts) t v Hv) as ->. rewrite Rmult_1_l.
  apply In_dget; [rewrite map_map, map_id; exact Hnd|]. apply in_map_iff. exists t. split; [reflexivity|]. rewrite <- Hk. apply (in_map fst) in Hv. exact Hv.
Qed.

(** ** Scaling *)
Definition rmap {X Y} (g : X -> Y) (r : res X) : res Y := match r with Ok x => Ok (g x) | Err e => Err e end.
Lemma loc_scale : forall k f t u, loc (scale_frame k f) t u = rmap (fun x => k * x) (loc f t u).
Proof.
  intros k f t u. unfold loc, scale_frame. cbn [f_index f_cols f_rows]. destruct (position t (f_index f)) as [i|], (position u (f_cols f)) as [j|]; try reflexivity.
  rewrite nth_error_map. destruct (nth_error (f_rows f) i) as [row|]; [|reflexivity]. cbn [option_map]. rewrite nth_error_map.
  destruct (nth_error row j); reflexivity.
Qed.
Lemma mapM_rmap : forall {X Y Z} (f : X -> res Y) (g : Y -> Z) l, mapM (fun x => rmap g (f x)) l = rmap (map g) (mapM f l).
Proof.
  intros. induction l as [|x l IH]; [reflexivity|]. cbn [mapM]. destruct (f x) as [y|e]; cbn [rmap rbind]; [|reflexivity].
  rewrite IH. destruct (mapM f l); reflexivity.
Qed.
Lemma mapM_ext : forall {X Y} (f g : X -> res Y) l, (forall x, In x l -> f x = g x) -> mapM f l = mapM g l.
Proof.
  induction l as [|x l IH]; intros H; [reflexivity|]. cbn [mapM]. rewrite (H x (or_introl eq_refl)), IH; [reflexivity|]. intros; apply H; right; assumption.
Qed.
Lemma cluster_scale : forall k f l, k <> 0 -> cluster_var (scale_frame k f) l = rmap (fun x => k * x) (cluster_var f l).
Proof.
  intros k f l Hk. unfold cluster_var.
  rewrite (mapM_ext (fun t => mapM (fun u => loc (scale_frame k f) t u) l) (fun t => rmap (map (fun x => k * x)) (mapM (fun u => loc f t u) l))).
  2: { intros t _. rewrite <- mapM_rmap. apply mapM_ext. intros u _. apply loc_scale. }
  rewrite mapM_rmap. destruct (mapM (fun t => mapM (fun u => loc f t u) l) l) as [S|e]; cbn [rmap rbind]; [|reflexivity].
  rewrite (mapM_ext (fun t => loc (scale_frame k f) t t) (fun t => rmap (fun x => k * x) (loc f t t))) by (intros; apply loc_scale).
  rewrite mapM_rmap. destruct (mapM (fun t => loc f t t) l) as [d|e]; cbn [rmap rbind]; [|reflexivity].
  assert (Hinv : mapM (fun d : R => if neqb d n0 then Err FloatSpecial else Ok (ndiv n1 d)) (map (fun x => k * x) d) =
    rmap (map (fun x => / k * x)) (mapM (fun d : R => if neqb d n0 then Err FloatSpecial else Ok (ndiv n1 d)) d)).
  { rewrite <- mapM_rmap. clear S. induction d as [|x d IH]; [reflexivity|]. cbn [map mapM]. rewrite IH.
    assert (Hx : (if neqb (k * x) n0 then Err FloatSpecial else Ok (ndiv n1 (k * x))) =
                 rmap (fun x => / k * x) (if neqb x n0 then Err FloatSpecial else Ok (ndiv n1 x))); [|rewrite Hx; reflexivity].
    runfold. destruct (Reqb x 0) eqn:E.
    - apply Reqb_true in E. subst x. rewrite Rmult_0_r. rewrite (proj2 (Reqb_true 0 0) eq_refl). reflexivity.
    - apply Reqb_false in E. rewrite (proj2 (Reqb_false (k * x) 0)) by nra. cbn [rmap]. f_equal. field. auto. }
  rewrite Hinv. destruct (mapM (fun d : R => if neqb d n0 then _ else _) d) as [v|e]; cbn [rmap rbind]; [|reflexivity].
  rewrite !vsum_total. replace (total (map (fun x => / k * x) v)) with (/ k * total v) by (rewrite total_map_scal, map_id; reflexivity).
  assert (Hk' : / k <> 0) by (apply Rinv_neq_0_compat; exact Hk).
  runfold. destruct (Reqb (total v) 0) eqn:E.
  - apply Reqb_true in E. rewrite E, Rmult_0_r, (proj2 (Reqb_true 0 0) eq_refl). reflexivity.
  - apply Reqb_false in E. rewrite (proj2 (Reqb_false (/ k * total v) 0)) by nra. cbn [rmap]. f_equal.
    rewrite !quad_qform. rewrite map_map. rewrite (map_ext (fun x => / k * x / (/ k * total v)) (fun x => x / total v)).
    2: { intros x. field. auto. }
    unfold qform. generalize (map (fun x => x / total v) v). intros w. rewrite <- inner_scale_r. f_equal. unfold vscale. rewrite !map_map.
    apply map_ext. intros row. apply inner_scale_l.
Qed.
Lemma share_scale : forall k f l1 l2, k <> 0 -> split_share (scale_frame k f) l1 l2 = split_share f l1 l2.
Proof.
  intros k f l1 l2 Hk. unfold split_share. rewrite !cluster_scale by exact Hk.
  destruct (cluster_var f l1) as [v1|e]; cbn [rmap rbind]; [|reflexivity]. destruct (cluster_var f l2) as [v2|e]; cbn [rmap rbind]; [|reflexivity].
  runfold. destruct (Reqb (v1 + v2) 0) eqn:E.
  - apply Reqb_true in E. replace (k * v1 + k * v2) with 0 by nra. rewrite (proj2 (Reqb_true 0 0) eq_refl). reflexivity.
  - apply Reqb_false in E. rewrite (proj2 (Reqb_false (k * v1 + k * v2) 0)) by (rewrite <- Rmult_plus_distr_l; nra). f_equal. f_equal. field. repeat split; auto; rewrite <- Rmult_plus_distr_l; nra.
Qed.
Lemma pair_scale_aux : forall k f n cl w, k <> 0 -> (List.length cl <= n)%nat -> pair_steps (scale_frame k f) cl w = pair_steps f cl w.
Proof.
  intros k f n. induction n as [|n IH]; intros cl w Hk Hl; [destruct cl; [reflexivity|cbn [List.length] in Hl; lia]|].
  destruct cl as [|a [|b rest]]; try reflexivity. cbn [pair_steps]. rewrite share_scale by exact Hk.
  destruct (split_share f a b); cbn [rbind]; [|reflexivity]. apply IH; [exact Hk|cbn [List.length] in Hl; lia].
Qed.
Lemma raw_scale : forall k f ts, k <> 0 -> raw_hrp_allocation (scale_frame k f) ts = raw_hrp_allocation f ts.
Proof.
  intros k f ts Hk. unfold raw_hrp_allocation. generalize (map (fun t => (t, n1)) ts), [ts]. generalize (List.length ts + 2)%nat.
  induction n as [|n IH]; intros w cl; [reflexivity|]. cbn [hrp_loop]. destruct cl as [|l cl]; [reflexivity|].
  rewrite (pair_scale_aux k f _ _ w Hk (Nat.le_refl _)). destruct (pair_steps f (bisect (l :: cl)) w); cbn [rbind]; [apply IH|reflexivity].
Qed.
