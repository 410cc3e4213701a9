(** * Proofs for capm_return on data that are not DataFrames (C111, C112) *)
From Coq Require Import ZArith String List Bool Reals Lia.
From Verif Require Import Num Py PyLemmas MFrame MBase MHRP MReturns MRisk MRisk2 MArray SArray PReturns PReturns2 PReturns3 PArray.
Import ListNotations.
Local Open Scope R_scope.
Local Notation len := List.length.

Lemma label_eqb_eq : forall a b, label_eqb a b = true -> a = b.
Proof. intros a b H. destruct (label_eqb_spec a b); congruence. Qed.
Lemma position_at : forall C i t, NoDup C -> nth_error C i = Some t -> position t C = Some i.
Proof.
  induction C as [|c C IH]; intros [|i] t ND H; cbn [nth_error] in H; try discriminate.
  - injection H as <-. cbn [position]. rewrite label_eqb_refl. reflexivity.
  - cbn [position]. inversion ND as [|? ? N1 N2]. destruct (label_eqb t c) eqn:E.
    + apply label_eqb_eq in E. subst t. apply nth_error_In in H. contradiction.
    + rewrite (IH i t N2 H). reflexivity.
Qed.
Lemma mapM_seq : forall {X Y} (f : X -> res Y) g C a, (forall i t, nth_error C i = Some t -> f t = g (a + i)%nat) -> mapM f C = mapM g (seq a (len C)).
Proof.
  induction C as [|c C IH]; intros a H; [reflexivity|]. cbn [mapM List.length seq]. rewrite (H O c eq_refl), Nat.add_0_r.
  rewrite (IH (S a)); [reflexivity|]. intros i t E. rewrite (H (S i) t E). f_equal. lia.
Qed.
Lemma nth_error_map_some : forall {X Y} (h : X -> Y) l i x, nth_error l i = Some x -> nth_error (map h l) i = Some (h x).
Proof. intros X Y h l. induction l as [|a l IH]; intros [|i] x H; cbn in *; try discriminate; [injection H as <-; reflexivity|auto]. Qed.
Lemma loc_cov : forall f i j t u, NoDup (f_cols f) -> nth_error (f_cols f) i = Some t -> nth_error (f_cols f) j = Some u ->
  loc (frame_cov f) t u = Ok (pair_cov (column (f_rows f) i) (column (f_rows f) j)).
Proof.
  intros f i j t u ND Hi Hj. unfold loc, frame_cov, pairwise. cbn [f_index f_cols f_rows].
  rewrite (position_at _ i t ND Hi), (position_at _ j u ND Hj).
  assert (Li : (i < len (f_cols f))%nat) by (apply nth_error_Some; congruence).
  assert (Lj : (j < len (f_cols f))%nat) by (apply nth_error_Some; congruence).
  assert (S : forall k, (k < len (f_cols f))%nat -> nth_error (columns f) k = Some (column (f_rows f) k)).
  { intros k Hk. unfold columns. apply nth_error_map_some. rewrite nth_error_nth' with (d := O) by (rewrite seq_length; exact Hk). rewrite seq_nth by exact Hk. reflexivity. }
  rewrite (nth_error_map_some _ _ _ _ (S i Li)). rewrite (nth_error_map_some _ _ _ _ (S j Lj)). reflexivity.
Qed.
Lemma filter_mkt : forall cs (b : list (option R)) x, ~ In mkt cs -> len b = len cs ->
  filter (fun tb => negb (label_eqb (fst tb) mkt)) (combine (cs ++ [mkt]) (b ++ [x])) = combine cs b.
Proof.
  induction cs as [|c cs IH]; intros [|y b] x H L; try discriminate L.
  - cbn. rewrite ?label_eqb_refl. reflexivity.
  - cbn [app combine filter fst]. destruct (label_eqb c mkt) eqn:E.
    + apply label_eqb_eq in E. subst. exfalso. apply H. left. reflexivity.
    + cbn [negb]. rewrite IH; [reflexivity| |injection L; auto]. intros I. apply H. right. exact I.
Qed.
Lemma NoDup_snoc : forall (cs : list label) x, NoDup cs -> ~ In x cs -> NoDup (cs ++ [x]).
Proof.
  intros cs x H N. apply NoDup_rev in H. rewrite <- (rev_involutive (cs ++ [x])), rev_app_distr. apply NoDup_rev. cbn. constructor; [|exact H].
  intros I. apply N. apply in_rev. exact I.
Qed.
Lemma last_split : forall {X} (l : list X) n, len l = S n -> exists b x, l = b ++ [x] /\ len b = n.
Proof.
  intros X l n H. destruct (exists_last (l := l)) as [b [x E]]; [destruct l; discriminate|]. exists b, x. split; [exact E|].
  subst. rewrite app_length in H. cbn in H. lia.
Qed.
(** the estimates in terms of positions *)
Definition estimates_at (rows : list (list (option R))) (n : nat) (rf : R) (comp : bool) (fr : R) : res (bool * list (option R)) :=
  do betas <- mapM (fun i => div_cell (pair_cov (column rows i) (column rows n)) (pair_cov (column rows n) (column rows n))) (seq 0 (S n)) ;
  do m <- (if comp then cagr fr (column rows n) else Ok (arithmetic fr (column rows n))) ;
  Ok (existsb gap (map (column rows) (seq 0 (S n))),
      map (fun b => match b, m with Some b', Some m' => Some (rf + b' * (m' - rf)) | _, _ => None end) (removelast betas)).
Lemma map_combine_snd : forall {X Y Z} (h : Y -> Z) (l : list X) (m : list Y), map (fun tb => (fst tb, h (snd tb))) (combine l m) = combine l (map h m).
Proof. intros X Y Z h. induction l as [|a l IH]; intros [|b m]; cbn [combine map fst snd]; try reflexivity. rewrite IH. reflexivity. Qed.
Lemma estimate_at : forall ix cs rows rf comp fr, NoDup cs -> ~ In mkt cs ->
  capm_estimate (mkFrame ix (cs ++ [mkt]) rows) rf comp fr =
  do p <- estimates_at rows (len cs) rf comp fr ; Ok (fst p, combine cs (snd p)).
Proof.
  intros ix cs rows rf comp fr ND N. pose proof (NoDup_snoc cs mkt ND N) as ND1.
  set (F := mkFrame ix (cs ++ [mkt]) rows). assert (E0 : nth_error (f_cols F) (len cs) = Some mkt).
  { unfold F. cbn [f_cols]. rewrite nth_error_app2 by lia. rewrite Nat.sub_diag. reflexivity. }
  unfold capm_estimate, estimates_at. cbv zeta. rewrite (loc_cov F (len cs) (len cs) mkt mkt ND1 E0 E0). cbn [rbind].
  change (f_index (frame_cov F)) with (cs ++ [mkt]).
  rewrite (mapM_seq _ (fun i => div_cell (pair_cov (column rows i) (column rows (len cs))) (pair_cov (column rows (len cs)) (column rows (len cs)))) (cs ++ [mkt]) 0).
  2:{ intros i t E. rewrite (loc_cov F i (len cs) t mkt ND1 E E0). reflexivity. }
  rewrite app_length. cbn [List.length]. rewrite Nat.add_1_r.
  destruct (mapM _ (seq 0 (S (len cs)))) as [betas|e] eqn:E; cbn [rbind]; [|reflexivity].
  apply mapM_length in E. rewrite seq_length in E. destruct (last_split betas _ E) as [b [x [-> L]]].
  change (f_cols F) with (cs ++ [mkt]). change (f_rows F) with rows. rewrite (position_at _ _ _ ND1 E0).
  rewrite removelast_last. rewrite filter_mkt by assumption. unfold check_returns, columns. change (f_cols F) with (cs ++ [mkt]). change (f_rows F) with rows.
  rewrite app_length. cbn [List.length]. rewrite Nat.add_1_r.
  destruct comp.
  - destruct (cagr fr (column rows (len cs))) as [m|]; cbn [rbind]; [|reflexivity]. cbn [fst snd]. rewrite <- map_combine_snd. reflexivity.
  - cbn [rbind fst snd]. rewrite <- map_combine_snd. reflexivity.
Qed.
Lemma estimates_length : forall rows n rf comp fr b v, estimates_at rows n rf comp fr = Ok (b, v) -> len v = n.
Proof.
  intros rows n rf comp fr b v H. unfold estimates_at in H. destruct (mapM _ (seq 0 (S n))) as [betas|] eqn:E; [|discriminate]. cbn [rbind] in H.
  destruct (if comp then _ else _) as [m|]; [|discriminate]. cbn [rbind] in H. injection H as _ <-. rewrite map_length.
  apply mapM_length in E. rewrite seq_length in E. destruct (last_split betas _ E) as [b' [x [-> L]]]. rewrite removelast_last. exact L.
Qed.
Lemma estimate_same : forall ix ix' cs cs' rows rf comp fr, len cs = len cs' -> NoDup cs -> ~ In mkt cs -> NoDup cs' -> ~ In mkt cs' ->
  same_estimates cs cs' (capm_estimate (mkFrame ix (cs ++ [mkt]) rows) rf comp fr) (capm_estimate (mkFrame ix' (cs' ++ [mkt]) rows) rf comp fr).
Proof.
  intros ix ix' cs cs' rows rf comp fr L D N D' N'. rewrite !estimate_at by assumption. rewrite <- L.
  destruct (estimates_at rows (len cs) rf comp fr) as [[b v]|e] eqn:E; cbn [rbind]; [|reflexivity]. apply estimates_length in E.
  cbn [fst snd]. apply labelled; congruence.
Qed.

Theorem capm_default_same : forall f g rd rf comp fr log, same_table f g ->
  NoDup (f_cols f) -> ~ In mkt (f_cols f) -> NoDup (f_cols g) -> ~ In mkt (f_cols g) ->
  same_estimates (f_cols f) (f_cols g) (snd (capm_return f None rd rf comp fr log)) (snd (capm_return g None rd rf comp fr log)).
Proof.
  intros f g rd rf comp fr log H D N D' N'. pose proof (get_same f g rd log H) as S. unfold capm_return. cbn [snd].
  fold (get_returns f rd log). fold (get_returns g rd log).
  destruct (get_returns f rd log) as [a|e], (get_returns g rd log) as [b|e']; cbn [same_tables] in S; try contradiction; cbn [rbind]; [|exact S].
  destruct S as [S [Ef Eg]]. unfold set_column. rewrite Ef, Eg, !position_notin by assumption. rewrite (proj1 S).
  apply estimate_same; try assumption. exact (proj1 (proj2 H)).
Qed.

(** ** The market table *)
Definition lefts {X} (k : list ((label * label) * X)) : list (label * X) := map (fun t => (fst (fst t), snd t)) k.
Definition rights {X} (k : list ((label * label) * X)) : list (label * X) := map (fun t => (snd (fst t), snd t)) k.
Lemma lefts_combine : forall {X} ix ix' (x : list X), len ix = len x -> len ix' = len x -> lefts (combine (combine ix ix') x) = combine ix x.
Proof.
  intros X. induction ix as [|a ix IH]; intros [|b ix'] [|r x] H H'; try discriminate H; try discriminate H'; [reflexivity|].
  unfold lefts in *. cbn [combine map fst snd]. rewrite IH; [reflexivity|injection H; auto|injection H'; auto].
Qed.
Lemma rights_combine : forall {X} ix ix' (x : list X), len ix = len x -> len ix' = len x -> rights (combine (combine ix ix') x) = combine ix' x.
Proof.
  intros X. induction ix as [|a ix IH]; intros [|b ix'] [|r x] H H'; try discriminate H; try discriminate H'; [reflexivity|].
  unfold rights in *. cbn [combine map fst snd]. rewrite IH; [reflexivity|injection H; auto|injection H'; auto].
Qed.
Lemma filter_lefts : forall {X} (h : X -> bool) (k : list ((label * label) * X)),
  filter (fun ir => h (snd ir)) (lefts k) = lefts (filter (fun t => h (snd t)) k) /\
  filter (fun ir => h (snd ir)) (rights k) = rights (filter (fun t => h (snd t)) k).
Proof.
  intros X h. induction k as [|[[a b] x] k [IH1 IH2]]; [split; reflexivity|]. unfold lefts, rights in *. cbn [map filter fst snd].
  rewrite IH1, IH2. destruct (h x); split; reflexivity.
Qed.
Definition alike {X Y} (k : list ((label * label) * X)) (q : list ((label * label) * Y)) : Prop :=
  forall t u, In t k -> In u q -> label_eqb (fst (fst t)) (fst (fst u)) = label_eqb (snd (fst t)) (snd (fst u)).
Lemma matches_alike : forall {Y} a b (q : list ((label * label) * Y)), (forall u, In u q -> label_eqb a (fst (fst u)) = label_eqb b (snd (fst u))) ->
  map snd (filter (fun mr => label_eqb a (fst mr)) (lefts q)) = map snd (filter (fun mr => label_eqb b (fst mr)) (rights q)).
Proof.
  intros Y a b. induction q as [|[[c d] y] q IH]; intros H; [reflexivity|]. unfold lefts, rights in *. cbn [map filter fst snd].
  pose proof (H ((c, d), y) (or_introl eq_refl)) as E. cbn [fst snd] in E. rewrite E.
  assert (IH' := IH (fun u I => H u (or_intror I))). destruct (label_eqb b d); cbn [map snd]; rewrite IH'; reflexivity.
Qed.
Definition joined_one (l : label) (r : list (option R)) (ms : list (label * list (option R))) : list (label * list (option R)) :=
  match ms with [] => [(l, r ++ [None])] | m0 :: ms0 => map (fun mr => (l, r ++ snd mr)) (m0 :: ms0) end.
Definition joined_rows (k : list (label * list (option R))) (q : list (label * list (option R))) : list (label * list (option R)) :=
  flat_map (fun ir => joined_one (fst ir) (snd ir) (filter (fun mr => label_eqb (fst ir) (fst mr)) q)) k.
Lemma join_rows_map : forall l r ms, map snd (joined_one l r ms) = match map snd ms with [] => [r ++ [None]] | vs => map (fun v => r ++ v) vs end.
Proof. intros l r [|m ms]; [reflexivity|]. unfold joined_one. rewrite map_map. cbn [map]. rewrite map_map. reflexivity. Qed.
Lemma joined_alike : forall k q, alike k q -> map snd (joined_rows (lefts k) (lefts q)) = map snd (joined_rows (rights k) (rights q)).
Proof.
  intros k q. unfold joined_rows. induction k as [|[[a b] r] k IH]; intros H; [reflexivity|].
  change (lefts (((a, b), r) :: k)) with ((a, r) :: lefts k). change (rights (((a, b), r) :: k)) with ((b, r) :: rights k).
  cbn [flat_map]. rewrite !map_app. f_equal.
  - cbn [fst snd]. rewrite !join_rows_map. rewrite (matches_alike a b q); [reflexivity|].
    intros u I. exact (H ((a, b), r) u (or_introl eq_refl) I).
  - apply IH. intros t u I J. exact (H t u (or_intror I) J).
Qed.
Lemma aligned_combine : forall {X Y} ix jx ix' jx' (x : list X) (y : list Y), aligned_alike ix jx ix' jx' -> alike (combine (combine ix ix') x) (combine (combine jx jx') y).
Proof.
  intros X Y ix jx ix' jx' x y H [[a a'] r] [[b b'] s] I J. cbn [fst snd].
  apply in_combine_l in I. apply in_combine_l in J. apply In_nth_error in I. apply In_nth_error in J. destruct I as [i I], J as [j J].
  assert (Q : forall (l l' : list label) n p p', nth_error (combine l l') n = Some (p, p') -> nth_error l n = Some p /\ nth_error l' n = Some p').
  { induction l as [|z l IH]; intros [|z' l'] [|n] p p' E; cbn in E; try discriminate; [injection E as <- <-; split; reflexivity|]. cbn. apply IH. exact E. }
  apply Q in I. apply Q in J. destruct I as [I1 I2], J as [J1 J2]. specialize (H i j a b a' b' I1 J1 I2 J2).
  destruct (label_eqb a b) eqn:E, (label_eqb a' b') eqn:E'; try reflexivity; exfalso.
  - apply label_eqb_eq in E. apply H in E. subst. rewrite label_eqb_refl in E'. discriminate.
  - apply label_eqb_eq in E'. apply H in E'. subst. rewrite label_eqb_refl in E. discriminate.
Qed.
Lemma alike_filter : forall {X Y} h g (k : list ((label * label) * X)) (q : list ((label * label) * Y)), alike k q -> alike (filter h k) (filter g q).
Proof. intros X Y h g k q H t u I J. apply filter_In in I. apply filter_In in J. apply H; tauto. Qed.
Lemma combine_map_pair : forall {X Y} (l : list (X * Y)), combine (map fst l) (map snd l) = l.
Proof. induction l as [|[a b] l IH]; [reflexivity|]. cbn. rewrite IH. reflexivity. Qed.
Lemma join_is : forall ix cs rows jx cj q, join_left (mkFrame ix cs rows) (mkFrame jx cj q) =
  if existsb (label_eqb mkt) cs then Err ValueError
  else Ok (mkFrame (map fst (joined_rows (combine ix rows) (combine jx q))) (cs ++ cj) (map snd (joined_rows (combine ix rows) (combine jx q)))).
Proof. reflexivity. Qed.
Lemma no_mkt : forall cs, ~ In mkt cs -> existsb (label_eqb mkt) cs = false.
Proof.
  intros cs H. destruct (existsb _ cs) eqn:E; [|reflexivity]. exfalso. apply H. apply existsb_exists in E. destruct E as [l [I E]].
  apply label_eqb_eq in E. subst. exact I.
Qed.

Theorem capm_market_same : forall f g m n rd rf comp fr log, same_table f g -> same_table m n ->
  aligned_alike (f_index f) (f_index m) (f_index g) (f_index n) ->
  NoDup (f_cols f) -> ~ In mkt (f_cols f) -> NoDup (f_cols g) -> ~ In mkt (f_cols g) ->
  same_estimates (f_cols f) (f_cols g) (snd (capm_return f (Some m) rd rf comp fr log)) (snd (capm_return g (Some n) rd rf comp fr log)).
Proof.
  intros [ix cs rows] [ix' cs' rows'] [jx cm q] [jx' cn q'] rd rf comp fr log [Hr [Hc [Hf Hg]]] [Kr [Kc [Kf Kg]]] A D N D' N'.
  cbn [f_rows f_cols f_index] in *. subst rows' q'. pose proof (@aligned_combine (list (option R)) (list (option R)) ix jx ix' jx') as AL.
  unfold capm_return. destruct rd.
  - unfold rename_market. cbn [f_cols f_index f_rows]. rewrite <- Kc. destruct (Nat.eqb (len cm) 1); [|reflexivity]. cbn [snd].
    rewrite !join_is, !no_mkt by assumption. cbn [rbind].
    rewrite <- (lefts_combine ix ix' rows), <- (rights_combine ix ix' rows), <- (lefts_combine jx jx' q), <- (rights_combine jx jx' q) by congruence.
    rewrite (joined_alike (combine (combine ix ix') rows) (combine (combine jx jx') q)) by (apply AL; exact A).
    apply estimate_same; assumption.
  - cbn [snd]. rewrite !returns_rows. cbn [f_rows f_index f_cols].
    destruct (rows_of log rows) as [x|e] eqn:Ex; cbn [rbind]; [|reflexivity]. apply rows_of_length in Ex.
    destruct (rows_of log q) as [y|e] eqn:Ey; cbn [rbind]; [|reflexivity]. apply rows_of_length in Ey.
    unfold rename_market, dropna_all. cbn [f_cols f_index f_rows]. rewrite <- Kc. destruct (Nat.eqb (len cm) 1); [|reflexivity]. cbn [rbind].
    rewrite !join_is, !no_mkt by assumption. cbn [rbind]. rewrite !combine_map_pair.
    rewrite <- (lefts_combine ix ix' x), <- (rights_combine ix ix' x), <- (lefts_combine jx jx' y), <- (rights_combine jx jx' y) by congruence.
    pose proof (filter_lefts (fun r : list (option R) => negb (forallb is_none r)) (combine (combine ix ix') x)) as [F1 F2].
    pose proof (filter_lefts (fun r : list (option R) => negb (forallb is_none r)) (combine (combine jx jx') y)) as [F3 F4].
    cbv beta in F1, F2, F3, F4. rewrite F1, F2, F3, F4. rewrite joined_alike by (apply alike_filter; apply AL; exact A).
    apply estimate_same; assumption.
Qed.
