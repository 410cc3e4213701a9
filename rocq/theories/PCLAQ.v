(** * Critical line algorithm: the rational run is the real run *)
From Coq Require Import ZArith QArith Qreals List Bool Reals Lra Lia Permutation.
From Verif Require Import Num Py MBase MCLA MRisk SLin SCLA RBase PyLemmas QRBase Sums Mat PBase SBL PCov1 PCLA4.
Import ListNotations.
Local Open Scope R_scope.

Local Notation QN := QNum.
Definition qv : list Q -> list R := map Q2R.
Definition qm : list (list Q) -> list (list R) := map qv.
Definition qtp (p : tp Q) : tp R := mkTP (qv (t_w p)) (option_map Q2R (t_l p)) (option_map Q2R (t_g p)) (t_f p).
Definition qbase (b : base Q) : base R := mkBase (b_tickers b) (option_map qv (b_weights b)).
(** objects without stored frontier values *)
Definition qcla (o : cla Q) : cla R :=
  mkCLA (qbase (c_base o)) (qv (c_mean o)) (qm (c_cov o)) (qv (c_lb o)) (qv (c_ub o)) (c_int o) (map qtp (c_tp o)) None.

Lemma qv_nth : forall v i, nth i (qv v) 0 = Q2R (nth i v (@n0 Q QN)).
Proof. intros v i. unfold qv. rewrite <- QR_0. apply map_nth. Qed.
Lemma qm_nth : forall M i, nth i (qm M) [] = qv (nth i M []).
Proof. intros M i. unfold qm. change (@nil R) with (qv []). apply map_nth. Qed.
Lemma qv_length : forall v, length (qv v) = length v.
Proof. intros. apply map_length. Qed.
Lemma qm_length : forall v, length (qm v) = length v.
Proof. intros. apply map_length. Qed.
Lemma map2_Q : forall f g, (forall x y, g (Q2R x) (Q2R y) = Q2R (f x y)) -> forall v w, map2 g (qv v) (qv w) = qv (map2 f v w).
Proof. intros f g H. induction v as [|x v IH]; intros [|y w]; cbn; try reflexivity. rewrite H. f_equal. apply IH. Qed.
Lemma map_Q : forall f g, (forall x, g (Q2R x) = Q2R (f x)) -> forall v, map g (qv v) = qv (map f v).
Proof. intros f g H v. unfold qv. rewrite !map_map. apply map_ext. exact H. Qed.
Lemma vsum_Q : forall v, vsum (qv v) = Q2R (@vsum Q QN v).
Proof. apply vsum_Q2R. Qed.
Lemma dot_Q : forall v w, dot (qv v) (qv w) = Q2R (@dot Q QN v w).
Proof. intros v w. unfold dot. rewrite (map2_Q (@nmul Q QN)); [apply vsum_Q|]. intros x y. symmetry. apply QR_mul. Qed.
Lemma matvec_Q : forall M v, matvec (qm M) (qv v) = qv (@matvec Q QN M v).
Proof. intros M v. unfold matvec, qm. rewrite map_map. symmetry. unfold qv at 1. rewrite map_map. apply map_ext. intros r. symmetry. apply dot_Q. Qed.
Lemma quad_Q : forall M v, quad (qm M) (qv v) = Q2R (@quad Q QN M v).
Proof. intros M v. unfold quad. rewrite matvec_Q. apply dot_Q. Qed.
Lemma pick_Q : forall v X, pick (qv v) X = qv (@pick Q QN v X).
Proof. intros v X. unfold pick. symmetry. unfold qv at 1. rewrite map_map. apply map_ext. intros i. symmetry. apply qv_nth. Qed.
Lemma reduce_Q : forall M X Y, reduce (qm M) X Y = option_map qm (@reduce Q QN M X Y).
Proof.
  intros M [|i X] [|j Y]; try reflexivity. unfold reduce. cbn [option_map]. f_equal. symmetry. unfold qm at 1. rewrite map_map. apply map_ext. intros a. unfold qv at 1. rewrite map_map. apply map_ext.
  intros b. rewrite qm_nth. symmetry. apply qv_nth.
Qed.
Lemma reduce_col_Q : forall v X, reduce_col (qv v) X = option_map qv (@reduce_col Q QN v X).
Proof. intros v [|i X]; [reflexivity|]. unfold reduce_col. cbn [option_map]. f_equal. apply pick_Q. Qed.
Lemma mat_or_empty_Q : forall m, mat_or_empty (option_map qm m) = qm (mat_or_empty m).
Proof. intros [m|]; reflexivity. Qed.
Lemma col_Q : forall j M, map (fun r => nth j r (@n0 R RNum)) (qm M) = qv (map (fun r => nth j r (@n0 Q QN)) M).
Proof. intros j M. unfold qm. rewrite map_map. symmetry. unfold qv at 1. rewrite map_map. apply map_ext. intros r. symmetry. apply qv_nth. Qed.
Lemma colsums_Q : forall k P, colsums k (qm P) = qv (@colsums Q QN k P).
Proof. intros k P. unfold colsums. symmetry. unfold qv at 1. rewrite map_map. apply map_ext. intros j. rewrite col_Q. symmetry. apply vsum_Q. Qed.
Lemma map_repeat : forall {X Y} (f : X -> Y) x k, map f (repeat x k) = repeat (f x) k.
Proof. intros X Y f x. induction k as [|k IH]; cbn; [reflexivity|rewrite IH; reflexivity]. Qed.
Lemma ones_Q : forall k, @ones R RNum k = qv (@ones Q QN k).
Proof. intros k. unfold ones, qv. rewrite map_repeat, QR_1. reflexivity. Qed.
Lemma matmul_Q : forall P M, matmul (qm P) (qm M) = qm (@matmul Q QN P M).
Proof.
  intros P M. unfold matmul. symmetry. unfold qm at 1. rewrite map_map. unfold qm at 1. rewrite (map_map qv). apply map_ext. intros r. unfold qv at 1. rewrite map_map.
  replace (length (hd [] (qm M))) with (length (hd [] M)) by (destruct M; [reflexivity|cbn; symmetry; apply qv_length]). apply map_ext. intros j.
  rewrite col_Q. symmetry. apply dot_Q.
Qed.
Lemma zero_Q : forall x, Q2R x = 0 <-> @neqb Q QN x (@n0 Q QN) = true.
Proof. intros x. rewrite <- QR_eqb, QR_0, Reqb_true. tauto. Qed.

Definition qcw (r : list Q * Q) : list R * R := (qv (fst r), Q2R (snd r)).
Lemma compute_w_Q : forall P FB m wB l,
  compute_w (qm P) (option_map qm FB) (qv m) (option_map qv wB) (Q2R l) = qmap qcw (@compute_w Q QN P FB m wB l).
Proof.
  intros P FB m wB l. unfold compute_w. rewrite qv_length, !colsums_Q, ones_Q, !dot_Q, !matvec_Q. set (g1 := @dot Q QN _ m). set (g2 := @dot Q QN _ (@ones Q QN _)).
  runfold. change (@n0 R RNum) with 0. rewrite <- QR_0, QR_eqb. destruct (@neqb Q QN g2 (@n0 Q QN)) eqn:E; [reflexivity|].
  assert (H : Q2R g2 <> 0) by (intros C; apply zero_Q in C; congruence).
  assert (Hs : forall c v, map (fun a => Q2R c * a) (qv v) = qv (map (fun a => @nmul Q QN c a) v)) by (intros c v; apply map_Q; intros; symmetry; apply QR_mul).
  assert (Ha : forall v w, map2 (fun a b => a + b) (qv v) (qv w) = qv (map2 (fun a b => @nadd Q QN a b) v w)) by (intros v w; apply map2_Q; intros; symmetry; apply QR_add).
  destruct wB as [wb|]; cbn [option_map qmap].
  - rewrite mat_or_empty_Q, matmul_Q, matvec_Q, !vsum_Q.
    rewrite <- QR_opp, <- QR_mul, <- QR_div by exact H. change (@n1 R RNum) with 1. rewrite <- QR_1, <- QR_sub, <- QR_add, <- QR_div by exact H. rewrite <- QR_add, !Hs.
    rewrite (map2_Q (fun a b => @nadd Q QN (@nopp Q QN a) b)) by (intros; rewrite QR_add, QR_opp; reflexivity). rewrite Ha. reflexivity.
  - rewrite <- QR_opp, <- QR_mul, <- QR_div by exact H. change (@n1 R RNum) with 1. rewrite <- QR_1, <- QR_div by exact H. rewrite <- QR_add, !Hs, Ha. reflexivity.
Qed.
Definition qba (b : @bound_arg Q) : @bound_arg R := match b with BothBounds lo hi => BothBounds (Q2R lo) (Q2R hi) | OneBound b => OneBound (Q2R b) end.
Definition qpair (x : Q * Q) : R * R := (Q2R (fst x), Q2R (snd x)).
Lemma compute_lambda_Q : forall P FB m wB i bi,
  compute_lambda (qm P) (option_map qm FB) (qv m) (option_map qv wB) i (qba bi) = option_map qpair (@compute_lambda Q QN P FB m wB i bi).
Proof.
  intros P FB m wB i bi. unfold compute_lambda. rewrite qv_length, !colsums_Q, ones_Q, !dot_Q, !matvec_Q. change (@n0 R RNum) with 0. rewrite !qv_nth.
  set (c1 := @dot Q QN _ (@ones Q QN _)). set (c3 := @dot Q QN _ m). set (c2 := nth i (matvec P m) _). set (c4 := nth i (matvec P (ones _)) _).
  runfold. rewrite <- QR_opp, <- !QR_mul, <- QR_add. set (c := @nadd Q QN _ _). rewrite <- QR_0, QR_eqb. destruct (@neqb Q QN c (@n0 Q QN)) eqn:E; [reflexivity|].
  assert (H : Q2R c <> 0) by (intros C; apply zero_Q in C; congruence).
  assert (Hb : match qba bi with BothBounds lo hi => compute_bi (Q2R c) lo hi | OneBound b => b end =
               Q2R match bi with BothBounds lo hi => @compute_bi Q QN c lo hi | OneBound b => b end).
  { destruct bi as [lo hi|b]; [|reflexivity]. cbn [qba]. unfold compute_bi. runfold. change (@n0 R RNum) with 0. rewrite <- QR_0, QR_ltb. destruct (@nltb Q QN (@n0 Q QN) c); reflexivity. }
  rewrite Hb. set (b := match bi with BothBounds _ _ => _ | OneBound _ => _ end).
  destruct wB as [wb|]; cbn [option_map]; unfold qpair; cbn [fst snd].
  - rewrite mat_or_empty_Q, matmul_Q, matvec_Q, !vsum_Q. rewrite QR_0, !qv_nth. runfold. rewrite <- QR_1, <- QR_sub, <- !QR_add, <- !QR_mul, <- QR_sub, <- QR_div by exact H. reflexivity.
  - rewrite <- QR_mul, <- QR_sub, <- QR_div by exact H. reflexivity.
Qed.

(** ** The loop *)
Definition qmats (m : list (list Q) * option (list (list Q)) * list Q * option (list Q)) : list (list R) * option (list (list R)) * list R * option (list R) :=
  let '(P, FB, mF, wB) := m in (qm P, option_map qm FB, qv mF, option_map qv wB).
(** [y] is what [x] becomes, unless [x] reports a failed inverse *)
Definition follows {X Y} (h : X -> Y) (x : res X) (y : res Y) : Prop := x <> Err LinAlgError -> y = qmap h x.
Lemma follows_bind : forall {X Y X' Y'} (h : X -> Y) (h' : X' -> Y') x y f g, follows h x y -> (forall a, x = Ok a -> follows h' (f a) (g (h a))) ->
  follows h' (rbind x f) (rbind y g).
Proof.
  intros X Y X' Y' h h' x y f g H1 H2 Hne. destruct x as [a|e]; cbn [rbind] in *.
  - rewrite (H1 ltac:(discriminate)). cbn [qmap rbind]. apply (H2 a eq_refl), Hne.
  - rewrite (H1 ltac:(intros C; injection C as ->; congruence)). reflexivity.
Qed.
Lemma follows_refl : forall {X Y} (h : X -> Y) x, follows h x (qmap h x).
Proof. intros X Y h x _. reflexivity. Qed.

Section Loop.
  Variables (inv : list (list R) -> res (list (list R))) (invq : list (list Q) -> res (list (list Q))) (ord : list nat -> list nat).
  Hypothesis Hinv : forall M, follows qm (invq M) (inv (qm M)).
  Variables (mean : list Q) (cov : list (list Q)) (lb ub : list Q).

  Lemma matrices_Q : forall f wl, follows qmats (@matrices Q QN invq ord mean cov f wl) (matrices inv ord (qv mean) (qm cov) f (qv wl)).
  Proof.
    intros f wl. unfold matrices. rewrite reduce_Q, mat_or_empty_Q. apply (follows_bind qm); [apply Hinv|]. intros P _ _.
    unfold size. rewrite qv_length, reduce_Q, pick_Q, reduce_col_Q. reflexivity.
  Qed.
  Lemma above_Q : forall x y, above (option_map Q2R x) (option_map Q2R y) = @above Q QN x y.
  Proof. intros [x|] [y|]; try reflexivity. cbn [option_map above]. apply QR_ltb. Qed.
  Definition qin (x : Q * nat * Q) : R * nat * R := let '(l, i, b) := x in (Q2R l, i, Q2R b).
  Definition qout (x : Q * nat) : R * nat := (Q2R (fst x), snd x).
  Lemma case_a_Q : forall P FB m wB fs j best,
    case_a (qv lb) (qv ub) (qm P) (option_map qm FB) (qv m) (option_map qv wB) fs j (option_map qin best) = option_map qin (@case_a Q QN lb ub P FB m wB fs j best).
  Proof.
    intros P FB m wB. induction fs as [|i fs IH]; intros j best; [reflexivity|]. cbn [case_a]. change (@n0 R RNum) with 0. rewrite !qv_nth.
    change (BothBounds (Q2R (nth i lb (@n0 Q QN))) (Q2R (nth i ub (@n0 Q QN)))) with (qba (BothBounds (nth i lb (@n0 Q QN)) (nth i ub (@n0 Q QN)))). rewrite compute_lambda_Q.
    rewrite <- IH. f_equal. destruct (@compute_lambda Q QN P FB m wB j _) as [[l b]|]; cbn [option_map qpair]; [|reflexivity]. cbn [fst snd].
    change (Some (Q2R l)) with (option_map Q2R (Some l)).
    replace (option_map (fun x : R * nat * R => fst (fst x)) (option_map qin best)) with (option_map Q2R (option_map (fun x : Q * nat * Q => fst (fst x)) best)) by (destruct best as [[[? ?] ?]|]; reflexivity).
    rewrite above_Q. destruct (above _ _); reflexivity.
  Qed.
  Lemma bound_free_Q : forall f wl, follows (option_map qin) (@bound_free Q QN invq ord mean cov lb ub f wl) (bound_free inv ord (qv mean) (qm cov) (qv lb) (qv ub) f (qv wl)).
  Proof.
    intros f wl. unfold bound_free. destruct (1 <? length f)%nat; [|apply follows_refl with (x := Ok (@None (Q * nat * Q)))].
    apply (follows_bind qmats); [apply matrices_Q|]. intros [[[P FB] mF] wB] _ _. cbn [qmats qmap]. f_equal. apply (case_a_Q P FB mF wB f 0 None).
  Qed.
  Lemma case_b_Q : forall f wl last bs best,
    follows (option_map qout) (@case_b Q QN invq ord mean cov f wl last bs best) (case_b inv ord (qv mean) (qm cov) f (qv wl) (option_map Q2R last) bs (option_map qout best)).
  Proof.
    intros f wl last. induction bs as [|i bs IH]; intros best; [apply (follows_refl (option_map qout) (Ok best))|]. cbn [case_b].
    apply (follows_bind qmats); [apply matrices_Q|]. intros [[[P FB] mF] wB] _. cbn [qmats]. change (@n0 R RNum) with 0. rewrite qv_nth, qv_length.
    change (OneBound (Q2R (nth i wl (@n0 Q QN)))) with (qba (OneBound (nth i wl (@n0 Q QN)))). rewrite compute_lambda_Q.
    destruct (@compute_lambda Q QN P FB mF wB _ _) as [[l b]|]; cbn [option_map qpair fst snd]; [|apply (follows_refl (option_map qout) (Err TypeError))].
    change (Some (Q2R l)) with (option_map Q2R (Some l)).
    replace (option_map fst (option_map qout best)) with (option_map Q2R (option_map fst best)) by (destruct best as [[? ?]|]; reflexivity). rewrite above_Q.
    replace (match option_map Q2R last with None => true | Some x => @nltb R RNum (Q2R l) x end) with (match last with None => true | Some x => @nltb Q QN l x end).
    2:{ destruct last as [x|]; [|reflexivity]. cbn [option_map]. symmetry. apply QR_ltb. }
    destruct (_ && _); [apply (IH (Some (l, i)))|apply IH].
  Qed.
  Lemma free_bound_Q : forall f wl last, follows (option_map qout) (@free_bound Q QN invq ord mean cov f wl last) (free_bound inv ord (qv mean) (qm cov) f (qv wl) (option_map Q2R last)).
  Proof.
    intros f wl last. unfold free_bound, size. rewrite qv_length. destruct (_ <? _)%nat; [apply (case_b_Q f wl last _ None)|apply (follows_refl (option_map qout) (Ok None))].
  Qed.
  Definition qev (e : event Q) : event R := match e with EvEnd => EvEnd | EvIn l i b => EvIn (Q2R l) i (Q2R b) | EvOut l i => EvOut (Q2R l) i end.
  Lemma non_Q : forall l, none_or_negative (option_map Q2R l) = @none_or_negative Q QN l.
  Proof. intros [x|]; [|reflexivity]. cbn [option_map none_or_negative]. change (@n0 R RNum) with 0. rewrite <- QR_0. apply QR_ltb. Qed.
  Lemma next_event_Q : forall li lo, next_event (option_map qin li) (option_map qout lo) = qmap qev (@next_event Q QN li lo).
  Proof.
    intros li lo. unfold next_event.
    replace (option_map (fun x : R * nat * R => fst (fst x)) (option_map qin li)) with (option_map Q2R (option_map (fun x : Q * nat * Q => fst (fst x)) li)) by (destruct li as [[[? ?] ?]|]; reflexivity).
    replace (option_map fst (option_map qout lo)) with (option_map Q2R (option_map fst lo)) by (destruct lo as [[? ?]|]; reflexivity).
    rewrite !non_Q, above_Q. destruct (_ && _); [reflexivity|]. destruct (above _ _); [destruct li as [[[? ?] ?]|]|destruct lo as [[? ?]|]]; reflexivity.
  Qed.
  Lemma put_Q : forall isint i v w, put isint i (Q2R v) (qv w) = qv (@put Q QN isint i v w).
  Proof.
    intros isint i v w. unfold put, stored. destruct isint; [|apply list_set_map].
    change (@ntrunc R RNum (Q2R v)) with (Rtrunc (Q2R v)). rewrite QR_trunc. change (@nofZ R RNum (ntrunc v)) with (IZR (@ntrunc Q QN v)). rewrite <- QR_ofZ. apply list_set_map.
  Qed.
  Lemma put_all_Q : forall isint f wF w, put_all isint f (qv wF) (qv w) = qv (@put_all Q QN isint f wF w).
  Proof. intros isint. induction f as [|i f IH]; intros [|x wF] w; cbn [put_all qv map]; try reflexivity. rewrite put_Q. apply IH. Qed.
  Definition qstep (x : list nat * list Q * tp Q) : list nat * list R * tp R := let '(f, w, p) := x in (f, qv w, qtp p).
  Lemma step_Q : forall isint f w wl last,
    follows qstep (@step Q QN invq ord mean cov lb ub isint f w wl last) (step inv ord (qv mean) (qm cov) (qv lb) (qv ub) isint f (qv w) (qv wl) (option_map Q2R last)).
  Proof.
    intros isint f w wl last. unfold step. apply (follows_bind (option_map qin)); [apply bound_free_Q|]. intros li _.
    apply (follows_bind (option_map qout)); [apply free_bound_Q|]. intros lo _.
    apply (follows_bind qev); [rewrite next_event_Q; apply follows_refl|]. intros ev _.
    assert (E : after_event isint (qev ev) f (qv w) = let '(f1, w1, l) := @after_event Q QN isint ev f w in (f1, qv w1, Q2R l)).
    { destruct ev; cbn [qev after_event]; [rewrite QR_0|rewrite put_Q|]; reflexivity. }
    rewrite E. clear E. destruct (@after_event Q QN isint ev f w) as [[f1 w1] l].
    apply (follows_bind qmats); [apply matrices_Q|]. intros [[[P FB] mF] wB] _. cbn [qmats].
    match goal with |- context [rbind (compute_w (qm P) _ ?M _ _)] => assert (Em : M = qv match ev with EvEnd => repeat (@n0 Q QN) (length mF) | _ => mF end) end.
    { destruct ev; cbn [qev]; try reflexivity. rewrite qv_length. unfold qv. rewrite map_repeat, QR_0. reflexivity. }
    rewrite Em. clear Em. apply (follows_bind qcw); [rewrite compute_w_Q; apply follows_refl|]. intros [wF g] _ _. cbn [qcw fst snd qmap qstep]. rewrite put_all_Q. reflexivity.
  Qed.
  Lemma loop_Q : forall isint fuel f w last pts r, @loop Q QN invq ord mean cov lb ub isint fuel f w last pts = r -> snd r <> Err LinAlgError ->
    loop inv ord (qv mean) (qm cov) (qv lb) (qv ub) isint fuel f (qv w) (option_map Q2R last) (map qtp pts) = (map qtp (fst r), snd r).
  Proof.
    intros isint. induction fuel as [|fuel IH]; intros f w last pts r E Hr; [subst r; reflexivity|]. cbn [loop] in *.
    pose proof (step_Q isint f w w last) as Hs. destruct (@step Q QN invq ord mean cov lb ub isint f w w last) as [[[f' w'] p]|e].
    - rewrite (Hs ltac:(discriminate)). cbn [qmap qstep]. replace (map qtp pts ++ [qtp p]) with (map qtp (pts ++ [p])) by (rewrite map_app; reflexivity).
      cbn [qtp t_l]. destruct (t_l p) as [l|]; cbn [option_map].
      + change (@neqb R RNum (Q2R l) (@n0 R RNum)) with (Reqb (Q2R l) 0). rewrite <- QR_0, QR_eqb. destruct (@neqb Q QN l (@n0 Q QN)); [subst r; reflexivity|].
        apply (IH f' w' (Some l)); assumption.
      + subst r. reflexivity.
    - subst r. cbn [fst snd] in *. rewrite Hs by congruence. reflexivity.
  Qed.
End Loop.

(** ** Start and clean-up *)
Lemma by_mean_Q : forall mean i j, by_mean (qv mean) i j = @by_mean Q QN mean i j.
Proof. intros mean i j. unfold by_mean. change (@n0 R RNum) with 0. rewrite !qv_nth. change (@nltb R RNum) with Rltb. rewrite !QR_ltb. reflexivity. Qed.
Lemma mean_order_Q : forall mean, mean_order (qv mean) = @mean_order Q QN mean.
Proof.
  intros mean. unfold mean_order. rewrite qv_length. rewrite <- (map_id (seq 0 (length mean))) at 1. rewrite (isort_map (fun x => x) (@by_mean Q QN mean)) by apply by_mean_Q. apply map_id.
Qed.
Lemma fill_Q : forall isint order ub fuel i w,
  fill fuel isint order (qv ub) i (qv w) = qmap (fun r => (fst r, qv (snd r))) (@fill Q QN fuel isint order ub i w).
Proof.
  intros isint order ub. induction fuel as [|fuel IH]; intros i w; [reflexivity|]. cbn [fill]. rewrite vsum_Q. change (@n1 R RNum) with 1. rewrite <- QR_1. change (@nltb R RNum) with Rltb. rewrite QR_ltb.
  destruct (@nltb Q QN _ _); [|reflexivity]. destruct (py_index order (i - 1)) as [a|e]; [|reflexivity]. cbn [rbind]. change (@n0 R RNum) with 0. rewrite qv_nth, put_Q. apply IH.
Qed.
Lemma init_algo_Q : forall o, init_algo (qcla o) = qmap (fun r => (fst r, qv (snd r))) (@init_algo Q QN o).
Proof.
  intros o. unfold init_algo, c_n. cbn [qcla c_mean c_int c_ub c_lb]. rewrite mean_order_Q, qv_length, fill_Q.
  destruct (@fill Q QN _ _ _ _ _ _) as [[i w]|e]; [|reflexivity]. cbn [qmap rbind fst snd]. destruct (py_index _ i) as [a|e]; [|reflexivity]. cbn [rbind qmap fst snd].
  change (@n0 R RNum) with 0. rewrite qv_nth, vsum_Q. change (@n1 R RNum) with 1. change (@nsub R RNum) with Rminus. change (@nadd R RNum) with Rplus. rewrite <- QR_1, <- QR_sub, <- QR_add, put_Q. reflexivity.
Qed.
Lemma combine_Q : forall {X Y X' Y'} (f : X -> X') (g : Y -> Y') v w, combine (map f v) (map g w) = map (fun x => (f (fst x), g (snd x))) (combine v w).
Proof. intros X Y X' Y' f g. induction v as [|x v IH]; intros [|y w]; cbn; try reflexivity. rewrite IH. reflexivity. Qed.
Lemma purge_tol_Q : @purge_tol R RNum = Q2R (@purge_tol Q QN).
Proof.
  unfold purge_tol. rewrite QR_div; [rewrite QR_1, QR_ofZ; reflexivity|]. rewrite QR_ofZ. lra.
Qed.
Lemma num_err_Q : forall lb ub tol w, num_err (qv lb) (qv ub) (Q2R tol) (qv w) = @num_err Q QN lb ub tol w.
Proof.
  intros lb ub tol w. unfold num_err. rewrite vsum_Q. change (@n1 R RNum) with 1. change (@nsub R RNum) with Rminus. change (@nopp R RNum) with Ropp. change (@nltb R RNum) with Rltb. rewrite <- QR_1, <- QR_sub.
  assert (Ea : forall x, @nabs R RNum (Q2R x) = Q2R (@nabs Q QN x)).
  { intros x. unfold nabs. change (@n0 R RNum) with 0. change (@nltb R RNum) with Rltb. change (@nopp R RNum) with Ropp. rewrite <- QR_0, QR_ltb, <- QR_opp. destruct (@nltb Q QN x _); reflexivity. }
  rewrite Ea, QR_ltb. destruct (@nltb Q QN tol _); [reflexivity|]. unfold qv. rewrite !combine_Q.
  induction (combine w (combine lb ub)) as [|[v [l u]] c IH]; [reflexivity|]. cbn [map existsb fst snd]. rewrite IH. f_equal. rewrite <- !QR_sub, <- QR_opp, !QR_ltb. reflexivity.
Qed.
Lemma del_at_Q : forall {X Y} (f : X -> Y) i l, del_at i (map f l) = map f (del_at i l).
Proof. intros X Y f i l. unfold del_at. rewrite firstn_map, skipn_map, map_app. reflexivity. Qed.
Lemma purge_num_err_Q : forall lb ub tol pts, purge_num_err (qv lb) (qv ub) (Q2R tol) (map qtp pts) = map qtp (@purge_num_err Q QN lb ub tol pts).
Proof.
  intros lb ub tol pts. unfold purge_num_err. rewrite map_length. generalize (length pts). intros fuel. generalize 0%nat. revert pts.
  induction fuel as [|fuel IH]; intros pts i; [reflexivity|]. cbn [purge_num_err_loop]. rewrite nth_error_map. destruct (nth_error pts i) as [p|]; cbn [option_map]; [|reflexivity].
  cbn [qtp t_w]. rewrite num_err_Q. destruct (num_err _ _ _ _); [rewrite del_at_Q|]; apply IH.
Qed.
Lemma purge_excess_Q : forall mean pts, purge_excess (qv mean) (map qtp pts) = (map qtp (fst (@purge_excess Q QN mean pts)), snd (@purge_excess Q QN mean pts)).
Proof.
  intros mean pts. unfold purge_excess. rewrite map_length. generalize (S (length pts)). intros fuel. generalize 0%nat false. revert pts.
  induction fuel as [|fuel IH]; intros pts i again; [reflexivity|]. cbn [purge_excess_loop]. rewrite map_length. destruct (S _ =? _)%nat; [reflexivity|].
  rewrite nth_error_map. destruct (nth_error pts _) as [p|]; cbn [option_map]; [|reflexivity]. rewrite skipn_map.
  set (j := if again then i else S i).
  assert (E : existsb (fun q : tp R => @nltb R RNum (dot (t_w (qtp p)) (qv mean)) (dot (t_w q) (qv mean))) (map qtp (skipn (S j) pts)) =
              existsb (fun q : tp Q => @nltb Q QN (@dot Q QN (t_w p) mean) (@dot Q QN (t_w q) mean)) (skipn (S j) pts)).
  { induction (skipn (S j) pts) as [|q l IHl]; [reflexivity|]. cbn [map existsb]. rewrite IHl. f_equal. cbn [qtp t_w]. rewrite !dot_Q. apply QR_ltb. }
  rewrite E. clear E; match goal with |- context [if existsb ?a ?b then _ else _] => destruct (existsb a b) end; [rewrite del_at_Q|]; apply IH.
Qed.
Theorem solve_Q : forall inv invq ord fuel o, (forall M, follows qm (invq M) (inv (qm M))) -> c_frontier o = None ->
  snd (@solve Q QN fuel invq ord o) <> Err LinAlgError ->
  solve fuel inv ord (qcla o) = (qcla (fst (@solve Q QN fuel invq ord o)), snd (@solve Q QN fuel invq ord o)).
Proof.
  intros inv invq ord fuel o Hinv Hfr Hne. unfold solve in *. rewrite init_algo_Q.
  destruct (@init_algo Q QN o) as [[f w]|e]; cbn [qmap fst snd] in *; [|reflexivity].
  change [mkTP (qv w) None None f] with (map qtp [mkTP w None None f]). cbn [qcla c_mean c_cov c_lb c_ub c_int]. change (@None R) with (option_map Q2R None).
  destruct (@loop Q QN invq ord _ _ _ _ _ fuel f w None _) as [pts r] eqn:El.
  rewrite (loop_Q inv invq ord Hinv _ _ _ _ _ _ _ _ _ _ _ El).
  - cbn [fst snd]. destruct r as [u|e]; [|reflexivity]. rewrite purge_tol_Q, purge_num_err_Q, purge_excess_Q.
    destruct (@purge_excess Q QN _ _) as [pts2 r2]. reflexivity.
  - cbn [snd]. destruct r; [discriminate|exact Hne].
Qed.

(** ** Rational inverses *)
Definition qeqv (v w : list Q) : bool := (length v =? length w)%nat && forallb (fun x => Qeq_bool (fst x) (snd x)) (combine v w).
Definition qeqm (M N : list (list Q)) : bool := (length M =? length N)%nat && forallb (fun x => qeqv (fst x) (snd x)) (combine M N).
Definition qid (k : nat) : list (list Q) := map (fun i => map (fun j => if Nat.eqb i j then 1%Q else 0%Q) (seq 0 k)) (seq 0 k).
Definition qsquare (k : nat) (M : list (list Q)) : bool := (length M =? k)%nat && forallb (fun r => (length r =? k)%nat) M.
(** a candidate that is checked on both sides *)
Definition checked (cand : list (list Q) -> list (list Q)) (M : list (list Q)) : res (list (list Q)) :=
  let k := length M in let P := cand M in
  if (negb (k =? 0)%nat && qsquare k M && qsquare k P && qeqm (@matmul Q QN M P) (qid k) && qeqm (@matmul Q QN P M) (qid k)) then Ok P else Err LinAlgError.
Lemma qeqv_R : forall v w, qeqv v w = true -> qv v = qv w.
Proof.
  intros v w H. unfold qeqv in H. apply andb_true_iff in H. destruct H as [Hl H]. apply Nat.eqb_eq in Hl. revert w Hl H.
  induction v as [|x v IH]; intros [|y w] Hl H; try discriminate; [reflexivity|]. cbn in H. apply andb_true_iff in H. destruct H as [H1 H2]. cbn [qv map]. f_equal.
  - apply Qeq_eqR, Qeq_bool_eq, H1.
  - apply IH; [cbn in Hl; lia|exact H2].
Qed.
Lemma qeqm_R : forall v w, qeqm v w = true -> qm v = qm w.
Proof.
  intros v w H. unfold qeqm in H. apply andb_true_iff in H. destruct H as [Hl H]. apply Nat.eqb_eq in Hl. revert w Hl H.
  induction v as [|x v IH]; intros [|y w] Hl H; try discriminate; [reflexivity|]. cbn in H. apply andb_true_iff in H. destruct H as [H1 H2]. cbn [qm map]. f_equal.
  - apply qeqv_R, H1.
  - apply IH; [cbn in Hl; lia|exact H2].
Qed.
Lemma qsquare_R : forall k M, qsquare k M = true -> square k (qm M).
Proof.
  intros k M H. unfold qsquare in H. apply andb_true_iff in H. destruct H as [H1 H2]. apply Nat.eqb_eq in H1. rewrite forallb_forall in H2. split; [rewrite qm_length; exact H1|].
  apply Forall_forall. intros r Hr. apply in_map_iff in Hr. destruct Hr as [x [<- Hx]]. rewrite qv_length. apply Nat.eqb_eq, H2, Hx.
Qed.
Lemma qid_vec : forall k x, length x = k -> mat_vec (qm (qid k)) x = x.
Proof.
  intros k x Hx. apply nth_ext0; [rewrite mat_vec_length, qm_length; unfold qid; rewrite map_length, seq_length; auto|]. intros i Hi. rewrite mat_vec_length, qm_length in Hi. unfold qid in Hi. rewrite map_length, seq_length in Hi.
  rewrite mv_nth by (rewrite qm_length; unfold qid; rewrite map_length, seq_length; exact Hi). rewrite qm_nth. unfold qid.
  rewrite nth_indep with (d' := (fun i => map (fun j => if (i =? j)%nat then 1%Q else 0%Q) (seq 0 k)) 0%nat) by (rewrite map_length, seq_length; exact Hi).
  rewrite (map_nth (fun i => map (fun j => if (i =? j)%nat then 1%Q else 0%Q) (seq 0 k))), seq_nth by exact Hi. cbn [Nat.add].
  rewrite (inner_vec k) by (unfold qv; rewrite ?map_length, ?seq_length; auto).
  rewrite (sumn_ext k _ (fun j => (if Nat.eqb j i then 1 else 0) * vec x j)); [apply sumn_delta, Hi|]. intros j Hj. f_equal. unfold vec. rewrite qv_nth.
  rewrite nth_indep with (d' := (fun j => if (i =? j)%nat then 1%Q else 0%Q) 0%nat) by (rewrite map_length, seq_length; exact Hj).
  rewrite (map_nth (fun j => if (i =? j)%nat then 1%Q else 0%Q)), seq_nth by exact Hj. cbn [Nat.add]. rewrite (Nat.eqb_sym j i). destruct (i =? j)%nat; [apply RMicromega.Q2R_1|apply RMicromega.Q2R_0].
Qed.
Lemma checked_follows : forall cand inv, sound_inverse inv -> complete_inverse inv -> forall M, follows qm (checked cand M) (inv (qm M)).
Proof.
  intros cand inv Hs Hc M Hne. unfold checked in *. set (k := length M) in *. set (P := cand M) in *.
  destruct (negb (k =? 0)%nat && qsquare k M && qsquare k P && qeqm (@matmul Q QN M P) (qid k) && qeqm (@matmul Q QN P M) (qid k)) eqn:E; [|congruence]. clear Hne.
  repeat (apply andb_true_iff in E; destruct E as [E ?E]). apply negb_true_iff, Nat.eqb_neq in E. assert (Hk : (0 < k)%nat) by lia.
  apply qsquare_R in E2. apply qsquare_R in E3. apply qeqm_R in E0. apply qeqm_R in E1. rewrite <- matmul_Q in E0, E1.
  assert (HM : forall x, length x = k -> mat_vec (qm M) (mat_vec (qm P) x) = x).
  { intros x Hx. rewrite <- (matmul_vec k k) by (auto; apply E2). rewrite E1, matvec_inner. apply qid_vec, Hx. }
  assert (HP : forall x, length x = k -> mat_vec (qm P) (mat_vec (qm M) x) = x).
  { intros x Hx. rewrite <- (matmul_vec k k) by (auto; apply E3). rewrite E0, matvec_inner. apply qid_vec, Hx. }
  destruct (Hc k (qm M) (qm P) E3 (conj E2 HM)) as [P' EP']. rewrite EP'. cbn [qmap]. f_equal.
  destruct (Hs k (qm M) P' E3 EP') as [HP' HMP']. symmetry.
  assert (Heq : forall x, length x = k -> mat_vec (qm P) x = mat_vec P' x).
  { intros x Hx. rewrite <- (HP (mat_vec P' x)) by (rewrite mat_vec_length; apply HP'). f_equal. symmetry. apply HMP', Hx. }
  apply (nth_ext _ _ [] []); [destruct E2 as [-> _], HP' as [-> _]; reflexivity|]. intros i Hi. assert (Hi' : (i < k)%nat) by (destruct E2 as [HL _]; lia).
  pose proof (square_nth_length k (qm P) i E2 Hi') as L1. pose proof (square_nth_length k P' i HP' Hi') as L2.
  apply nth_ext0; [congruence|]. intros j Hj. assert (Hj' : (j < k)%nat) by lia.
  specialize (Heq (of_fun k (fun m => if Nat.eqb m j then 1 else 0)) (of_fun_length _ _)).
  apply (f_equal (fun v => nth i v 0)) in Heq. rewrite !mv_nth in Heq by (try (destruct HP' as [-> _]; exact Hi'); exact Hi).
  assert (Hrow : forall r, length r = k -> inner r (of_fun k (fun m => if Nat.eqb m j then 1 else 0)) = nth j r 0).
  { intros r Hr. rewrite (inner_vec k) by (auto; apply of_fun_length). rewrite (sumn_ext k _ (fun m => (if Nat.eqb m j then 1 else 0) * vec r m)); [apply sumn_delta, Hj'|].
    intros m Hm. unfold vec at 2. rewrite of_fun_nth by exact Hm. ring. }
  rewrite !Hrow in Heq by assumption. exact Heq.
Qed.

(** ** min_volatility *)
Lemma index_best_Q : forall f g, (forall x y, g (Q2R x) (Q2R y) = f x y) -> forall l, index_best g (qv l) = index_best f l.
Proof.
  intros f g H. assert (Ha : forall l i b v, arg_best g (qv l) i b (Q2R v) = arg_best f l i b v).
  { induction l as [|x l IH]; intros i b v; [reflexivity|]. cbn [qv map arg_best]. rewrite H. destruct (f x v); apply IH. }
  intros [|x l]; [reflexivity|]. cbn [qv map index_best]. f_equal. apply Ha.
Qed.
Definition chosen {A : Type} {N : Num A} (o : cla A) : res (list A) :=
  do k <- index_min (map (fun p => quad (c_cov o) (t_w p)) (c_tp o)) ; do p <- item k (c_tp o) ; Ok (t_w p).
Lemma chosen_Q : forall o, chosen (qcla o) = qmap qv (@chosen Q QN o).
Proof.
  intros o. unfold chosen. cbn [qcla c_cov c_tp]. rewrite map_map.
  replace (map (fun x => quad (qm (c_cov o)) (t_w (qtp x))) (c_tp o)) with (qv (map (fun p => @quad Q QN (c_cov o) (t_w p)) (c_tp o))) by (unfold qv at 1; rewrite map_map; apply map_ext; intros p; symmetry; apply quad_Q).
  unfold index_min. rewrite (index_best_Q (fun x y => @nltb Q QN x y)) by (intros; apply QR_ltb). destruct (index_best _ _) as [k|e]; [|reflexivity]. cbn [rbind].
  unfold item. rewrite nth_error_map. destruct (nth_error (c_tp o) k); reflexivity.
Qed.
Lemma min_vol_chosen : forall {A : Type} {N : Num A} fuel inv ord (o o1 : cla A), ensure fuel inv ord o = (o1, Ok tt) ->
  cla_min_volatility fuel inv ord o = match chosen o1 with Err e => (o1, Err e) | Ok w => (set_cweights w o1, make_output_weights (c_base (set_cweights w o1))) end.
Proof.
  intros A N fuel inv ord o o1 E. unfold cla_min_volatility, chosen. rewrite E. destruct (index_min _) as [k|e]; [|reflexivity]. cbn [rbind]. destruct (item k _); reflexivity.
Qed.
(** Gauss-Jordan elimination without exchanging rows *)
Definition pivot_on (c : nat) (M : list (list Q)) : list (list Q) :=
  let p := map (fun x => @ndiv Q QN x (nth c (nth c M []) 0%Q)) (nth c M []) in
  map (fun ir => if Nat.eqb (fst ir) c then p else map2 (fun x y => @nsub Q QN x (@nmul Q QN (nth c (snd ir) 0%Q) y)) (snd ir) p) (combine (seq 0 (length M)) M).
Definition gauss (M : list (list Q)) : list (list Q) :=
  let k := length M in
  map (skipn k) (fold_left (fun m c => pivot_on c m) (seq 0 k) (map2 (@app Q) M (qid k))).
Definition qinv : list (list Q) -> res (list (list Q)) := checked gauss.

(** ** Checking positive definiteness *)
Fixpoint qchol (n : nat) (A : nat -> nat -> Q) : bool :=
  match n with
  | O => true
  | S m => @nltb Q QN (@n0 Q QN) (A O O) && qchol m (fun i j => @nsub Q QN (A (S i) (S j)) (@ndiv Q QN (@nmul Q QN (A (S i) O) (A (S j) O)) (A O O)))
  end.
Lemma cholesky_ext : forall n A B, (forall i j, A i j = B i j) -> cholesky n A = cholesky n B.
Proof.
  induction n as [|n IH]; intros A B H; [reflexivity|]. cbn [cholesky]. rewrite H. f_equal. apply IH. intros i j. rewrite !H. reflexivity.
Qed.
Lemma qchol_R : forall n A, qchol n A = true -> cholesky n (fun i j => Q2R (A i j)) = true.
Proof.
  induction n as [|n IH]; intros A H; [reflexivity|]. cbn [qchol cholesky] in *. apply andb_true_iff in H. destruct H as [H1 H2]. rewrite <- QR_ltb, QR_0 in H1. rewrite H1. cbn [andb].
  apply IH in H2. rewrite <- H2. apply cholesky_ext. intros i j. apply Rltb_true in H1. rewrite QR_sub, QR_div by lra. rewrite QR_mul. reflexivity.
Qed.
Definition qent (M : list (list Q)) (i j : nat) : Q := nth j (nth i M []) (@n0 Q QN).
Definition qsym (n : nat) (M : list (list Q)) : bool := forallb (fun i => forallb (fun j => Qeq_bool (qent M i j) (qent M j i)) (seq 0 n)) (seq 0 n).
Lemma qent_R : forall M i j, entry (qm M) i j = Q2R (qent M i j).
Proof. intros M i j. unfold entry, qent. rewrite qm_nth. apply qv_nth. Qed.
Lemma qsym_R : forall n M, qsym n M = true -> symmetric n (qm M).
Proof.
  intros n M H i j Hi Hj. rewrite !qent_R. unfold qsym in H. rewrite forallb_forall in H. specialize (H i ltac:(apply in_seq; lia)). rewrite forallb_forall in H. specialize (H j ltac:(apply in_seq; lia)).
  apply Qeq_eqR, Qeq_bool_eq, H.
Qed.
Lemma posdef_pos_def : forall n M, square n M -> posdef n (entry M) -> pos_def n M.
Proof.
  intros n M HM H. split; [exact HM|]. intros w Hw Hne. rewrite (qform_bil n) by assumption. apply H. destruct (nonzero_dec n (vec w)) as [Hx|Hx]; [exact Hx|].
  exfalso. apply Hne. apply nth_ext0; [rewrite repeat_length; exact Hw|]. intros i Hi. rewrite nth_repeat. apply Hx. lia.
Qed.
Lemma qposdef_R : forall n M, qsquare n M = true -> qsym n M = true -> qchol n (qent M) = true -> pos_def n (qm M) /\ symmetric n (qm M).
Proof.
  intros n M H1 H2 H3. pose proof (qsym_R n M H2) as Hs. split; [|exact Hs]. apply posdef_pos_def; [apply qsquare_R, H1|]. apply cholesky_posdef; [exact Hs|].
  rewrite (cholesky_ext n _ _ (qent_R M)). apply qchol_R, H3.
Qed.
