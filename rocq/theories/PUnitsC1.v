(** * Units of measurement and the critical line algorithm: turning points (C137) *)
From Coq Require Import ZArith List Bool Reals Lra Lia.
From Verif Require Import Num Py RBase PyLemmas QRBase MBase MCLA SLin SCLA SUnits SUnitsC Sums Mat SBL PBL1 PUnits PUnits4.
Import ListNotations.
Local Open Scope R_scope.

Lemma vsum_by : forall c l, vsum (map (Rmult c) l) = c * vsum l.
Proof. intros c l. induction l as [|x l IH]; cbn [map]; rewrite ?vsum_nil, ?vsum_cons; [ring|]. rewrite IH. ring. Qed.
Lemma dot_by_l : forall c x y, dot (map (Rmult c) x) y = c * dot x y.
Proof.
  intros c x y. unfold dot. rewrite <- vsum_by. f_equal. revert y. induction x as [|u x IH]; intros [|v y]; cbn [map map2]; try reflexivity.
  rewrite IH. f_equal. runfold. ring.
Qed.
Lemma dot_by_r : forall c x y, dot x (map (Rmult c) y) = c * dot x y.
Proof.
  intros c x y. unfold dot. rewrite <- vsum_by. f_equal. revert y. induction x as [|u x IH]; intros [|v y]; cbn [map map2]; try reflexivity.
  rewrite IH. f_equal. runfold. ring.
Qed.
Lemma nth_by : forall c l j, nth j (map (Rmult c) l) 0 = c * nth j l 0.
Proof. intros c l. induction l as [|x l IH]; intros [|j]; cbn [map nth]; try ring; apply IH. Qed.
Lemma row_by : forall c M i, nth i (cov_times c M) [] = map (Rmult c) (nth i M []).
Proof. intros c M. induction M as [|r M IH]; intros [|i]; cbn; try reflexivity; apply IH. Qed.
Lemma matvec_by_l : forall c P v, matvec (cov_times c P) v = map (Rmult c) (matvec P v).
Proof. intros c P v. unfold matvec, cov_times. rewrite !map_map. apply map_ext. intros r. apply dot_by_l. Qed.
Lemma matvec_by_r : forall c P v, matvec P (map (Rmult c) v) = map (Rmult c) (matvec P v).
Proof. intros c P v. unfold matvec. rewrite !map_map. apply map_ext. intros r. apply dot_by_r. Qed.
Lemma column_by : forall c P j, map (fun r => nth j r 0) (cov_times c P) = map (Rmult c) (map (fun r => nth j r 0) P).
Proof. intros c P j. unfold cov_times. rewrite !map_map. apply map_ext. intros r. apply nth_by. Qed.
Lemma colsums_by : forall c m P, colsums m (cov_times c P) = map (Rmult c) (colsums m P).
Proof. intros c m P. unfold colsums. rewrite map_map. apply map_ext. intros j. runfold. rewrite column_by. apply vsum_by. Qed.
Lemma matmul_by : forall c d P Q, c * d = 1 -> matmul (cov_times c P) (cov_times d Q) = matmul P Q.
Proof.
  intros c d P Q H. unfold matmul. assert (L : length (hd [] (cov_times d Q)) = length (hd [] Q)) by (destruct Q; [reflexivity|apply map_length]). rewrite L.
  change (cov_times c P) with (map (map (Rmult c)) P). rewrite map_map. apply map_ext. intros r. apply map_ext. intros j. runfold. rewrite column_by, dot_by_l, dot_by_r, <- Rmult_assoc, H. ring.
Qed.
Lemma quad_by : forall c M x, quad (cov_times c M) x = c * quad M x.
Proof. intros c M x. unfold quad. rewrite matvec_by_l. apply dot_by_r. Qed.
Lemma pick_by : forall c v f, pick (map (Rmult c) v) f = map (Rmult c) (pick v f).
Proof. intros c v f. unfold pick. rewrite map_map. apply map_ext. intros i. apply nth_by. Qed.
Lemma reduce_by : forall c M f g, reduce (cov_times c M) f g = option_map (cov_times c) (reduce M f g).
Proof.
  intros c M f g. destruct f as [|i f]; [reflexivity|]. destruct g as [|j g]; [reflexivity|]. unfold reduce. cbn [option_map]. f_equal. unfold cov_times at 2.
  rewrite map_map. apply map_ext. intros x. rewrite map_map. apply map_ext. intros y. rewrite row_by. apply nth_by.
Qed.
Lemma empty_by : forall c m, mat_or_empty (option_map (cov_times c) m) = cov_times c (mat_or_empty m).
Proof. intros c [m|]; reflexivity. Qed.

Section Times.
  Variables (a k : R).
  Hypotheses (Ha : 0 < a) (Hk : 0 < k).
  Let s := k / a.
  Lemma units_pos : 0 < k / a.
  Proof. apply Rdiv_lt_0_compat; assumption. Qed.

  Lemma lambda_times : forall P FB mF wB i bi,
    compute_lambda (cov_times (/ k) P) (option_map (cov_times k) FB) (map (Rmult a) mF) wB i bi =
    option_map (fun x => (k / a * fst x, snd x)) (compute_lambda P FB mF wB i bi).
  Proof.
    intros P FB mF wB i bi. unfold compute_lambda. rewrite map_length, colsums_by, !dot_by_l, !matvec_by_l, !matvec_by_r, dot_by_r, empty_by.
    rewrite matmul_by by (field; lra). runfold. rewrite !nth_by.
    set (c1 := dot (colsums (length mF) P) (ones (length mF))). set (c3 := dot (colsums (length mF) P) mF).
    set (c2 := nth i (matvec P mF) 0). set (c4 := nth i (matvec P (ones (length mF))) 0).
    assert (Hc : 0 < a / (k * k)) by (apply Rdiv_lt_0_compat; [exact Ha|nra]).
    replace (- (/ k * c1) * (/ k * (a * c2)) + / k * (a * c3) * (/ k * c4)) with (a / (k * k) * (- c1 * c2 + c3 * c4)) by (field; lra).
    rewrite (eqb0_times _ Hc). destruct (Reqb (- c1 * c2 + c3 * c4) 0) eqn:E; [reflexivity|].
    assert (Hn : - c1 * c2 + c3 * c4 <> 0) by (intros X; apply Reqb_true in X; congruence).
    assert (B : (match bi with BothBounds lo hi => compute_bi (a / (k * k) * (- c1 * c2 + c3 * c4)) lo hi | OneBound b => b end) =
                match bi with BothBounds lo hi => compute_bi (- c1 * c2 + c3 * c4) lo hi | OneBound b => b end).
    { destruct bi; [|reflexivity]. unfold compute_bi. runfold. rewrite (ltb0_times _ Hc). reflexivity. }
    rewrite B. destruct wB as [wb|]; cbn [option_map fst snd]; do 2 f_equal; field; repeat split; try lra; exact Hn.
  Qed.
  Lemma w_times : forall P FB mF wB l,
    compute_w (cov_times (/ k) P) (option_map (cov_times k) FB) (map (Rmult a) mF) wB (k / a * l) =
    qmap (fun x => (fst x, k * snd x)) (compute_w P FB mF wB l).
  Proof.
    intros P FB mF wB l. unfold compute_w. rewrite map_length, colsums_by, !dot_by_l, !matvec_by_l, !matvec_by_r, dot_by_r, empty_by.
    rewrite matmul_by by (field; lra). runfold.
    set (g1 := dot (colsums (length mF) P) mF). set (g2 := dot (colsums (length mF) P) (ones (length mF))).
    assert (Hk' : 0 < / k) by (apply Rinv_0_lt_compat; exact Hk). rewrite (eqb0_times _ Hk').
    destruct (Reqb g2 0) eqn:E; [reflexivity|]. assert (Hn : g2 <> 0) by (intros X; apply Reqb_true in X; congruence).
    assert (G : forall t, - (k / a * l) * (/ k * (a * g1)) / (/ k * g2) + t / (/ k * g2) = k * (- l * g1 / g2 + t / g2)) by (intros t; field; repeat split; lra).
    assert (V2 : forall g v, map (fun x => k * g * x) (map (Rmult (/ k)) v) = map (fun x => g * x) v) by (intros g v; rewrite map_map; apply map_ext; intros x; field; lra).
    assert (V3 : forall v, map (fun x => k / a * l * x) (map (Rmult (/ k)) (map (Rmult a) v)) = map (fun x => l * x) v) by (intros v; rewrite !map_map; apply map_ext; intros x; field; lra).
    destruct wB as [wb|]; cbn [qmap fst snd]; rewrite G, V2, V3; reflexivity.
  Qed.

  Section Loop.
    Variables (inv : list (list R) -> res (list (list R))) (ord : list nat -> list nat) (mean : list R) (cov : list (list R)) (lb ub : list R) (isint : bool).
    Hypothesis Hinv : forall f, inv (cov_times k (mat_or_empty (reduce cov f f))) = qmap (cov_times (/ k)) (inv (mat_or_empty (reduce cov f f))).
    Let mean' := map (Rmult a) mean.
    Let cov' := cov_times k cov.
    Definition mats_times (m : list (list R) * option (list (list R)) * list R * option (list R)) :=
      let '(P, FB, mF, wB) := m in (cov_times (/ k) P, option_map (cov_times k) FB, map (Rmult a) mF, wB).
    Definition tp_times (p : tp R) : tp R := mkTP (t_w p) (option_map (Rmult (k / a)) (t_l p)) (option_map (Rmult k) (t_g p)) (t_f p).

    Lemma matrices_times : forall f wl, matrices inv ord mean' cov' f wl = qmap mats_times (matrices inv ord mean cov f wl).
    Proof.
      intros f wl. unfold matrices, size, mean', cov'. rewrite map_length, !reduce_by, empty_by, Hinv, pick_by.
      destruct (inv (mat_or_empty (reduce cov f f))); reflexivity.
    Qed.
    Lemma above_units : forall x y, above (option_map (Rmult (k / a)) x) (option_map (Rmult (k / a)) y) = above x y.
    Proof. intros [x|] [y|]; try reflexivity. cbn [option_map above]. runfold. apply ltb_times. apply units_pos. Qed.
    Definition in_times (x : option (R * nat * R)) := option_map (fun x => (k / a * fst (fst x), snd (fst x), snd x)) x.
    Definition out_times (x : option (R * nat)) := option_map (fun x => (k / a * fst x, snd x)) x.
    Lemma case_a_times : forall P FB mF wB fs j best,
      case_a lb ub (cov_times (/ k) P) (option_map (cov_times k) FB) (map (Rmult a) mF) wB fs j (in_times best) =
      in_times (case_a lb ub P FB mF wB fs j best).
    Proof.
      intros P FB mF wB. induction fs as [|i fs IH]; intros j best; [reflexivity|]. cbn [case_a]. rewrite lambda_times.
      rewrite <- IH. f_equal. destruct (compute_lambda P FB mF wB j _) as [[l b]|]; [|reflexivity]. cbn [option_map fst snd].
      assert (E : above (Some (k / a * l)) (option_map (fun x : R * nat * R => fst (fst x)) (in_times best)) = above (Some l) (option_map (fun x : R * nat * R => fst (fst x)) best)).
      { rewrite <- (above_units (Some l)). f_equal. destruct best; reflexivity. }
      rewrite E. destruct (above (Some l) _); reflexivity.
    Qed.
    Lemma bound_free_times : forall f wl, bound_free inv ord mean' cov' lb ub f wl = qmap in_times (bound_free inv ord mean cov lb ub f wl).
    Proof.
      intros f wl. unfold bound_free. destruct (1 <? length f)%nat; [|reflexivity]. rewrite matrices_times.
      destruct (matrices inv ord mean cov f wl) as [[[[P FB] mF] wB]|e]; [|reflexivity]. cbn [qmap rbind mats_times]. f_equal. apply (case_a_times P FB mF wB f 0%nat None).
    Qed.
    Lemma case_b_times : forall f wl last bs best, case_b inv ord mean' cov' f wl (option_map (Rmult (k / a)) last) bs (out_times best) =
      qmap out_times (case_b inv ord mean cov f wl last bs best).
    Proof.
      intros f wl last. induction bs as [|i bs IH]; intros best; [reflexivity|]. cbn [case_b]. rewrite matrices_times.
      destruct (matrices inv ord mean cov (f ++ [i]) wl) as [[[[P FB] mF] wB]|e]; [|reflexivity]. cbn [qmap rbind mats_times]. rewrite map_length, lambda_times.
      destruct (compute_lambda P FB mF wB _ _) as [[l b]|]; [|reflexivity]. cbn [option_map fst snd]. rewrite <- IH. f_equal.
      assert (E1 : (match option_map (Rmult (k / a)) last with None => true | Some x => nltb (k / a * l) x end) = match last with None => true | Some x => nltb l x end).
      { destruct last as [x|]; [|reflexivity]. cbn [option_map]. runfold. apply ltb_times. apply units_pos. }
      assert (E2 : above (Some (k / a * l)) (option_map fst (out_times best)) = above (Some l) (option_map fst best)).
      { rewrite <- (above_units (Some l)). f_equal. destruct best; reflexivity. }
      rewrite E1, E2. destruct (_ && _); reflexivity.
    Qed.
    Lemma free_bound_times : forall f wl last, free_bound inv ord mean' cov' f wl (option_map (Rmult (k / a)) last) = qmap out_times (free_bound inv ord mean cov f wl last).
    Proof.
      intros f wl last. unfold free_bound, size, mean'. rewrite map_length. destruct (length f <? length mean)%nat; [|reflexivity]. apply (case_b_times f wl last _ None).
    Qed.
    Definition ev_times (ev : event R) : event R :=
      match ev with EvEnd => EvEnd | EvIn l i b => EvIn (k / a * l) i b | EvOut l i => EvOut (k / a * l) i end.
    Lemma negative_times : forall x, none_or_negative (option_map (Rmult (k / a)) x) = none_or_negative x.
    Proof. intros [x|]; [|reflexivity]. cbn [option_map none_or_negative]. runfold. rewrite <- (Rmult_0_r (k / a)) at 1. apply ltb_times. apply units_pos. Qed.
    Lemma next_times : forall x y, next_event (in_times x) (out_times y) = qmap ev_times (next_event x y).
    Proof.
      intros x y. unfold next_event.
      assert (X : option_map (fun x : R * nat * R => fst (fst x)) (in_times x) = option_map (Rmult (k / a)) (option_map (fun x : R * nat * R => fst (fst x)) x)) by (destruct x; reflexivity).
      assert (Y : option_map fst (out_times y) = option_map (Rmult (k / a)) (option_map fst y)) by (destruct y; reflexivity).
      rewrite X, Y, !negative_times, above_units. destruct (_ && _); [reflexivity|]. destruct (above _ _); [destruct x as [[[l i] b]|]|destruct y as [[l i]|]]; reflexivity.
    Qed.
    Lemma step_times : forall f w wl last, step inv ord mean' cov' lb ub isint f w wl (option_map (Rmult (k / a)) last) =
      qmap (fun x => (fst (fst x), snd (fst x), tp_times (snd x))) (step inv ord mean cov lb ub isint f w wl last).
    Proof.
      intros f w wl last. unfold step. rewrite bound_free_times. destruct (bound_free inv ord mean cov lb ub f wl) as [x|e]; [|reflexivity]. cbn [qmap rbind].
      rewrite free_bound_times. destruct (free_bound inv ord mean cov f wl last) as [y|e]; [|reflexivity]. cbn [qmap rbind].
      rewrite next_times. destruct (next_event x y) as [ev|e]; [|reflexivity]. cbn [qmap rbind].
      assert (A : after_event isint (ev_times ev) f w = let '(f1, w1, l) := after_event isint ev f w in (f1, w1, k / a * l)).
      { destruct ev; cbn [ev_times after_event]; try reflexivity. f_equal. runfold. ring. }
      rewrite A. destruct (after_event isint ev f w) as [[f1 w1] l]. rewrite matrices_times.
      destruct (matrices inv ord mean cov f1 wl) as [[[[P FB] mF] wB]|e]; [|reflexivity]. cbn [qmap rbind mats_times].
      assert (Z : (match ev_times ev with EvEnd => repeat n0 (length (map (Rmult a) mF)) | _ => map (Rmult a) mF end) =
                  map (Rmult a) (match ev with EvEnd => repeat n0 (length mF) | _ => mF end)).
      { destruct ev; cbn [ev_times]; try reflexivity. rewrite map_length. runfold. generalize (length mF). intros n. induction n; cbn [repeat map]; [reflexivity|]. rewrite <- IHn. f_equal. ring. }
      rewrite Z, w_times. destruct (compute_w P FB _ wB l) as [[wF g]|e]; [|reflexivity]. reflexivity.
    Qed.
    Lemma loop_times : forall fuel f w last pts, loop inv ord mean' cov' lb ub isint fuel f w (option_map (Rmult (k / a)) last) (map tp_times pts) =
      (map tp_times (fst (loop inv ord mean cov lb ub isint fuel f w last pts)), snd (loop inv ord mean cov lb ub isint fuel f w last pts)).
    Proof.
      induction fuel as [|fuel IH]; intros f w last pts; [reflexivity|]. cbn [loop]. rewrite step_times.
      destruct (step inv ord mean cov lb ub isint f w w last) as [[[f' w'] p]|e]; [|reflexivity]. cbn [qmap fst snd].
      destruct (t_l p) as [l|] eqn:E; unfold tp_times at 1; cbn [t_l]; rewrite E; cbn [option_map]; [|cbn [fst snd]; rewrite map_app; reflexivity].
      runfold. rewrite (eqb0_times _ units_pos). destruct (Reqb l 0); [cbn [fst snd]; rewrite map_app; reflexivity|].
      rewrite <- (IH f' w' (Some l) (pts ++ [p])), map_app. reflexivity.
    Qed.
  End Loop.
  Lemma by_mean_times : forall mean i j, by_mean (map (Rmult a) mean) i j = by_mean mean i j.
  Proof. intros mean i j. unfold by_mean. runfold. rewrite !nth_by, !(ltb_times _ Ha). reflexivity. Qed.
  Lemma isort_ext : forall {X} (f g : X -> X -> bool) l, (forall x y, f x y = g x y) -> isort f l = isort g l.
  Proof.
    intros X f g l H. induction l as [|x l IH]; [reflexivity|]. cbn. rewrite IH. generalize (isort g l). intros m. induction m as [|y m IHm]; [reflexivity|]. cbn.
    rewrite H, IHm. reflexivity.
  Qed.
  Lemma order_times : forall mean, mean_order (map (Rmult a) mean) = mean_order mean.
  Proof. intros mean. unfold mean_order. rewrite map_length. apply isort_ext. intros x y. apply by_mean_times. Qed.
End Times.

(** ** The inverse *)
Lemma right_inverse_unique : forall n M P Q, square n M -> symmetric n M -> right_inverse n M P -> right_inverse n M Q -> P = Q.
Proof.
  intros n M P Q HM Hs HP HQ.
  assert (E : forall x, length x = n -> mat_vec P x = mat_vec Q x).
  { intros x Lx. assert (LP : length (mat_vec P x) = n) by (rewrite mat_vec_length; apply HP). assert (LQ : length (mat_vec Q x) = n) by (rewrite mat_vec_length; apply HQ).
    assert (N : forall i, (i < n)%nat -> vec (mat_vec P x) i - vec (mat_vec Q x) i = 0).
    { apply (right_inverse_null n M P (fun i => vec (mat_vec P x) i - vec (mat_vec Q x) i) HM Hs HP). intros i Hi.
      transitivity (app n (entry M) (vec (mat_vec P x)) i - app n (entry M) (vec (mat_vec Q x)) i).
      - unfold app. rewrite <- sumn_minus. apply sumn_ext. intros j _. ring.
      - rewrite <- !(mat_vec_shaped n n) by assumption. destruct HP as [_ HP], HQ as [_ HQ]. rewrite HP, HQ by exact Lx. ring. }
    apply (nth_ext _ _ 0 0); [congruence|]. intros i Hi. rewrite LP in Hi. specialize (N i Hi). unfold vec in N. lra. }
  destruct HP as [[LP FP] _], HQ as [[LQ FQ] _]. apply (nth_ext _ _ [] []); [congruence|]. intros i Hi. rewrite LP in Hi.
  rewrite Forall_forall in FP, FQ.
  assert (Li : length (nth i P []) = n) by (apply FP, nth_In; lia). assert (Mi : length (nth i Q []) = n) by (apply FQ, nth_In; lia).
  apply (nth_ext _ _ 0 0); [congruence|]. intros j Hj. rewrite Li in Hj.
  specialize (E (of_fun n (fun m => if Nat.eqb m j then 1 else 0)) ltac:(apply of_fun_length)).
  apply (f_equal (fun v => nth i v 0)) in E. unfold mat_vec in E.
  assert (R : forall (N : list (list R)) x, (i < length N)%nat -> nth i (map (fun row => inner row x) N) 0 = inner (nth i N []) x).
  { intros N x H. rewrite (nth_indep _ 0 ((fun row => inner row x) [])) by (rewrite map_length; exact H). apply (map_nth (fun row => inner row x)). }
  rewrite !R in E by lia.
  rewrite !(inner_vec n) in E by (try assumption; apply of_fun_length).
  assert (U : forall r, sumn n (fun m => vec r m * vec (of_fun n (fun m => if Nat.eqb m j then 1 else 0)) m) = vec r j).
  { intros r. rewrite (sumn_ext n _ (fun m => (if Nat.eqb m j then 1 else 0) * vec r m)).
    - apply sumn_delta. exact Hj.
    - intros m Hm. rewrite vec_of_fun by exact Hm. destruct (Nat.eqb m j); ring. }
  rewrite !U in E. exact E.
Qed.
