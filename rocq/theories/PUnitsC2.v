(** * Units of measurement and the critical line algorithm: the methods (C137) *)
From Coq Require Import ZArith List Bool Reals Lra Lia.
From Verif Require Import Num Py RBase PyLemmas QRBase MBase MCLA SLin SCLA SUnits SUnitsC Sums Mat SBL PBL1 PUnits PUnits4 PUnitsC1.
Import ListNotations.
Local Open Scope R_scope.

(** ** The inverse of the matrix in another unit *)
Lemma mat_vec_by_l : forall c M x, mat_vec (cov_times c M) x = map (Rmult c) (mat_vec M x).
Proof. intros c M x. unfold mat_vec, cov_times. rewrite !map_map. apply map_ext. intros r. apply inner_times. Qed.
Lemma mat_vec_by_r : forall c M x, mat_vec M (map (Rmult c) x) = map (Rmult c) (mat_vec M x).
Proof. intros c M x. unfold mat_vec. rewrite !map_map. apply map_ext. intros r. apply inner_scale_r. Qed.
Lemma map_one : forall c d x, c * d = 1 -> map (Rmult c) (map (Rmult d) x) = x.
Proof. intros c d x H. rewrite map_map. rewrite <- (map_id x) at 2. apply map_ext. intros y. rewrite <- Rmult_assoc, H. ring. Qed.
Lemma cov_one : forall c d M, c * d = 1 -> cov_times c (cov_times d M) = M.
Proof. intros c d M H. unfold cov_times. rewrite map_map. rewrite <- (map_id M) at 2. apply map_ext. intros r. apply map_one. exact H. Qed.
Lemma inverse_by : forall n c d M P, c * d = 1 -> right_inverse n M P -> right_inverse n (cov_times c M) (cov_times d P).
Proof.
  intros n c d M P H [S E]. split; [apply square_times; exact S|]. intros x Lx. rewrite mat_vec_by_l, mat_vec_by_l, mat_vec_by_r, E by exact Lx. apply map_one. exact H.
Qed.
Lemma slice_square : forall cov f, square (length f) (mat_or_empty (reduce cov f f)).
Proof.
  intros cov f. destruct f as [|i f]; [split; [reflexivity|constructor]|]. unfold reduce. cbn [mat_or_empty]. split; [rewrite map_length; reflexivity|].
  apply Forall_forall. intros r Hr. apply in_map_iff in Hr as (x & <- & _). rewrite map_length. reflexivity.
Qed.
Lemma entry_out : forall n M, square n M -> symmetric n M -> forall i j, entry M i j = entry M j i.
Proof.
  intros n M [L F] S i j. rewrite Forall_forall in F.
  assert (Z : forall i j, (n <= i \/ n <= j)%nat -> entry M i j = 0).
  { intros x y H. unfold entry. destruct (Nat.lt_ge_cases x n) as [Hx|Hx].
    - apply nth_overflow. rewrite F by (apply nth_In; lia). lia.
    - rewrite (nth_overflow M) by lia. destruct y; reflexivity. }
  destruct (Nat.lt_ge_cases i n) as [Hi|Hi]; [|rewrite !Z by lia; reflexivity].
  destruct (Nat.lt_ge_cases j n) as [Hj|Hj]; [apply S; assumption|rewrite !Z by lia; reflexivity].
Qed.
Lemma slice_symmetric : forall n cov f, square n cov -> symmetric n cov -> symmetric (length f) (mat_or_empty (reduce cov f f)).
Proof.
  intros n cov f HM S i j Hi Hj. destruct f as [|x f]; [cbn in Hi; lia|]. unfold reduce. cbn [mat_or_empty].
  assert (E : forall p q, (p < length (x :: f))%nat -> (q < length (x :: f))%nat ->
    entry (map (fun u => map (fun v => nth v (nth u cov []) n0) (x :: f)) (x :: f)) p q = entry cov (nth p (x :: f) 0%nat) (nth q (x :: f) 0%nat)).
  { intros p q Hp Hq. unfold entry.
    rewrite (nth_indep _ [] ((fun u => map (fun v => nth v (nth u cov []) n0) (x :: f)) 0%nat)) by (rewrite map_length; exact Hp).
    rewrite (map_nth (fun u => map (fun v => nth v (nth u cov []) n0) (x :: f))).
    rewrite (nth_indep _ 0 ((fun v => nth v (nth (nth p (x :: f) 0%nat) cov []) n0) 0%nat)) by (rewrite map_length; exact Hq).
    rewrite (map_nth (fun v => nth v (nth (nth p (x :: f) 0%nat) cov []) n0)). reflexivity. }
  rewrite !E by assumption. apply (entry_out n); assumption.
Qed.
Lemma inverse_units : forall inv n k cov, sound_inverse inv -> complete_inverse inv -> singular_only inv -> 0 < k -> square n cov -> symmetric n cov ->
  forall f, inv (cov_times k (mat_or_empty (reduce cov f f))) = qmap (cov_times (/ k)) (inv (mat_or_empty (reduce cov f f))).
Proof.
  intros inv n k cov Hs Hc He Hk HM S f. pose proof (slice_square cov f) as Q. pose proof (slice_symmetric n cov f HM S) as Y.
  set (M := mat_or_empty (reduce cov f f)) in *. set (m := length f) in *. pose proof (square_times m k M Q) as Q'.
  assert (K1 : k * / k = 1) by (field; lra). assert (K2 : / k * k = 1) by (field; lra).
  destruct (inv M) as [P|e] eqn:E; cbn [qmap].
  - pose proof (Hs _ _ _ Q E) as RP. pose proof (inverse_by m k (/ k) M P K1 RP) as RP'. destruct (Hc _ _ _ Q' RP') as [X EX]. rewrite EX. f_equal.
    apply (right_inverse_unique m (cov_times k M)); [exact Q'| |apply (Hs m); assumption|exact RP'].
    intros i j Hi Hj. unfold entry. rewrite !row_by, !nth_by. f_equal. apply Y; assumption.
  - destruct (inv (cov_times k M)) as [X|e'] eqn:E'; [exfalso|rewrite (He _ _ E), (He _ _ E'); reflexivity].
    pose proof (inverse_by m (/ k) k _ _ K2 (Hs _ _ _ Q' E')) as R. rewrite (cov_one _ _ _ K2) in R. destruct (Hc _ _ _ Q R) as [Z EZ]. congruence.
Qed.

(** ** Choosing the best of a list *)
Lemma arg_best_by : forall (better : R -> R -> bool) g l i b v, (forall x y, better (g x) (g y) = better x y) ->
  arg_best better (map g l) i b (g v) = arg_best better l i b v.
Proof. intros better g l. induction l as [|x l IH]; intros i b v H; [reflexivity|]. cbn [map arg_best]. rewrite H. destruct (better x v); apply IH; exact H. Qed.
Lemma index_best_by : forall (better : R -> R -> bool) g l, (forall x y, better (g x) (g y) = better x y) -> index_best better (map g l) = index_best better l.
Proof. intros better g [|x l] H; [reflexivity|]. cbn [map index_best]. f_equal. apply arg_best_by. exact H. Qed.
Lemma item_map : forall {X Y} (g : X -> Y) i l, item i (map g l) = qmap g (item i l).
Proof. intros X Y g i l. unfold item. rewrite nth_error_map. destruct (nth_error l i); reflexivity. Qed.

(** ** Golden section search *)
Section Gold.
  Variables (c : R) (obj obj' : R -> res R).
  Hypotheses (Hc : 0 < c) (Ho : forall x, obj' x = qmap (Rmult c) (obj x)).
  Definition gs_times (s : gs) : gs := mkGS (gs_a s) (gs_b s) (gs_x1 s) (gs_x2 s) (c * gs_f1 s) (c * gs_f2 s).
  Lemma gs_step_times : forall s, gs_step obj' (gs_times s) = qmap gs_times (gs_step obj s).
  Proof.
    intros s. unfold gs_step, gs_times. cbn [gs_a gs_b gs_x1 gs_x2 gs_f1 gs_f2]. rewrite (ltb_times _ Hc).
    destruct (Rltb (gs_f2 s) (gs_f1 s)); rewrite Ho; (destruct (obj _); [|reflexivity]); cbn [qmap rbind gs_a gs_b gs_x1 gs_x2 gs_f1 gs_f2]; do 2 f_equal; ring.
  Qed.
  Lemma gs_loop_times : forall k s, gs_loop obj' k (gs_times s) = qmap gs_times (gs_loop obj k s).
  Proof. induction k as [|k IH]; intros s; [reflexivity|]. cbn [gs_loop]. rewrite gs_step_times. destruct (gs_step obj s); [|reflexivity]. apply IH. Qed.
  Lemma golden_times : forall a b, golden_section obj' a b = qmap (fun r => (fst r, c * snd r)) (golden_section obj a b).
  Proof.
    intros a b. unfold golden_section. rewrite !Ho. destruct (obj (gs_r * a + gs_c * b)) as [v1|e]; [|reflexivity]. cbn [qmap rbind].
    destruct (obj (gs_c * a + gs_r * b)) as [v2|e]; [|reflexivity]. cbn [qmap rbind].
    replace (mkGS a b (gs_r * a + gs_c * b) (gs_c * a + gs_r * b) (-1 * (c * v1)) (-1 * (c * v2))) with
      (gs_times (mkGS a b (gs_r * a + gs_c * b) (gs_c * a + gs_r * b) (-1 * v1) (-1 * v2))) by (unfold gs_times; cbn [gs_a gs_b gs_x1 gs_x2 gs_f1 gs_f2]; f_equal; ring).
    rewrite gs_loop_times. destruct (gs_loop obj _ _) as [s|e]; [|reflexivity]. cbn [qmap rbind gs_times gs_x1 gs_x2 gs_f1 gs_f2]. rewrite (ltb_times _ Hc).
    destruct (Rltb (gs_f1 s) (gs_f2 s)); cbn [fst snd]; do 2 f_equal; ring.
  Qed.
End Gold.

Section Units.
  Variables (a k : R).
  Hypotheses (Ha : 0 < a) (Hk : 0 < k).
  Notation tpt := (tp_times a k).
  Lemma ratio_pos : 0 < a / sqrt k.
  Proof. apply Rdiv_lt_0_compat; [exact Ha|apply sqrt_lt_R0; exact Hk]. Qed.

  (** ** Purging *)
  Lemma del_map : forall {X Y} (g : X -> Y) i l, del_at i (map g l) = map g (del_at i l).
  Proof. intros X Y g i l. unfold del_at. rewrite map_app, firstn_map, skipn_map. reflexivity. Qed.
  Lemma num_err_loop_times : forall fuel lb ub tol i pts, purge_num_err_loop fuel lb ub tol i (map tpt pts) = map tpt (purge_num_err_loop fuel lb ub tol i pts).
  Proof.
    induction fuel as [|fuel IH]; intros lb ub tol i pts; [reflexivity|]. cbn [purge_num_err_loop]. rewrite nth_error_map.
    destruct (nth_error pts i) as [p|]; [|reflexivity]. cbn [option_map tp_times t_w]. rewrite del_map. destruct (num_err lb ub tol (t_w p)); apply IH.
  Qed.
  Lemma num_err_times : forall lb ub tol pts, purge_num_err lb ub tol (map tpt pts) = map tpt (purge_num_err lb ub tol pts).
  Proof. intros lb ub tol pts. unfold purge_num_err. rewrite map_length. apply num_err_loop_times. Qed.
  Lemma excess_loop_times : forall fuel mean i again pts, purge_excess_loop fuel (map (Rmult a) mean) i again (map tpt pts) =
    (map tpt (fst (purge_excess_loop fuel mean i again pts)), snd (purge_excess_loop fuel mean i again pts)).
  Proof.
    induction fuel as [|fuel IH]; intros mean i again pts; [reflexivity|]. cbn [purge_excess_loop]. rewrite map_length, nth_error_map.
    destruct (_ =? _)%nat; [reflexivity|]. destruct (nth_error pts (if again then i else S i)) as [p|]; [|reflexivity]. cbn [option_map].
    assert (E : existsb (fun q => nltb (dot (t_w (tpt p)) (map (Rmult a) mean)) (dot (t_w q) (map (Rmult a) mean))) (skipn (S (if again then i else S i)) (map tpt pts)) =
                existsb (fun q => nltb (dot (t_w p) mean) (dot (t_w q) mean)) (skipn (S (if again then i else S i)) pts)).
    { rewrite skipn_map. generalize (skipn (S (if again then i else S i)) pts). intros l. induction l as [|q l IHl]; [reflexivity|]. cbn [map existsb]. rewrite IHl. f_equal.
      cbn [tp_times t_w]. rewrite !dot_by_r. runfold. apply ltb_times. exact Ha. }
    rewrite E. clear E. rewrite del_map. destruct (existsb (fun q => nltb (dot (t_w p) mean) (dot (t_w q) mean)) _); apply IH.
  Qed.
  Lemma excess_times : forall mean pts, purge_excess (map (Rmult a) mean) (map tpt pts) = (map tpt (fst (purge_excess mean pts)), snd (purge_excess mean pts)).
  Proof. intros mean pts. unfold purge_excess. rewrite map_length. apply excess_loop_times. Qed.

  (** ** The object in the other unit *)
  Definition fr_times (x : list R * list R * list (list R)) : list R * list R * list (list R) :=
    (map (Rmult a) (fst (fst x)), map (Rmult (sqrt k)) (snd (fst x)), snd x).
  Definition cla_times (o : cla R) : cla R :=
    mkCLA (c_base o) (map (Rmult a) (c_mean o)) (cov_times k (c_cov o)) (c_lb o) (c_ub o) (c_int o) (map tpt (c_tp o)) (option_map fr_times (c_frontier o)).
  Lemma init_algo_times : forall o, init_algo (cla_times o) = init_algo o.
  Proof. intros o. unfold init_algo, c_n. cbn [cla_times c_mean c_int c_ub c_lb]. rewrite (order_times a Ha), map_length. reflexivity. Qed.

  Variables (fuel : nat) (inv : list (list R) -> res (list (list R))) (ord : list nat -> list nat) (cov : list (list R)).
  Hypothesis Hinv : forall f, inv (cov_times k (mat_or_empty (reduce cov f f))) = qmap (cov_times (/ k)) (inv (mat_or_empty (reduce cov f f))).

  Lemma solve_times : forall o, c_cov o = cov -> solve fuel inv ord (cla_times o) = (cla_times (fst (solve fuel inv ord o)), snd (solve fuel inv ord o)).
  Proof.
    intros o C. unfold solve. rewrite init_algo_times. destruct (init_algo o) as [[f w]|e]; [|reflexivity]. cbn [cla_times c_mean c_cov c_lb c_ub c_int].
    rewrite C. pose proof (loop_times a k Ha Hk inv ord (c_mean o) cov (c_lb o) (c_ub o) (c_int o) Hinv fuel f w None [mkTP w None None f]) as L. cbn [option_map map] in L.
    change (tpt (mkTP w None None f)) with (mkTP w (@None R) (@None R) f) in L. rewrite L.
    destruct (loop inv ord (c_mean o) cov (c_lb o) (c_ub o) (c_int o) fuel f w None _) as [pts [u|e]]; cbn [fst snd]; [|unfold set_tp, cla_times; cbn; reflexivity].
    rewrite num_err_times, excess_times. destruct (purge_excess (c_mean o) _) as [pts2 r]. unfold set_tp, cla_times. reflexivity.
  Qed.
  Lemma solve_cov : forall o, c_cov (fst (solve fuel inv ord o)) = c_cov o.
  Proof.
    intros o. unfold solve. destruct (init_algo o) as [[f w]|e]; [|reflexivity]. destruct (loop _ _ _ _ _ _ _ _ _ _ _ _) as [pts [u|e]]; [|reflexivity].
    destruct (purge_excess _ _); reflexivity.
  Qed.
  Lemma ensure_times : forall o, c_cov o = cov -> ensure fuel inv ord (cla_times o) = (cla_times (fst (ensure fuel inv ord o)), snd (ensure fuel inv ord o)).
  Proof.
    intros o C. unfold ensure at 1. cbn [cla_times c_tp]. unfold ensure. destruct (c_tp o) as [|p pts] eqn:E; cbn [map]; [apply solve_times; exact C|reflexivity].
  Qed.
  Lemma ensure_cov : forall o, c_cov (fst (ensure fuel inv ord o)) = c_cov o.
  Proof. intros o. unfold ensure. destruct (c_tp o); [apply solve_cov|reflexivity]. Qed.

  Theorem min_volatility_times : forall o, c_cov o = cov ->
    cla_min_volatility fuel inv ord (cla_times o) = (cla_times (fst (cla_min_volatility fuel inv ord o)), snd (cla_min_volatility fuel inv ord o)).
  Proof.
    intros o C. unfold cla_min_volatility. rewrite ensure_times by exact C. destruct (ensure fuel inv ord o) as [o1 [u|e]]; cbn [fst snd]; [|reflexivity].
    cbn [cla_times c_cov c_tp]. rewrite map_map.
    assert (E : map (fun p => quad (cov_times k (c_cov o1)) (t_w (tpt p))) (c_tp o1) = map (Rmult k) (map (fun p => quad (c_cov o1) (t_w p)) (c_tp o1))).
    { rewrite map_map. apply map_ext. intros p. apply quad_by. }
    rewrite E. unfold index_min. rewrite index_best_by by (intros x y; runfold; apply ltb_times; exact Hk).
    destruct (index_best _ _) as [i|e]; [|reflexivity]. cbn [rbind]. rewrite item_map. destruct (item i (c_tp o1)) as [p|e]; reflexivity.
  Qed.
  Lemma eval_times : forall mean cv w0 w1 x, eval_sr (map (Rmult a) mean) (cov_times k cv) w0 w1 x = qmap (Rmult (a / sqrt k)) (eval_sr mean cv w0 w1 x).
  Proof.
    intros mean cv w0 w1 x. unfold eval_sr. rewrite quad_by, dot_by_r, (leb0_times _ Hk). destruct (Rleb (quad cv (combo x w0 w1)) 0) eqn:E; [reflexivity|]. cbn [qmap]. f_equal.
    assert (P : 0 < quad cv (combo x w0 w1)) by (apply Rnot_le_lt; intros X; apply Rleb_true in X; congruence).
    pose proof (sqrt_lt_R0 _ P). pose proof (sqrt_lt_R0 _ Hk). rewrite sqrt_mult by lra. field. lra.
  Qed.
  Lemma segments_times : forall mean cv pts, sharpe_segments (map (Rmult a) mean) (cov_times k cv) (map tpt pts) =
    qmap (map (fun x => (fst x, a / sqrt k * snd x))) (sharpe_segments mean cv pts).
  Proof.
    intros mean cv pts. induction pts as [|p pts IH]; [reflexivity|]. destruct pts as [|q pts]; [reflexivity|].
    change (map tpt (p :: q :: pts)) with (tpt p :: tpt q :: map tpt pts).
    change (sharpe_segments (map (Rmult a) mean) (cov_times k cv) (tpt p :: tpt q :: map tpt pts)) with
      (do r <- golden_section (eval_sr (map (Rmult a) mean) (cov_times k cv) (t_w p) (t_w q)) 0 1 ;
       do rest <- sharpe_segments (map (Rmult a) mean) (cov_times k cv) (map tpt (q :: pts)) ; Ok ((combo (fst r) (t_w p) (t_w q), snd r) :: rest)).
    change (sharpe_segments mean cv (p :: q :: pts)) with
      (do r <- golden_section (eval_sr mean cv (t_w p) (t_w q)) 0 1 ; do rest <- sharpe_segments mean cv (q :: pts) ; Ok ((combo (fst r) (t_w p) (t_w q), snd r) :: rest)).
    rewrite (golden_times (a / sqrt k) (eval_sr mean cv (t_w p) (t_w q)) _ ratio_pos (eval_times mean cv (t_w p) (t_w q))).
    destruct (golden_section _ 0 1) as [r|e]; [|reflexivity]. cbn [qmap rbind]. rewrite IH. destruct (sharpe_segments mean cv (q :: pts)); reflexivity.
  Qed.
  Theorem max_sharpe_times : forall o, c_cov o = cov ->
    cla_max_sharpe fuel inv ord (cla_times o) = (cla_times (fst (cla_max_sharpe fuel inv ord o)), snd (cla_max_sharpe fuel inv ord o)).
  Proof.
    intros o C. unfold cla_max_sharpe. rewrite ensure_times by exact C. destruct (ensure fuel inv ord o) as [o1 [u|e]]; cbn [fst snd]; [|reflexivity].
    cbn [cla_times c_cov c_tp c_mean]. rewrite segments_times. destruct (sharpe_segments (c_mean o1) (c_cov o1) (c_tp o1)) as [l|e]; [|reflexivity]. cbn [qmap rbind].
    assert (E : map snd (map (fun x : list R * R => (fst x, a / sqrt k * snd x)) l) = map (Rmult (a / sqrt k)) (map snd l)) by (rewrite !map_map; reflexivity).
    rewrite E. unfold index_max. rewrite index_best_by by (intros x y; runfold; apply ltb_times; apply ratio_pos).
    destruct (index_best _ _) as [i|e]; [|reflexivity]. cbn [rbind]. rewrite item_map. destruct (item i l) as [x|e]; reflexivity.
  Qed.
  Lemma frontier_weights_times : forall m pts, frontier_weights m (map tpt pts) = frontier_weights m pts.
  Proof.
    intros m pts. induction pts as [|p pts IH]; [reflexivity|]. destruct pts as [|q pts]; [reflexivity|]. cbn [map] in IH |- *. cbn [frontier_weights] in IH |- *.
    rewrite IH. destruct pts; reflexivity.
  Qed.
  Lemma deviation_times : forall cv w, deviation_of (cov_times k cv) w = qmap (Rmult (sqrt k)) (deviation_of cv w).
  Proof.
    intros cv w. unfold deviation_of. rewrite quad_by. rewrite <- (Rmult_0_r k) at 1. rewrite (ltb_times _ Hk). destruct (Rltb (quad cv w) 0) eqn:E; [reflexivity|]. cbn [qmap]. f_equal.
    apply sqrt_mult; [lra|]. apply Rnot_lt_le. intros X. apply Rltb_true in X. congruence.
  Qed.
  Lemma deviations_times : forall cv ws, mapM (deviation_of (cov_times k cv)) ws = qmap (map (Rmult (sqrt k))) (mapM (deviation_of cv) ws).
  Proof.
    intros cv ws. induction ws as [|w ws IH]; [reflexivity|]. cbn [mapM]. rewrite deviation_times. destruct (deviation_of cv w) as [x|e]; [|reflexivity]. cbn [qmap rbind].
    rewrite IH. destruct (mapM (deviation_of cv) ws); reflexivity.
  Qed.
  Theorem frontier_times : forall points o, c_cov o = cov ->
    cla_frontier fuel inv ord points (cla_times o) = (cla_times (fst (cla_frontier fuel inv ord points o)), qmap fr_times (snd (cla_frontier fuel inv ord points o))).
  Proof.
    intros points o C. unfold cla_frontier. rewrite ensure_times by exact C. destruct (ensure fuel inv ord o) as [o1 [u|e]]; cbn [fst snd]; [|reflexivity].
    cbn [cla_times c_cov c_tp c_mean]. rewrite map_length, frontier_weights_times.
    destruct (c_tp o1) as [|p pts] eqn:E; [reflexivity|]. cbn [map]. rewrite deviations_times.
    destruct (mapM (deviation_of (c_cov o1)) _) as [sg|e]; [|reflexivity]. cbn [qmap fst snd].
    assert (M : forall ws, map (fun w => dot w (map (Rmult a) (c_mean o1))) ws = map (Rmult a) (map (fun w => dot w (c_mean o1)) ws)) by (intros ws; rewrite map_map; apply map_ext; intros w; apply dot_by_r).
    rewrite M. unfold set_frontier, cla_times. cbn [c_base c_mean c_cov c_lb c_ub c_int c_tp c_frontier option_map fr_times fst snd]. rewrite E. reflexivity.
  Qed.
  Lemma below_zero : forall x, Rltb (k * x) 0 = Rltb x 0.
  Proof. intros x. rewrite <- (Rmult_0_r k) at 1. apply ltb_times. exact Hk. Qed.
  Theorem performance_times : forall rf o, same_figures a k (cla_performance rf o) (cla_performance (a * rf) (cla_times o)).
  Proof.
    intros rf o. unfold cla_performance, portfolio_performance. cbn [cla_times c_base c_mean c_cov]. destruct (b_weights (c_base o)) as [w|]; [|exact eq_refl]. cbn [rbind].
    unfold portfolio_variance, sharpe_ratio, portfolio_return, portfolio_variance. cbn [cov_values mu_values].
    assert (L : (length (cov_times k (c_cov o)) =? length w)%nat && forallb (fun r => (length r =? length w)%nat) (cov_times k (c_cov o)) =
                (length (c_cov o) =? length w)%nat && forallb (fun r => (length r =? length w)%nat) (c_cov o)).
    { unfold cov_times. rewrite map_length. f_equal. generalize (c_cov o). intros M. induction M as [|r M IH]; [reflexivity|]. cbn [map forallb]. rewrite IH, map_length. reflexivity. }
    rewrite L. clear L. rewrite map_length, quad_by, dot_by_r. destruct (_ && _); [|exact eq_refl]. cbn [rbind]. rewrite below_zero, (leb0_times _ Hk).
    destruct (Rltb (quad (c_cov o) w) 0) eqn:E; [exact eq_refl|]. destruct (_ =? _)%nat; [|exact eq_refl]. cbn [rbind].
    destruct (Rleb (quad (c_cov o) w) 0) eqn:F; [exact eq_refl|]. cbn [rbind same_figures option_map].
    assert (P : 0 < quad (c_cov o) w) by (apply Rnot_le_lt; intros X; apply Rleb_true in X; congruence).
    pose proof (sqrt_lt_R0 _ P). pose proof (sqrt_lt_R0 _ Hk). rewrite sqrt_mult by lra. split; [f_equal; ring|]. split; [reflexivity|]. f_equal. field. lra.
  Qed.

  Lemma call_cov : forall c o, c_cov (fst (do_call fuel inv ord c o)) = c_cov o.
  Proof.
    intros c o. pose proof (ensure_cov o) as E. destruct c; cbn [do_call]; unfold cla_min_volatility, cla_max_sharpe, cla_frontier; destruct (ensure fuel inv ord o) as [o1 [u|e]]; cbn [fst] in E |- *; try exact E.
    - destruct (rbind _ _) as [p|e]; [|exact E]. destruct (make_output_weights _); exact E.
    - destruct (rbind _ _) as [p|e]; [|exact E]. destruct (make_output_weights _); exact E.
    - destruct (c_tp o1); [exact E|]. destruct (mapM _ _); exact E.
  Qed.
  Lemma call_times : forall c o, c_cov o = cov -> do_call fuel inv ord c (cla_times o) = (cla_times (fst (do_call fuel inv ord c o)), snd (do_call fuel inv ord c o)).
  Proof.
    intros c o C. destruct c; cbn [do_call].
    - rewrite min_volatility_times by exact C. destruct (cla_min_volatility fuel inv ord o) as [o' [d|e]]; reflexivity.
    - rewrite max_sharpe_times by exact C. destruct (cla_max_sharpe fuel inv ord o) as [o' [d|e]]; reflexivity.
    - rewrite frontier_times by exact C. destruct (cla_frontier fuel inv ord points o) as [o' [[[mu sg] ws]|e]]; reflexivity.
  Qed.
  Lemma calls_times : forall cs o, c_cov o = cov ->
    do_calls fuel inv ord cs (cla_times o) = (cla_times (fst (do_calls fuel inv ord cs o)), snd (do_calls fuel inv ord cs o)) /\ c_cov (fst (do_calls fuel inv ord cs o)) = cov.
  Proof.
    induction cs as [|c cs IH]; intros o C; [split; [reflexivity|exact C]|]. cbn [do_calls]. rewrite call_times by exact C. pose proof (call_cov c o) as X.
    destruct (do_call fuel inv ord c o) as [o1 r]. cbn [fst snd] in X |- *. rewrite C in X. destruct (IH o1 X) as [I J]. rewrite I. destruct (do_calls fuel inv ord cs o1) as [o2 rs]. split; [reflexivity|exact J].
  Qed.
End Units.

(** ** The statements *)
Lemma measured_cla_times : forall a k labels mean cov b o1 o2, measured_cla a k labels mean cov b o1 o2 -> o2 = cla_times a k o1 /\ c_cov o1 = cov.
Proof.
  intros a k labels mean cov b o1 o2 (Ha & Hk & _ & _ & E1 & E2). unfold cla_init in E1, E2. rewrite map_length in E2.
  destruct (read_cla_bounds (length mean) b) as [[[lo hi] it]|e]; [|discriminate]. cbn [rbind] in E1, E2. injection E1 as <-. injection E2 as <-. split; reflexivity.
Qed.
Section Final.
  Variables (a k : R) (labels : option (list label)) (mean : list R) (cov : list (list R)) (b : cla_bounds R) (o1 o2 : cla R).
  Variables (fuel : nat) (inv : list (list R) -> res (list (list R))) (ord : list nat -> list nat).
  Hypotheses (HM : measured_cla a k labels mean cov b o1 o2) (Hs : sound_inverse inv) (Hc : complete_inverse inv) (He : singular_only inv).
  Ltac start := destruct (measured_cla_times _ _ _ _ _ _ _ _ HM) as [-> C]; pose proof HM as (Ha & Hk & Q & Y & _); pose proof (inverse_units inv _ k cov Hs Hc He Hk Q Y) as I.
  Theorem cla_units_calls : forall cs, snd (do_calls fuel inv ord cs o2) = snd (do_calls fuel inv ord cs o1).
  Proof. intros cs. start. destruct (calls_times a k Ha Hk fuel inv ord cov I cs o1 C) as [-> _]. reflexivity. Qed.
  Theorem cla_units_points : snd (solve fuel inv ord o2) = snd (solve fuel inv ord o1) /\
    Forall2 (same_point a k) (c_tp (fst (solve fuel inv ord o1))) (c_tp (fst (solve fuel inv ord o2))).
  Proof.
    start. rewrite (solve_times a k Ha Hk fuel inv ord cov I o1 C). cbn [fst snd cla_times c_tp]. split; [reflexivity|].
    generalize (c_tp (fst (solve fuel inv ord o1))). intros l. induction l as [|p l IH]; [constructor|]. cbn [map]. constructor; [|exact IH]. repeat split; reflexivity.
  Qed.
  Theorem cla_units_min : forall cs, snd (cla_min_volatility fuel inv ord (fst (do_calls fuel inv ord cs o2))) = snd (cla_min_volatility fuel inv ord (fst (do_calls fuel inv ord cs o1))).
  Proof.
    intros cs. start. destruct (calls_times a k Ha Hk fuel inv ord cov I cs o1 C) as [-> J]. cbn [fst]. rewrite (min_volatility_times a k Ha Hk fuel inv ord cov I) by exact J. reflexivity.
  Qed.
  Theorem cla_units_sharpe : forall cs, snd (cla_max_sharpe fuel inv ord (fst (do_calls fuel inv ord cs o2))) = snd (cla_max_sharpe fuel inv ord (fst (do_calls fuel inv ord cs o1))).
  Proof.
    intros cs. start. destruct (calls_times a k Ha Hk fuel inv ord cov I cs o1 C) as [-> J]. cbn [fst]. rewrite (max_sharpe_times a k Ha Hk fuel inv ord cov I) by exact J. reflexivity.
  Qed.
  Theorem cla_units_frontier : forall cs points, same_frontier a k (snd (cla_frontier fuel inv ord points (fst (do_calls fuel inv ord cs o1))))
    (snd (cla_frontier fuel inv ord points (fst (do_calls fuel inv ord cs o2)))).
  Proof.
    intros cs points. start. destruct (calls_times a k Ha Hk fuel inv ord cov I cs o1 C) as [-> J]. cbn [fst]. rewrite (frontier_times a k Ha Hk fuel inv ord cov I) by exact J. cbn [snd].
    destruct (snd (cla_frontier fuel inv ord points (fst (do_calls fuel inv ord cs o1)))) as [[[mu sg] ws]|e]; [|exact eq_refl]. repeat split; reflexivity.
  Qed.
  Theorem cla_units_performance : forall cs rf, same_figures a k (cla_performance rf (fst (do_calls fuel inv ord cs o1))) (cla_performance (a * rf) (fst (do_calls fuel inv ord cs o2))).
  Proof. intros cs rf. start. destruct (calls_times a k Ha Hk fuel inv ord cov I cs o1 C) as [-> _]. apply performance_times; assumption. Qed.
End Final.
Theorem cla_units_accepted : forall a k labels mean cov b, 
  (exists o, cla_init (Some (labels, mean)) cov b = Ok o) <-> (exists o, cla_init (Some (labels, map (Rmult a) mean)) (cov_times k cov) b = Ok o).
Proof.
  intros a k labels mean cov b. unfold cla_init. rewrite map_length. destruct (read_cla_bounds (length mean) b) as [[[lo hi] it]|e]; cbn [rbind]; split; intros [o E]; try discriminate; eexists; reflexivity.
Qed.
