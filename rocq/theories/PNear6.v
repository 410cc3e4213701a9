(** * Solvers of limited accuracy: semivariance *)
From Coq Require Import ZArith List String Bool Reals Lra Lia.
From Verif Require Import Num Py RBase PyLemmas MBase MConvex MEF MDown SLin SBase SConvex SDown SNear Sums PBase PConvex PEF PEF2 PEF4 PRisk PDown PDown2 PDown4 PDown5 PNear1 PNear4.
Import ListNotations.
Local Open Scope R_scope.

(** [y - p + n] within [t] of 0 with [p], [n] at least [- t] *)
Lemma split_near : forall t Y P N, List.length P = List.length Y -> List.length N = List.length Y ->
  Forall (fun d => Rabs d <= t) (map2 Rplus (map2 Rplus Y (map Ropp P)) N) -> Forall (fun y => 0 <= y + t) P -> Forall (fun y => 0 <= y + t) N ->
  Forall2 (fun y n => Rmax (- y) 0 <= n + 2 * t) Y N.
Proof.
  intros t. induction Y as [|y Y IH]; intros [|p P] [|n N] H1 H2 H HP HN; try discriminate; cbn [map map2] in *; [constructor|].
  inversion H; inversion HP; inversion HN; subst. injection H1 as H1. injection H2 as H2.
  constructor; [|apply (IH P N); assumption].
  match goal with A : Rabs _ <= t |- _ => pose proof (Rabs_pos (y + - p + n)); pose proof (Rle_abs (- (y + - p + n))) as G; rewrite Rabs_Ropp in G end.
  apply Rmax_lub; lra.
Qed.
Lemma meets_split : forall t s ps d p n v, List.length (s p) = sd_T d -> List.length (s n) = sd_T d ->
  meets t s ps (semi_split d p n v) ->
   Forall (fun x => Rabs x <= t) (map2 Rplus (map2 Rplus (matvec (semi_B d) (s v)) (map Ropp (s p))) (s n)).
Proof.
  intros t s ps d p n v Hp Hn. unfold semi_split, ESub, EScalar. cbn [meets eval]. rewrite bop_scalar_r.
  assert (L : List.length (matvec (semi_B d) (s v)) = sd_T d) by (rewrite matvec_inner; unfold semi_B; rewrite !map_length; reflexivity).
  rewrite (bop_eq_length Rplus (matvec _ _)) by (rewrite map_length; congruence).
  rewrite bop_eq_length by (rewrite map2_length_eq by (rewrite map_length; congruence); congruence).
  rewrite Forall_map. intros H; eapply Forall_impl; try exact H; cbn; intros a Ha. rewrite Rminus_0_r in Ha. exact Ha.
Qed.
(** the norm of a vector that grows by [k] in every entry *)
Lemma norm_shift : forall l k, 0 <= k -> sqrt (ssq (map (fun a => a + k) l)) <= sqrt (ssq l) + k * sqrt (INR (List.length l)).
Proof.
  intros l k Hk. set (q := sqrt (ssq l)). set (n := sqrt (INR (List.length l))).
  assert (Hq : 0 <= q) by apply sqrt_pos. assert (Hn : 0 <= n) by apply sqrt_pos.
  assert (Eq : q * q = ssq l) by (apply sqrt_sqrt; apply ssq_nonneg).
  assert (En : n * n = INR (List.length l)) by (apply sqrt_sqrt; apply pos_INR).
  assert (Ht : total l <= q * n).
  { destruct (Rle_lt_dec (total l) (q * n)) as [H|H]; [exact H|]. pose proof (total_sq l) as G. rewrite <- En, <- Eq in G.
    assert (Hqn : 0 <= q * n) by (apply Rmult_le_pos; assumption).
    assert (G2 : (q * n) * (q * n) < total l * total l) by nra.
    replace (n * n * (q * q)) with ((q * n) * (q * n)) in G by ring. lra. }
  rewrite ssq_shift by exact Hk. rewrite <- (sqrt_square (q + k * n)) by nra. apply sqrt_le_1_alt. rewrite <- Eq, <- En. nra.
Qed.
Lemma ssq_le : forall A B, Forall2 (fun a b => 0 <= a <= b) A B -> ssq A <= ssq B.
Proof.
  intros A B F. unfold ssq. induction F as [|a b A B H F IH]; cbn [map total]; [lra|]. nra.
Qed.

Lemma less_dev_le : forall c v q, 0 <= c -> 0 <= q -> (less_dev c v <= q <-> sqrt v <= sqrt q + c).
Proof.
  intros c v q Hc Hq. unfold less_dev. pose proof (sqrt_sqrt q Hq) as E. pose proof (sqrt_pos q) as Hp.
  pose proof (Rmax_l (sqrt v - c) 0) as H1. pose proof (Rmax_r (sqrt v - c) 0) as H2. split; intros H.
  - set (z := Rmax (sqrt v - c) 0) in *. assert (z <= sqrt q); [|lra].
    destruct (Rle_lt_dec z (sqrt q)) as [G|G]; [exact G|]. nra.
  - assert (Rmax (sqrt v - c) 0 <= sqrt q) by (apply Rmax_lub; lra). nra.
Qed.

Section NearSemi.
  Context (w : world) (o : ef) (u : list (nat * con)) (d : semi) (Hop : open_ef w o u) (Hr : semi_ready w o u d).
  Let rets := sd_returns d.
  Let T := sd_T d.
  Let p := List.length (w_sizes w).
  Let n := S p.
  Let sizes := w_sizes w ++ [T; T].
  (** how much smaller the deviation may look to the solver *)
  Let slack (t : R) : R := semi_slack T (sd_bench d) t.
  Definition near3 (t : R) (s : env) (ps : list R) : Prop :=
    meets t s ps (semi_split d p n (e_w o)) /\ meets t s ps (nonneg_var p) /\ meets t s ps (nonneg_var n).
  Lemma semi_near : forall t s ps c, 0 <= t -> well_sized sizes s -> near3 t s ps -> Rabs (total (s (e_w o)) - c) <= t ->
    less_dev (slack t) (semivariance rets (sd_bench d * c) (s (e_w o))) <= ssq (s n).
  Proof.
    intros t s ps c Ht Hs [H1 [H2 H3]] Hc. destruct (pn_length w d s Hs) as [Lp Ln]. fold p in Lp. fold p n in Ln. fold T in Lp, Ln.
    assert (Hw : well_sized (w_sizes w) s) by (apply (well_sized_app _ _ _ Hs)).
    apply meets_split in H1; [|exact Lp|exact Ln]. apply meets_nonneg_var in H2. apply meets_nonneg_var in H3.
    assert (L : List.length (matvec (semi_B d) (s (e_w o))) = T) by (rewrite matvec_inner; unfold semi_B; rewrite !map_length; reflexivity).
    pose proof (split_near t (matvec (semi_B d) (s (e_w o))) (s p) (s n) (eq_trans Lp (eq_sym L)) (eq_trans Ln (eq_sym L)) H1 H2 H3) as Hsp.
    pose proof (T_pos w o u d Hr) as HT. fold T in HT.
    assert (Hq : 0 < sqrt (INR T)) by (apply sqrt_lt_R0; exact HT).
    set (k := 2 * t + Rabs (sd_bench d) * t / sqrt (INR T)).
    assert (Hk : 0 <= k).
    { unfold k. assert (0 <= Rabs (sd_bench d) * t / sqrt (INR T)); [|lra]. apply Rmult_le_pos; [apply Rmult_le_pos; [apply Rabs_pos|exact Ht]|].
      left. apply Rinv_0_lt_compat. exact Hq. }
    rewrite semi_B_run in Hsp; [|destruct Hr as [[_ H] _]; rewrite (w_length w o u Hop) by exact Hw; exact H].
    fold rets T in Hsp. set (rs := period_returns rets (s (e_w o))) in *. set (b := sd_bench d * c) in *.
    assert (Hle : Forall2 (fun a x => 0 <= a <= x) (map (fun y => Rmax (- ((y - b) / sqrt (INR T))) 0) rs) (map (fun a => a + k) (s n))).
    { revert Hsp. generalize (s n) as N. clear -Hq Hc Hk Ht. subst b. induction rs as [|y rs IH]; intros N F; inversion F; subst; cbn [map]; [constructor|].
      constructor; [|apply IH; assumption]. split; [apply Rmax_r|].
      set (tt := total (s (e_w o))) in *.
      assert (Hd : Rabs (sd_bench d * tt - sd_bench d * c) <= Rabs (sd_bench d) * t).
      { rewrite <- Rmult_minus_distr_l, Rabs_mult. apply Rmult_le_compat_l; [apply Rabs_pos|exact Hc]. }
      assert (Hi : 0 < / sqrt (INR T)) by (apply Rinv_0_lt_compat; exact Hq).
      match goal with A : Rmax _ 0 <= _ |- _ => pose proof (Rmax_l (- ((y - sd_bench d * tt) / sqrt (INR T))) 0); pose proof (Rmax_r (- ((y - sd_bench d * tt) / sqrt (INR T))) 0) end.
      pose proof (Rle_abs (- (sd_bench d * tt - sd_bench d * c))) as G. rewrite Rabs_Ropp in G.
      assert (G' : (sd_bench d * c - sd_bench d * tt) * / sqrt (INR T) <= Rabs (sd_bench d) * t * / sqrt (INR T)) by (apply Rmult_le_compat_r; lra).
      assert (G0 : 0 <= Rabs (sd_bench d) * t * / sqrt (INR T)).
      { apply Rmult_le_pos; [apply Rmult_le_pos; [apply Rabs_pos|exact Ht]|lra]. }
      unfold k, Rdiv in *. apply Rmax_lub; lra. }
    apply ssq_le in Hle. rewrite ssq_div in Hle by exact HT.
    change (total (map (fun y => shortfall b y * shortfall b y) rs) / INR T) with (semivariance rets b (s (e_w o))) in Hle.
    pose proof (norm_shift (s n) k Hk) as Hn. rewrite Ln in Hn.
    assert (Hs1 : sqrt (semivariance rets b (s (e_w o))) <= sqrt (ssq (s n)) + k * sqrt (INR T)).
    { eapply Rle_trans; [apply sqrt_le_1_alt; exact Hle|exact Hn]. }
    assert (Ek : k * sqrt (INR T) = slack t) by (unfold k, slack, semi_slack; field; lra). rewrite Ek in Hs1.
    pose proof (sqrt_pos (ssq (s n))) as Hp. pose proof (sqrt_sqrt (ssq (s n)) (ssq_nonneg _)) as Es.
    unfold less_dev. assert (Hm : Rmax (sqrt (semivariance rets b (s (e_w o))) - slack t) 0 <= sqrt (ssq (s n))) by (apply Rmax_lub; lra).
    pose proof (Rmax_r (sqrt (semivariance rets b (s (e_w o))) - slack t) 0). rewrite <- Es. nra.
  Qed.

  Context (tol g : R) (sv : solver_t) (mn : bool) (Hsv : accurate_solver tol g sv).
  Let b := sd_bench d * (if mn then 0 else 1).
  Let shown (x : list R) : R := less_dev (slack tol) (semivariance rets b x).
  Lemma semi_near_gen : forall w1 o1 Y pe io e A (okn okv : list R -> R -> Prop) (ok : list R -> Prop) cost,
    e_opt o1 = None -> e_w o1 = e_w o -> e_base o1 = e_base o -> e_lb o1 = e_lb o -> e_ub o1 = e_ub o ->
    e_obj o1 = Some (io, e) -> e_cons o1 = e_cons o ++ Y -> w_sizes w1 = sizes -> par_values w1 = par_values w ++ pe ->
    (forall s, well_sized sizes s -> evals s (par_values w1) e = A (s (e_w o)) (ssq (s n)) + penalty s (par_values w) (e_add o)) ->
    (forall x q q', q <= q' -> A x q <= A x q') -> (forall x, A x (semivariance rets b x) = cost x) ->
    (forall s, Forall (fun ic => meets tol s (par_values w1) (snd ic)) Y -> okn (s (e_w o)) (ssq (s n))) ->
    (forall x q q', q <= q' -> okn x q' -> okn x q) ->
    (forall s, okv (s (e_w o)) (ssq (s n)) -> Forall (fun ic => sat s (par_values w1) (snd ic)) Y) ->
    (forall x, ok x -> okv x (semivariance rets b x)) ->
    forall w' o' dd,
    bind (add_split d p n) (fun _ => bind (make_weight_sum_constraint mn) (fun _ => solve_and_output sv)) w1 o1 = (w', o', Ok dd) ->
    exists lb ub s, bounds_in_force mn o lb ub /\
      near_at tol g w o u lb ub (if mn then 0 else 1) (fun x => okn x (shown x)) ok (fun x => A x (shown x)) cost (e_weights o') dd s.
  Proof.
    intros w1 o1 Y pe io e A okn okv ok cost Ho1 Ew Eb El Eu He Ec Es Ep Hobj Amono Acost Hokn Nmono Hok Ocost w' o' dd H.
    pose proof Hop as [Ho [[i [j Hc]] _]].
    unfold bind at 1 in H. rewrite add_split_run in H by exact Ho1.
    set (w2 := mkWorld _ _ _ _) in H at 1. set (o2 := set_cons _ _) in H.
    assert (Hall : forall k s ps, Forall (fun ic => sat s ps (snd ic))
       [(k, semi_split d p n (e_w o)); (S k, nonneg_var p); (S (S k), nonneg_var n)] <-> all3 w o d s ps).
    { intros. rewrite !Forall_cons_iff'. cbn [snd]. unfold all3. pose proof (Forall_nil (fun ic : nat * con => sat s ps (snd ic))). tauto. }
    assert (Hall' : forall k s ps, Forall (fun ic => meets tol s ps (snd ic))
       [(k, semi_split d p n (e_w o)); (S k, nonneg_var p); (S (S k), nonneg_var n)] -> near3 tol s ps).
    { intros k s ps. rewrite !Forall_cons_iff'. cbn [snd]. unfold near3. tauto. }
    destruct (near_aux tol g sv mn w w2 o o2 u (Y ++ [(w_next w1, semi_split d p n (e_w o)); (S (w_next w1), nonneg_var p); (S (S (w_next w1)), nonneg_var n)])
      i j io e (fun x => okn x (shown x)) ok (fun x => A x (shown x)) cost (fun s => A (s (e_w o)) (ssq (s n))) pe [T; T]
      Hsv Hop Ho1 He Ew Eb El Eu) with (w' := w') (o' := o') (d := dd)
      as [lb [ub [s [H1 [H2 _]]]]].
    - unfold o2. cbn [e_cons set_cons]. rewrite Ec, Hc, Ew. cbn [app]. rewrite <- app_assoc. reflexivity.
    - exact Es.
    - exact Ep.
    - intros s Hs. apply Hobj. unfold w2 in Hs. cbn [w_sizes] in Hs. rewrite Es in Hs. exact Hs.
    - intros s Hs Ht HX. change (w_sizes w2) with (w_sizes w1) in Hs. rewrite Es in Hs.
      change (par_values w2) with (par_values w1) in HX.
      apply Forall_app in HX. destruct HX as [HX1 HX2]. apply Hall' in HX2.
      assert (Htol : 0 <= tol) by (pose proof (Rabs_pos (total (s (e_w o)) - (if mn then 0 else 1))); lra).
      pose proof (semi_near tol s _ _ Htol Hs HX2 Ht) as Hle. fold b in Hle. fold (shown (s (e_w o))) in Hle.
      split; [apply (Nmono _ _ _ Hle); apply Hokn; exact HX1|]. apply Amono. exact Hle.
    - intros s Hs Ht Hk. destruct (semi_complete w o u d Hop Hr s (par_values w2) Hs) as [s' [C1 [C2 [C3 C4]]]].
      rewrite Ht in C4. fold p in C4. fold n in C4. fold rets in C4. fold b in C4. exists s'. change (w_sizes w2) with (w_sizes w1). rewrite Es. split; [exact C1|]. split; [exact C2|].
      split; [apply Forall_app; split; [|apply Hall; exact C3]|].
      + change (par_values w2) with (par_values w1). apply Hok. rewrite C4, C2 by (left; reflexivity). apply Ocost. exact Hk.
      + rewrite C4, C2 by (left; reflexivity). rewrite Acost. apply Rle_refl.
    - exact H.
    - exists lb, ub, s. split; [exact H1|exact H2].
  Qed.

  Lemma min_semivariance_near : forall w' o' dd, min_semivariance sv d mn w o = (w', o', Ok dd) ->
    exists lb ub s, bounds_in_force mn o lb ub /\
      near_at tol g w o u lb ub (if mn then 0 else 1) (fun _ => True) (fun _ => True) shown (semivariance rets b) (e_weights o') dd s.
  Proof.
    intros w' o' dd H. pose proof Hop as [Ho [[i [j Hc]] [Hl [Hu [Hn [Hq [Hm [Ha [Has Hus]]]]]]]]].
    unfold min_semivariance in H. do 3 unfold bind at 1 in H. unfold new_var in H. cbn [w_sizes w_val w_params w_next] in H.
    rewrite set_objective_full_run, app_length, Nat.add_comm in H. cbn [w_sizes w_val w_params w_next plus List.length] in H.
    fold p in H. fold n in H.
    set (w1 := mkWorld _ _ _ _) in H at 1.
    apply (semi_near_gen w1 _ [] [] (w_next w) (add_all (ESumSq (EVar n)) (e_add o)) (fun _ q => q) (fun _ _ => True) (fun _ _ => True)
      (fun _ => True) (semivariance rets b)) in H; try reflexivity; try assumption; try tauto.
    - cbn [e_cons set_obj]. rewrite app_nil_r. reflexivity.
    - unfold w1, sizes, T. cbn [w_sizes]. rewrite <- app_assoc. reflexivity.
    - rewrite app_nil_r. reflexivity.
    - intros s Hs. change (par_values w1) with (par_values w). apply evals_add_all'; [apply eval_ssq|exact Ha].
    - intros s _. constructor.
  Qed.

  Lemma semi_risk_near : forall t m w' o' dd, e_mu o = Some m -> fresh_name w o "target_semivariance" -> 0 <= sd_freq d ->
    semi_efficient_risk sv d t mn w o = (w', o', Ok dd) ->
    exists lb ub s, bounds_in_force mn o lb ub /\
      near_at tol g w o u lb ub (if mn then 0 else 1) (fun x => sd_freq d * shown x <= t * t + tol)
        (fun x => sd_freq d * semivariance rets b x <= t * t) (fun x => - inner m x) (fun x => - inner m x) (e_weights o') dd s.
  Proof.
    intros t m w' o' dd Em Hf Hfr H. pose proof Hop as [Ho [[i [j Hc]] [Hl [Hu [Hn [Hq [Hm [Ha [Has Hus]]]]]]]]].
    unfold semi_efficient_risk in H. unfold bind at 1 in H. rewrite not_defined_run in H by exact Hf.
    unfold bind at 1 2, get in H. unfold bind at 1 in H. rewrite (need_mu_run w o m Em (Hm m Em)) in H.
    unfold bind at 1 in H. rewrite set_objective_full_run in H. do 2 unfold bind at 1 in H.
    unfold new_var in H. cbn [w_sizes w_val w_params w_next] in H. rewrite app_length, Nat.add_comm in H. cbn [plus List.length] in H.
    fold p in H. fold n in H. unfold bind at 1 in H. rewrite new_param_run in H by (intros _; nra). cbn [w_sizes w_val w_params w_next] in H.
    unfold bind at 1 in H. rewrite add_constraint_open in H by exact Ho. cbn [w_sizes w_val w_params w_next] in H.
    set (w1 := mkWorld _ _ _ _) in H at 1. set (o1 := set_cons _ _) in H.
    assert (Hpv : par_values w1 = par_values w ++ [t * t]) by (unfold w1, par_values; cbn [w_params]; rewrite map_app; reflexivity).
    change (bind (bind (add_split d p n) (fun _ => make_weight_sum_constraint mn)) (fun _ => solve_and_output sv) w1 o1 = (w', o', Ok dd)) in H.
    rewrite bind_assoc in H.
    assert (Ev : forall s, eval s (par_values w1) (EMul (EScalar (sd_freq d)) (ESumSq (EVar n))) = [sd_freq d * ssq (s n)]).
    { intros s. assert (E : forall a c, eval s (par_values w1) (EMul a c) = bop Rmult (eval s (par_values w1) a) (eval s (par_values w1) c)) by reflexivity.
      rewrite E, eval_ssq. reflexivity. }
    assert (Ev' : forall s, eval s (par_values w1) (EPar (List.length (w_params w))) = [t * t]).
    { intros s. cbn [eval]. rewrite Hpv, par_new. reflexivity. }
    apply (semi_near_gen w1 o1 [(S (w_next w), CIneq (EMul (EScalar (sd_freq d)) (ESumSq (EVar n))) (EPar (List.length (w_params w))))] [t * t]
      (w_next w) (add_all (portfolio_return_e (EVar (e_w o)) m true) (e_add o)) (fun x _ => - inner m x)
      (fun _ q => sd_freq d * q <= t * t + tol) (fun _ q => sd_freq d * q <= t * t)
      (fun x => sd_freq d * semivariance rets b x <= t * t) (fun x => - inner m x)) in H; try reflexivity; try assumption; try tauto.
    - unfold w1, sizes, T. cbn [w_sizes]. rewrite <- app_assoc. reflexivity.
    - intros s Hs. rewrite evals_add_all by (auto; apply scalar_ret). rewrite evals_ret. cbn [sign_of].
      rewrite (penalty_world w w1 s (e_add o) [t * t] Hpv Has). lra.
    - intros; lra.
    - intros s. rewrite Forall_cons_iff'. cbn [snd].
      rewrite (meets_ineq1 tol s _ _ _ (sd_freq d * ssq (s n)) (t * t)); [intros [Hx _]; exact Hx|apply Ev|apply Ev'].
    - intros x q q' Hq1 Hq2. nra.
    - intros s Hx. constructor; [|constructor]. cbn [snd].
      rewrite (sat_ineq1 s _ _ _ (sd_freq d * ssq (s n)) (t * t)); [exact Hx|apply Ev|apply Ev'].
  Qed.

  Lemma semi_return_near : forall t m w' o' dd, e_mu o = Some m -> fresh_name w o "target_return" ->
    semi_efficient_return sv d (NFloat t) mn w o = (w', o', Ok dd) ->
    0 <= t /\ exists lb ub s, bounds_in_force mn o lb ub /\
      near_at tol g w o u lb ub (if mn then 0 else 1) (fun x => t <= inner m x + tol) (fun x => t <= inner m x)
        shown (semivariance rets b) (e_weights o') dd s.
  Proof.
    intros t m w' o' dd Em Hf H. pose proof Hop as [Ho [[i [j Hc]] [Hl [Hu [Hn [Hq [Hm [Ha [Has Hus]]]]]]]]].
    unfold semi_efficient_return in H. destruct (Rltb t 0) eqn:Et; [discriminate H|]. apply Rltb_false in Et. split; [exact Et|].
    unfold bind at 1, get in H. rewrite Em in H. destruct (list_max (map Rabs m)) as [mx|]; [|discriminate H].
    destruct (Rltb mx t); [discriminate H|].
    unfold bind at 1 in H. rewrite not_defined_run in H by exact Hf.
    do 3 unfold bind at 1 in H. unfold bind at 1 in H. unfold new_var in H. cbn [w_sizes w_val w_params w_next] in H. rewrite app_length, Nat.add_comm in H. cbn [plus List.length] in H.
    fold p in H. fold n in H. rewrite set_objective_full_run in H. unfold bind at 1 in H. 
    rewrite new_param_run in H by discriminate. cbn [w_sizes w_val w_params w_next] in H.
    unfold bind at 1 in H. erewrite (need_mu_run _ _ m) in H; [|exact Em|exact (Hm m Em)].
    unfold bind at 1 in H. rewrite add_constraint_open in H by exact Ho. cbn [w_sizes w_val w_params w_next] in H.
    set (w1 := mkWorld _ _ _ _) in H at 1. set (o1 := set_cons _ _) in H.
    assert (Hpv : par_values w1 = par_values w ++ [t]) by (unfold w1, par_values; cbn [w_params]; rewrite map_app; reflexivity).
    change (bind (bind (add_split d p n) (fun _ => make_weight_sum_constraint mn)) (fun _ => solve_and_output sv) w1 o1 = (w', o', Ok dd)) in H.
    rewrite bind_assoc in H.
    assert (Ev : forall s, eval s (par_values w1) (ESum (EDot m (EVar (e_w o)))) = [inner m (s (e_w o))]).
    { intros s. cbn [eval]. rewrite vsum_total, dot_inner. cbn [total]. f_equal. lra. }
    assert (Ev' : forall s, eval s (par_values w1) (EPar (List.length (w_params w))) = [t]).
    { intros s. cbn [eval]. rewrite Hpv, par_new. reflexivity. }
    apply (semi_near_gen w1 o1 [(S (w_next w), CIneq (EPar (List.length (w_params w))) (ESum (EDot m (EVar (e_w o)))))] [t]
      (w_next w) (add_all (ESumSq (EVar n)) (e_add o)) (fun _ q => q) (fun x _ => t <= inner m x + tol) (fun x _ => t <= inner m x)
      (fun x => t <= inner m x) (semivariance rets b)) in H; try reflexivity; try assumption; try tauto.
    - unfold w1, sizes, T. cbn [w_sizes]. rewrite <- app_assoc. reflexivity.
    - intros s Hs. rewrite (evals_add_all' s _ _ _ (ssq (s n))); [|apply eval_ssq|exact Ha].
      rewrite (penalty_world w w1 s (e_add o) [t] Hpv Has). lra.
    - intros s. rewrite Forall_cons_iff'. cbn [snd].
      rewrite (meets_ineq1 tol s _ _ _ t (inner m (s (e_w o)))); [intros [Hx _]; exact Hx|apply Ev'|apply Ev].
    - intros s Hx. constructor; [|constructor]. cbn [snd].
      rewrite (sat_ineq1 s _ _ _ t (inner m (s (e_w o)))); [exact Hx|apply Ev'|apply Ev].
  Qed.

  Lemma semi_utility_near : forall k m w' o' dd, e_mu o = Some m -> fresh_name w o "risk_aversion" ->
    semi_max_quadratic_utility sv d k mn w o = (w', o', Ok dd) ->
    0 < k /\ exists lb ub s, bounds_in_force mn o lb ub /\
      near_at tol g w o u lb ub (if mn then 0 else 1) (fun _ => True) (fun _ => True)
        (fun x => - inner m x / sd_freq d + 1 / 2 * k * shown x)
        (fun x => - inner m x / sd_freq d + 1 / 2 * k * semivariance rets b x) (e_weights o') dd s.
  Proof.
    intros k m w' o' dd Em Hf H. pose proof Hop as [Ho [[i [j Hc]] [Hl [Hu [Hn [Hq [Hm [Ha [Has Hus]]]]]]]]].
    unfold semi_max_quadratic_utility in H. destruct (Rleb k 0) eqn:Et; [discriminate H|].
    assert (Hk : 0 < k). { destruct (Rle_lt_dec k 0) as [Hx|Hx]; [|exact Hx]. apply Rleb_true in Hx. congruence. }
    split; [exact Hk|].
    unfold bind at 1 in H. rewrite not_defined_run in H by exact Hf.
    do 3 unfold bind at 1 in H. unfold new_var in H. cbn [w_sizes w_val w_params w_next] in H. rewrite app_length, Nat.add_comm in H. cbn [plus List.length] in H.
    fold p in H. fold n in H. unfold bind at 1, get in H.
    unfold bind at 1 in H. erewrite (need_mu_run _ _ m) in H; [|exact Em|exact (Hm m Em)].
    unfold bind at 1 in H. rewrite new_param_run in H by (intros _; lra). cbn [w_sizes w_val w_params w_next] in H.
    unfold bind at 1 in H. rewrite set_objective_full_run in H. cbn [w_sizes w_val w_params w_next] in H.
    set (w1 := mkWorld _ _ _ _) in H at 1. set (o1 := set_obj _ _) in H.
    assert (Hpv : par_values w1 = par_values w ++ [k]) by (unfold w1, par_values; cbn [w_params]; rewrite map_app; reflexivity).
    change (bind (bind (add_split d p n) (fun _ => make_weight_sum_constraint mn)) (fun _ => solve_and_output sv) w1 o1 = (w', o', Ok dd)) in H.
    rewrite bind_assoc in H.
    eapply (semi_near_gen w1 o1 [] [k]
      (w_next w) _ (fun x q => - inner m x / sd_freq d + 1 / 2 * k * q) (fun _ _ => True) (fun _ _ => True)
      (fun _ => True) (fun x => - inner m x / sd_freq d + 1 / 2 * k * semivariance rets b x)) in H; try reflexivity; try assumption; try tauto.
    - unfold o1. cbn [e_cons set_obj]. rewrite app_nil_r. reflexivity.
    - unfold w1, sizes, T. cbn [w_sizes]. rewrite <- app_assoc. reflexivity.
    - intros s Hs. rewrite (evals_add_all' s _ _ _ (- inner m (s (e_w o)) / sd_freq d + 1 / 2 * k * ssq (s n))); [| |exact Ha].
      + rewrite (penalty_world w w1 s (e_add o) [k] Hpv Has). lra.
      + assert (E1 : forall a c, eval s (par_values w1) (EMul a c) = bop Rmult (eval s (par_values w1) a) (eval s (par_values w1) c)) by reflexivity.
        assert (E2 : forall a c, eval s (par_values w1) (EAdd a c) = bop Rplus (eval s (par_values w1) a) (eval s (par_values w1) c)) by reflexivity.
        rewrite E2, !E1, eval_ssq. cbn [eval EScalar]. rewrite Hpv, par_new. 
        unfold portfolio_return_e. cbn [eval sign_of EScalar bop map]. rewrite dot_inner. cbn [bop map]. f_equal. unfold Rdiv. ring.
    - intros x q q' Hqq. nra.
    - intros s _. constructor.
  Qed.
End NearSemi.
