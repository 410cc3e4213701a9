(** * Semivariance (C34, C35) *)
From Coq Require Import ZArith List String Bool Reals Lra Lia.
From Verif Require Import Num Py RBase PyLemmas MBase MConvex MEF MDown SLin SBase SConvex SDown Sums PBase PConvex PEF PEF2 PEF4 PRisk PDown PDown2.
Import ListNotations.
Local Open Scope R_scope.

Lemma inner_shift : forall b c row x, List.length row = List.length x ->
  inner (map (fun v => (v - b) / c) row) x = (inner row x - b * total x) / c.
Proof.
  intros b c. induction row as [|v row IH]; intros [|y x] H; try discriminate H; cbn [map inner total].
  - unfold Rdiv. ring.
  - injection H as H. rewrite (IH x H). unfold Rdiv. ring.
Qed.
Lemma semi_B_run : forall d x, Forall (fun row => List.length row = List.length x) (sd_returns d) ->
  matvec (semi_B d) x = map (fun y => (y - sd_bench d * total x) / sqrt (INR (sd_T d))) (period_returns (sd_returns d) x).
Proof.
  intros d x H. rewrite matvec_inner. unfold semi_B, period_returns. generalize (sqrt (INR (sd_T d))) as c. intros c.
  rewrite !map_map. apply map_ext_Forall. eapply Forall_impl; [|exact H]. cbn beta. intros row Hr. apply inner_shift. exact Hr.
Qed.

Definition ssq (l : list R) : R := total (map (fun x => x * x) l).
Lemma ssq_nonneg : forall l, 0 <= ssq l.
Proof. intros l. apply total_nonneg. apply Forall_map, Forall_forall. intros; nra. Qed.

(** [y - p + n = 0] with [p], [n] non-negative *)
Lemma split_sound : forall Y P N, List.length P = List.length Y -> List.length N = List.length Y ->
  Forall (fun d => d = 0) (map2 Rplus (map2 Rplus Y (map Ropp P)) N) -> Forall (fun y => 0 <= y) P -> Forall (fun y => 0 <= y) N ->
  ssq (map (fun y => Rmax (- y) 0) Y) <= ssq N.
Proof.
  unfold ssq. induction Y as [|y Y IH]; intros [|p P] [|n N] H1 H2 H HP HN; try discriminate; cbn [map map2 total] in *; [lra|].
  inversion H; inversion HP; inversion HN; subst. injection H1 as H1. injection H2 as H2.
  specialize (IH P N H1 H2 ltac:(assumption) ltac:(assumption) ltac:(assumption)).
  assert (Hm : Rmax (- y) 0 <= n) by (apply Rmax_lub; lra). pose proof (Rmax_r (- y) 0). nra.
Qed.
Lemma split_complete : forall Y,
  Forall (fun d => d = 0) (map2 Rplus (map2 Rplus Y (map Ropp (map (fun y => Rmax y 0) Y))) (map (fun y => Rmax (- y) 0) Y)).
Proof.
  induction Y as [|y Y IH]; cbn [map map2]; constructor; auto.
  unfold Rmax. destruct (Rle_dec y 0), (Rle_dec (- y) 0); lra.
Qed.
Lemma sat_split : forall s ps d p n v, List.length (s p) = sd_T d -> List.length (s n) = sd_T d ->
  (sat s ps (semi_split d p n v) <->
   Forall (fun x => x = 0) (map2 Rplus (map2 Rplus (matvec (semi_B d) (s v)) (map Ropp (s p))) (s n))).
Proof.
  intros s ps d p n v Hp Hn. unfold semi_split, ESub, EScalar. cbn [sat eval]. rewrite bop_scalar_r.
  assert (L : List.length (matvec (semi_B d) (s v)) = sd_T d) by (rewrite matvec_inner; unfold semi_B; rewrite !map_length; reflexivity).
  rewrite (bop_eq_length Rplus (matvec _ _)) by (rewrite map_length; congruence).
  rewrite bop_eq_length by (rewrite map2_length_eq by (rewrite map_length; congruence); congruence).
  rewrite Forall_map. split; intros H; eapply Forall_impl; try exact H; cbn; intros; lra.
Qed.
Lemma shortfall_max : forall b y, shortfall b y = Rmax (b - y) 0.
Proof. intros b y. unfold shortfall, Rmax. destruct (Rlt_dec y b), (Rle_dec (b - y) 0); lra. Qed.
Lemma ssq_div : forall b T rs, 0 < T ->
  ssq (map (fun y => Rmax (- ((y - b) / sqrt T)) 0) rs) = total (map (fun y => shortfall b y * shortfall b y) rs) / T.
Proof.
  intros b T rs HT. assert (Hs : 0 < sqrt T) by (apply sqrt_lt_R0; exact HT). assert (Hq : sqrt T * sqrt T = T) by (apply sqrt_sqrt; lra).
  unfold ssq. rewrite map_map. induction rs as [|y rs IH]; cbn [map total]; [unfold Rdiv; ring|]. rewrite IH.
  assert (E : Rmax (- ((y - b) / sqrt T)) 0 = shortfall b y / sqrt T).
  { rewrite shortfall_max. replace (- ((y - b) / sqrt T)) with ((b - y) / sqrt T) by (unfold Rdiv; ring).
    assert (Hi : 0 < / sqrt T) by (apply Rinv_0_lt_compat; exact Hs). unfold Rmax, Rdiv.
    destruct (Rle_dec ((b - y) * / sqrt T) 0), (Rle_dec (b - y) 0); try nra; ring. }
  assert (Ei : / T = / sqrt T * / sqrt T) by (rewrite <- Rinv_mult; rewrite Hq; reflexivity).
  rewrite E. unfold Rdiv. rewrite Ei. ring.
Qed.

Lemma add_split_run : forall d p n w o, e_opt o = None ->
  add_split d p n w o = (mkWorld (w_sizes w) (w_val w) (w_params w) (S (S (S (w_next w)))),
    set_cons (e_cons o ++ [(w_next w, semi_split d p n (e_w o)); (S (w_next w), nonneg_var p); (S (S (w_next w)), nonneg_var n)]) o, Ok tt).
Proof.
  intros d p n w o H. unfold add_split, bind. do 3 (rewrite add_constraint_open by exact H).
  cbn [w_sizes w_val w_params w_next]. rewrite !set_cons_cons.
  cbn [e_cons set_cons e_w]. rewrite <- !app_assoc. reflexivity.
Qed.

Lemma eval_ssq : forall s ps n, eval s ps (ESumSq (EVar n)) = [ssq (s n)].
Proof. intros. cbn [eval]. rewrite vsum_total. reflexivity. Qed.
Lemma bind_assoc : forall S X Y Z (a : M S X) (f : X -> M S Y) (g : Y -> M S Z) w o,
  bind (bind a f) g w o = bind a (fun x => bind (f x) g) w o.
Proof. intros. unfold bind. destruct (a w o) as [[w1 o1] [x|e]]; reflexivity. Qed.

Section Semi.
  Context (w : world) (o : ef) (u : list (nat * con)) (d : semi) (Hop : open_ef w o u) (Hr : semi_ready w o u d).
  Let rets := sd_returns d.
  Let T := sd_T d.
  Let p := List.length (w_sizes w).
  Let n := S p.
  Let sizes := w_sizes w ++ [T; T].

  Lemma w_length : forall s, well_sized (w_sizes w) s -> List.length (s (e_w o)) = e_n o.
  Proof. destruct Hop as [_ [_ [_ [_ [Hn _]]]]]. intros s Hs. exact (sized_nth _ _ _ _ Hs Hn). Qed.
  Lemma T_pos : 0 < INR T.
  Proof. destruct Hr as [[H _] _]. apply lt_0_INR. exact H. Qed.
  Lemma pn_length : forall s, well_sized sizes s -> List.length (s p) = T /\ List.length (s n) = T.
  Proof.
    intros s Hs. unfold sizes in Hs. split; (eapply sized_nth; [exact Hs|]); unfold n, p; rewrite nth_error_app2 by lia.
    - rewrite Nat.sub_diag. reflexivity.
    - replace (S (List.length (w_sizes w)) - List.length (w_sizes w))%nat with 1%nat by lia. reflexivity.
  Qed.
  Definition all3 (s : env) (ps : list R) : Prop :=
    sat s ps (semi_split d p n (e_w o)) /\ sat s ps (nonneg_var p) /\ sat s ps (nonneg_var n).
  Lemma semi_Y : forall s, well_sized (w_sizes w) s ->
    ssq (map (fun y => Rmax (- y) 0) (matvec (semi_B d) (s (e_w o)))) = semivariance rets (sd_bench d * total (s (e_w o))) (s (e_w o)).
  Proof.
    intros s Hs. rewrite semi_B_run.
    - rewrite map_map. apply ssq_div. exact T_pos.
    - destruct Hr as [[_ H] _]. rewrite w_length by exact Hs. exact H.
  Qed.
  Lemma semi_sound : forall s ps, well_sized sizes s -> all3 s ps ->
    semivariance rets (sd_bench d * total (s (e_w o))) (s (e_w o)) <= ssq (s n).
  Proof.
    intros s ps Hs [H1 [H2 H3]]. destruct (pn_length s Hs) as [Lp Ln].
    assert (Hw : well_sized (w_sizes w) s) by (apply (well_sized_app _ _ _ Hs)).
    apply sat_split in H1; [|exact Lp|exact Ln]. rewrite sat_nonneg_var in H2, H3. rewrite <- semi_Y by exact Hw.
    assert (L : List.length (matvec (semi_B d) (s (e_w o))) = T) by (rewrite matvec_inner; unfold semi_B; rewrite !map_length; reflexivity).
    apply (split_sound _ (s p)); congruence.
  Qed.
  Lemma semi_complete : forall s ps, well_sized (w_sizes w) s -> exists s', well_sized sizes s' /\
    (forall v, uses o u v -> s' v = s v) /\ all3 s' ps /\
    ssq (s' n) = semivariance rets (sd_bench d * total (s (e_w o))) (s (e_w o)).
  Proof.
    intros s ps Hs. set (Y := matvec (semi_B d) (s (e_w o))).
    assert (L : List.length Y = T) by (unfold Y; rewrite matvec_inner; unfold semi_B; rewrite !map_length; reflexivity).
    set (s' := upd (upd s p (map (fun y => Rmax y 0) Y)) n (map (fun y => Rmax (- y) 0) Y)).
    assert (Hpn : p <> n) by (unfold n; lia).
    assert (Vp : s' p = map (fun y => Rmax y 0) Y) by (unfold s'; rewrite upd_other by exact Hpn; apply upd_same).
    assert (Vn : s' n = map (fun y => Rmax (- y) 0) Y) by (unfold s'; apply upd_same).
    assert (Vs : forall v, (v < p)%nat -> s' v = s v).
    { intros v Hv. unfold s'. rewrite !upd_other; [reflexivity|lia|unfold n; lia]. }
    assert (Vu : forall v, uses o u v -> s' v = s v) by (intros v Hv; apply Vs; destruct Hr as [_ H]; apply H; exact Hv).
    exists s'. split; [|split; [exact Vu|split]].
    - intros v Hv. unfold sizes in *. rewrite app_length in Hv. cbn [List.length] in Hv. fold p in Hv.
      destruct (Nat.lt_ge_cases v p) as [Hlt|Hge].
      + rewrite Vs by exact Hlt. rewrite app_nth1 by exact Hlt. apply Hs. exact Hlt.
      + rewrite app_nth2 by exact Hge. fold p. assert (Hc : v = p \/ v = n) by (unfold n; lia). destruct Hc as [-> | ->].
        * rewrite Vp, map_length, Nat.sub_diag. exact L.
        * rewrite Vn, map_length. unfold n. replace (S p - p)%nat with 1%nat by lia. exact L.
    - unfold all3. rewrite !sat_nonneg_var, sat_split by (rewrite ?Vp, ?Vn, map_length; exact L).
      rewrite Vp, Vn, (Vu (e_w o)) by (left; reflexivity). split; [apply split_complete|].
      split; apply Forall_map, Forall_forall; intros; apply Rmax_r.
    - rewrite Vn. apply semi_Y. exact Hs.
  Qed.

  Context (sv : solver_t) (mn : bool) (Hsv : exact_solver sv).
  (** the benchmark in force: the weights' sum times the benchmark *)
  Let b := sd_bench d * (if mn then 0 else 1).
  Lemma semi_gen : forall w1 o1 Y pe io e A okv ok cost,
    e_opt o1 = None -> e_w o1 = e_w o -> e_base o1 = e_base o -> e_lb o1 = e_lb o -> e_ub o1 = e_ub o ->
    e_obj o1 = Some (io, e) -> e_cons o1 = e_cons o ++ Y -> w_sizes w1 = sizes -> par_values w1 = par_values w ++ pe ->
    (forall s, well_sized sizes s -> evals s (par_values w1) e = A (s (e_w o)) (ssq (s n)) + penalty s (par_values w) (e_add o)) ->
    (forall x q q', q <= q' -> A x q <= A x q') -> (forall x, A x (semivariance rets b x) = cost x) ->
    (forall s, Forall (fun ic => sat s (par_values w1) (snd ic)) Y <-> okv (s (e_w o)) (ssq (s n))) ->
    (forall x q q', q <= q' -> okv x q' -> okv x q) -> (forall x, okv x (semivariance rets b x) <-> ok x) ->
    forall w' o' dd,
    bind (add_split d p n) (fun _ => bind (make_weight_sum_constraint mn) (fun _ => solve_and_output sv)) w1 o1 = (w', o', Ok dd) ->
    exists lb ub, bounds_in_force mn o lb ub /\
      best_portfolio w o u lb ub (if mn then 0 else 1) ok cost (e_weights o') dd /\ e_mu o' = e_mu o1.
  Proof.
    intros w1 o1 Y pe io e A okv ok cost Ho1 Ew Eb El Eu He Ec Es Ep Hobj Amono Acost Hok Omono Ocost w' o' dd H.
    pose proof Hop as [Ho [[i [j Hc]] _]].
    unfold bind at 1 in H. rewrite add_split_run in H by exact Ho1.
    set (w2 := mkWorld _ _ _ _) in H at 1. set (o2 := set_cons _ _) in H.
    assert (Hall : forall k s ps, Forall (fun ic => sat s ps (snd ic))
       [(k, semi_split d p n (e_w o)); (S k, nonneg_var p); (S (S k), nonneg_var n)] <-> all3 s ps).
    { intros. rewrite !Forall_cons_iff'. cbn [snd]. unfold all3. pose proof (Forall_nil (fun ic : nat * con => sat s ps (snd ic))). tauto. }
    destruct (weight_sum_aux sv mn w w2 o o2 u (Y ++ [(w_next w1, semi_split d p n (e_w o)); (S (w_next w1), nonneg_var p); (S (S (w_next w1)), nonneg_var n)])
      i j io e ok cost (fun s => A (s (e_w o)) (ssq (s n))) pe [T; T]
      Hsv Hop Ho1 He Ew Eb El Eu) with (w' := w') (o' := o') (d := dd)
      as [lb [ub [s [H1 [H2 [H3 [H4 [H5 [H6 H7]]]]]]]]].
    - unfold o2. cbn [e_cons set_cons]. rewrite Ec, Hc, Ew. cbn [app]. rewrite <- app_assoc. reflexivity.
    - exact Es.
    - exact Ep.
    - intros s Hs. apply Hobj. unfold w2 in Hs. cbn [w_sizes] in Hs. rewrite Es in Hs. exact Hs.
    - intros s Hs Ht HX. change (w_sizes w2) with (w_sizes w1) in Hs. rewrite Es in Hs.
      change (par_values w2) with (par_values w1) in HX.
      apply Forall_app in HX. destruct HX as [HX1 HX2]. apply Hall in HX2. pose proof (semi_sound s _ Hs HX2) as Hle.
      rewrite Ht in Hle. fold b in Hle. split; [apply Ocost; apply (Omono _ _ _ Hle); apply Hok; exact HX1|].
      rewrite <- Acost. apply Amono. exact Hle.
    - intros s Hs Ht Hk. destruct (semi_complete s (par_values w2) Hs) as [s' [C1 [C2 [C3 C4]]]].
      rewrite Ht in C4. fold b in C4. exists s'. change (w_sizes w2) with (w_sizes w1). rewrite Es. split; [exact C1|]. split; [exact C2|].
      split; [apply Forall_app; split; [|apply Hall; exact C3]|].
      + change (par_values w2) with (par_values w1). apply Hok. rewrite C4, C2 by (left; reflexivity). apply Ocost. exact Hk.
      + rewrite C4, C2 by (left; reflexivity). rewrite Acost. apply Rle_refl.
    - exact H.
    - exists lb, ub. split; [exact H1|]. split; [exists s; exact H2|exact H6].
  Qed.


  (** C34: min_semivariance *)
  Lemma min_semivariance_best : forall w' o' dd, min_semivariance sv d mn w o = (w', o', Ok dd) ->
    exists lb ub, bounds_in_force mn o lb ub /\
      best_portfolio w o u lb ub (if mn then 0 else 1) (fun _ => True) (semivariance rets b) (e_weights o') dd /\ e_mu o' = e_mu o.
  Proof.
    intros w' o' dd H. pose proof Hop as [Ho [[i [j Hc]] [Hl [Hu [Hn [Hq [Hm [Ha [Has Hus]]]]]]]]].
    unfold min_semivariance in H. do 3 unfold bind at 1 in H. unfold new_var in H. cbn [w_sizes w_val w_params w_next] in H.
    rewrite set_objective_full_run, app_length, Nat.add_comm in H. cbn [w_sizes w_val w_params w_next plus List.length] in H.
    fold p in H. fold n in H.
    set (w1 := mkWorld _ _ _ _) in H at 1.
    apply (semi_gen w1 _ [] [] (w_next w) (add_all (ESumSq (EVar n)) (e_add o)) (fun _ q => q) (fun _ _ => True)
      (fun _ => True) (semivariance rets b)) in H; try reflexivity; try assumption; try tauto.
    - cbn [e_cons set_obj]. rewrite app_nil_r. reflexivity.
    - unfold w1, sizes, T. cbn [w_sizes]. rewrite <- app_assoc. reflexivity.
    - rewrite app_nil_r. reflexivity.
    - intros s Hs. change (par_values w1) with (par_values w). apply evals_add_all'; [apply eval_ssq|exact Ha].
    - intros s. split; constructor.
  Qed.

  Lemma semi_risk_best : forall t m w' o' dd, e_mu o = Some m -> fresh_name w o "target_semivariance" -> 0 <= sd_freq d ->
    semi_efficient_risk sv d t mn w o = (w', o', Ok dd) ->
    exists lb ub, bounds_in_force mn o lb ub /\
      best_portfolio w o u lb ub (if mn then 0 else 1) (fun x => sd_freq d * semivariance rets b x <= t * t)
        (fun x => - inner m x) (e_weights o') dd /\ e_mu o' = e_mu o.
  Proof.
    intros t m w' o' dd Em Hf Hfr H. pose proof Hop as [Ho [[i [j Hc]] [Hl [Hu [Hn [Hq [Hm [Ha [Has Hus]]]]]]]]].
    unfold semi_efficient_risk in H. unfold bind at 1 in H. rewrite not_defined_run in H by exact Hf.
    unfold bind at 1 2, get in H. unfold bind at 1 in H. rewrite (need_mu_run w o m Em (Hm m Em)) in H.
    unfold bind at 1 in H. rewrite set_objective_full_run in H. do 2 unfold bind at 1 in H.
    unfold new_var in H. cbn [w_sizes w_val w_params w_next] in H. rewrite app_length, Nat.add_comm in H. cbn [plus List.length] in H.
    fold p in H. fold n in H. unfold bind at 1 in H. rewrite new_param_run in H by (intros _; nra). cbn [w_sizes w_val w_params w_next] in H.
    unfold bind at 1 in H. rewrite add_constraint_open in H by exact Ho. cbn [w_sizes w_val w_params w_next] in H.
    set (w1 := mkWorld _ _ _ _) in H at 1. set (o1 := set_cons _ _) in H.
    assert (Hpv : par_values w1 = par_values w ++ [t * t]) by (unfold w1, par_values; cbn [w_params]; rewrite map_app; reflexivity).
    change (bind (bind (add_split d p n) (fun _ => make_weight_sum_constraint mn)) (fun _ => solve_and_output sv) w1 o1 = (w', o', Ok dd)) in H.
    rewrite bind_assoc in H.
    apply (semi_gen w1 o1 [(S (w_next w), CIneq (EMul (EScalar (sd_freq d)) (ESumSq (EVar n))) (EPar (List.length (w_params w))))] [t * t]
      (w_next w) (add_all (portfolio_return_e (EVar (e_w o)) m true) (e_add o)) (fun x _ => - inner m x) (fun _ q => sd_freq d * q <= t * t)
      (fun x => sd_freq d * semivariance rets b x <= t * t) (fun x => - inner m x)) in H; try reflexivity; try assumption; try tauto.
    - unfold w1, sizes, T. cbn [w_sizes]. rewrite <- app_assoc. reflexivity.
    - intros s Hs. rewrite evals_add_all by (auto; apply scalar_ret). rewrite evals_ret. cbn [sign_of].
      rewrite (penalty_world w w1 s (e_add o) [t * t] Hpv Has). lra.
    - intros; lra.
    - intros s. rewrite Forall_cons_iff'. cbn [snd].
      rewrite (sat_ineq1 s _ _ _ (sd_freq d * ssq (s n)) (t * t)).
      + split; [intros [Hx _]; exact Hx|intros Hx; split; [exact Hx|constructor]].
      + assert (E : forall a c, eval s (par_values w1) (EMul a c) = bop Rmult (eval s (par_values w1) a) (eval s (par_values w1) c)) by reflexivity.
        rewrite E, eval_ssq. reflexivity.
      + cbn [eval]. rewrite Hpv, par_new. reflexivity.
    - intros x q q' Hq1 Hq2. nra.
  Qed.

  Lemma semi_return_best : forall t m w' o' dd, e_mu o = Some m -> fresh_name w o "target_return" ->
    semi_efficient_return sv d (NFloat t) mn w o = (w', o', Ok dd) ->
    0 <= t /\ exists lb ub, bounds_in_force mn o lb ub /\
      best_portfolio w o u lb ub (if mn then 0 else 1) (fun x => t <= inner m x)
        (semivariance rets b) (e_weights o') dd /\ e_mu o' = e_mu o.
  Proof.
    intros t m w' o' dd Em Hf H. pose proof Hop as [Ho [[i [j Hc]] [Hl [Hu [Hn [Hq [Hm [Ha [Has Hus]]]]]]]]].
    unfold semi_efficient_return in H. destruct (Rltb t 0) eqn:Et; [discriminate H|]. apply Rltb_false in Et. split; [exact Et|].
    unfold bind at 1, get in H. rewrite Em in H. destruct (list_max (map Rabs m)) as [mx|]; [|discriminate H].
    destruct (Rltb mx t); [discriminate H|].
    unfold bind at 1 in H. rewrite not_defined_run in H by exact Hf.
    do 3 unfold bind at 1 in H. unfold bind at 1 in H. unfold new_var in H. cbn [w_sizes w_val w_params w_next] in H. rewrite app_length, Nat.add_comm in H. cbn [plus List.length] in H.
    fold p in H. fold n in H. rewrite set_objective_full_run in H. unfold bind at 1 in H. 
    rewrite new_param_run in H by discriminate. cbn [w_sizes w_val w_params w_next] in H.
    unfold bind at 1 in H. erewrite (need_mu_run _ _ m) in H; [|exact Em|exact (Hm m Em)].
    unfold bind at 1 in H. rewrite add_constraint_open in H by exact Ho. cbn [w_sizes w_val w_params w_next] in H.
    set (w1 := mkWorld _ _ _ _) in H at 1. set (o1 := set_cons _ _) in H.
    assert (Hpv : par_values w1 = par_values w ++ [t]) by (unfold w1, par_values; cbn [w_params]; rewrite map_app; reflexivity).
    change (bind (bind (add_split d p n) (fun _ => make_weight_sum_constraint mn)) (fun _ => solve_and_output sv) w1 o1 = (w', o', Ok dd)) in H.
    rewrite bind_assoc in H.
    apply (semi_gen w1 o1 [(S (w_next w), CIneq (EPar (List.length (w_params w))) (ESum (EDot m (EVar (e_w o)))))] [t]
      (w_next w) (add_all (ESumSq (EVar n)) (e_add o)) (fun _ q => q) (fun x _ => t <= inner m x)
      (fun x => t <= inner m x) (semivariance rets b)) in H; try reflexivity; try assumption; try tauto.
    - unfold w1, sizes, T. cbn [w_sizes]. rewrite <- app_assoc. reflexivity.
    - intros s Hs. rewrite (evals_add_all' s _ _ _ (ssq (s n))); [|apply eval_ssq|exact Ha].
      rewrite (penalty_world w w1 s (e_add o) [t] Hpv Has). lra.
    - intros s. rewrite Forall_cons_iff'. cbn [snd].
      rewrite (sat_ineq1 s _ _ _ t (inner m (s (e_w o)))).
      + split; [intros [Hx _]; exact Hx|intros Hx; split; [exact Hx|constructor]].
      + cbn [eval]. rewrite Hpv, par_new. reflexivity.
      + cbn [eval]. rewrite vsum_total, dot_inner. cbn [total]. f_equal. lra.
  Qed.

  Lemma semi_utility_best : forall k m w' o' dd, e_mu o = Some m -> fresh_name w o "risk_aversion" ->
    semi_max_quadratic_utility sv d k mn w o = (w', o', Ok dd) ->
    0 < k /\ exists lb ub, bounds_in_force mn o lb ub /\
      best_portfolio w o u lb ub (if mn then 0 else 1) (fun _ => True)
        (fun x => - inner m x / sd_freq d + 1 / 2 * k * semivariance rets b x) (e_weights o') dd /\ e_mu o' = e_mu o.
  Proof.
    intros k m w' o' dd Em Hf H. pose proof Hop as [Ho [[i [j Hc]] [Hl [Hu [Hn [Hq [Hm [Ha [Has Hus]]]]]]]]].
    unfold semi_max_quadratic_utility in H. destruct (Rleb k 0) eqn:Et; [discriminate H|].
    assert (Hk : 0 < k). { destruct (Rle_lt_dec k 0) as [Hx|Hx]; [|exact Hx]. apply Rleb_true in Hx. congruence. }
    split; [exact Hk|].
    unfold bind at 1 in H. rewrite not_defined_run in H by exact Hf.
    do 3 unfold bind at 1 in H. unfold new_var in H. cbn [w_sizes w_val w_params w_next] in H. rewrite app_length, Nat.add_comm in H. cbn [plus List.length] in H.
    fold p in H. fold n in H. unfold bind at 1, get in H.
    unfold bind at 1 in H. erewrite (need_mu_run _ _ m) in H; [|exact Em|exact (Hm m Em)].
    unfold bind at 1 in H. rewrite new_param_run in H by (intros _; lra). cbn [w_sizes w_val w_params w_next] in H.
    unfold bind at 1 in H. rewrite set_objective_full_run in H. cbn [w_sizes w_val w_params w_next] in H.
    set (w1 := mkWorld _ _ _ _) in H at 1. set (o1 := set_obj _ _) in H.
    assert (Hpv : par_values w1 = par_values w ++ [k]) by (unfold w1, par_values; cbn [w_params]; rewrite map_app; reflexivity).
    change (bind (bind (add_split d p n) (fun _ => make_weight_sum_constraint mn)) (fun _ => solve_and_output sv) w1 o1 = (w', o', Ok dd)) in H.
    rewrite bind_assoc in H.
    eapply (semi_gen w1 o1 [] [k]
      (w_next w) _ (fun x q => - inner m x / sd_freq d + 1 / 2 * k * q) (fun _ _ => True)
      (fun _ => True) (fun x => - inner m x / sd_freq d + 1 / 2 * k * semivariance rets b x)) in H; try reflexivity; try assumption; try tauto.
    - unfold o1. cbn [e_cons set_obj]. rewrite app_nil_r. reflexivity.
    - unfold w1, sizes, T. cbn [w_sizes]. rewrite <- app_assoc. reflexivity.
    - intros s Hs. rewrite (evals_add_all' s _ _ _ (- inner m (s (e_w o)) / sd_freq d + 1 / 2 * k * ssq (s n))); [| |exact Ha].
      + rewrite (penalty_world w w1 s (e_add o) [k] Hpv Has). lra.
      + assert (E1 : forall a c, eval s (par_values w1) (EMul a c) = bop Rmult (eval s (par_values w1) a) (eval s (par_values w1) c)) by reflexivity.
        assert (E2 : forall a c, eval s (par_values w1) (EAdd a c) = bop Rplus (eval s (par_values w1) a) (eval s (par_values w1) c)) by reflexivity.
        rewrite E2, !E1, eval_ssq. cbn [eval EScalar]. rewrite Hpv, par_new. 
        unfold portfolio_return_e. cbn [eval sign_of EScalar bop map]. rewrite dot_inner. cbn [bop map]. f_equal. unfold Rdiv. ring.
    - intros x q q' Hqq. nra.
    - intros s. split; constructor.
  Qed.
End Semi.

(** a best portfolio is found if there is one *)
Section SemiAnswers.
  Context (w : world) (o : ef) (u : list (nat * con)) (d : semi) (Hop : open_ef w o u) (Hr : semi_ready w o u d).
  Let rets := sd_returns d.
  Let T := sd_T d.
  Let p := List.length (w_sizes w).
  Let n := S p.
  Let sizes := w_sizes w ++ [T; T].

  Context (sv : solver_t) (mn : bool) (Hsv : complete_solver sv).
  Let b := sd_bench d * (if mn then 0 else 1).
  Lemma semi_gen_answers : forall w1 o1 Y pe io e A okv ok cost,
    e_opt o1 = None -> e_w o1 = e_w o -> e_base o1 = e_base o -> e_lb o1 = e_lb o -> e_ub o1 = e_ub o ->
    e_obj o1 = Some (io, e) -> e_cons o1 = e_cons o ++ Y -> w_sizes w1 = sizes -> par_values w1 = par_values w ++ pe ->
    (forall s, well_sized sizes s -> evals s (par_values w1) e = A (s (e_w o)) (ssq (s n)) + penalty s (par_values w) (e_add o)) ->
    (forall x q q', q <= q' -> A x q <= A x q') -> (forall x, A x (semivariance rets b x) = cost x) ->
    (forall s, Forall (fun ic => sat s (par_values w1) (snd ic)) Y <-> okv (s (e_w o)) (ssq (s n))) ->
    (forall x q q', q <= q' -> okv x q' -> okv x q) -> (forall x, okv x (semivariance rets b x) <-> ok x) ->
    (exists lb ub s, bounds_in_force mn o lb ub /\ least w o u lb ub (if mn then 0 else 1) ok cost s) ->
    exists w' o' dd, bind (add_split d p n) (fun _ => bind (make_weight_sum_constraint mn) (fun _ => solve_and_output sv)) w1 o1 = (w', o', Ok dd).
  Proof.
    intros w1 o1 Y pe io e A okv ok cost Ho1 Ew Eb El Eu He Ec Es Ep Hobj Amono Acost Hok Omono Ocost [lb0 [ub0 [s0 [Hb0 Hls]]]].
    destruct (bind (add_split d p n) (fun _ => bind (make_weight_sum_constraint mn) (fun _ => solve_and_output sv)) w1 o1) as [[w' o'] rr] eqn:H.
    pose proof Hop as [Ho [[i [j Hc]] _]].
    unfold bind at 1 in H. rewrite add_split_run in H by exact Ho1.
    set (w2 := mkWorld _ _ _ _) in H at 1. set (o2 := set_cons _ _) in H.
    assert (Hall : forall k s ps, Forall (fun ic => sat s ps (snd ic))
       [(k, semi_split d p n (e_w o)); (S k, nonneg_var p); (S (S k), nonneg_var n)] <-> all3 w o d s ps).
    { intros. rewrite !Forall_cons_iff'. cbn [snd]. unfold all3. pose proof (Forall_nil (fun ic : nat * con => sat s ps (snd ic))). tauto. }
    destruct (weight_sum_answers sv mn w w2 o o2 u (Y ++ [(w_next w1, semi_split d p n (e_w o)); (S (w_next w1), nonneg_var p); (S (S (w_next w1)), nonneg_var n)])
      i j io e ok cost (fun s => A (s (e_w o)) (ssq (s n))) pe [T; T]
      Hsv Hop Ho1 He Ew Eb El Eu) with (lb0 := lb0) (ub0 := ub0) (s0 := s0)
      as [w'' [o'' [d'' E]]].
    - unfold o2. cbn [e_cons set_cons]. rewrite Ec, Hc, Ew. cbn [app]. rewrite <- app_assoc. reflexivity.
    - exact Es.
    - exact Ep.
    - intros s Hs. apply Hobj. unfold w2 in Hs. cbn [w_sizes] in Hs. rewrite Es in Hs. exact Hs.
    - intros s Hs Ht HX. change (w_sizes w2) with (w_sizes w1) in Hs. rewrite Es in Hs.
      change (par_values w2) with (par_values w1) in HX.
      apply Forall_app in HX. destruct HX as [HX1 HX2]. apply Hall in HX2. pose proof (semi_sound w o u d Hop Hr s _ Hs HX2) as Hle.
      rewrite Ht in Hle. fold p in Hle. fold n in Hle. fold rets in Hle. fold b in Hle. split; [apply Ocost; apply (Omono _ _ _ Hle); apply Hok; exact HX1|].
      rewrite <- Acost. apply Amono. exact Hle.
    - intros s Hs Ht Hk. destruct (semi_complete w o u d Hop Hr s (par_values w2) Hs) as [s' [C1 [C2 [C3 C4]]]].
      rewrite Ht in C4. fold p in C4. fold n in C4. fold rets in C4. fold b in C4. exists s'. change (w_sizes w2) with (w_sizes w1). rewrite Es. split; [exact C1|]. split; [exact C2|].
      split; [apply Forall_app; split; [|apply Hall; exact C3]|].
      + change (par_values w2) with (par_values w1). apply Hok. rewrite C4, C2 by (left; reflexivity). apply Ocost. exact Hk.
      + rewrite C4, C2 by (left; reflexivity). rewrite Acost. apply Rle_refl.
    - exact Hb0.
    - exact Hls.
    - pose proof (eq_trans (eq_sym E) H) as HH. inversion HH; subst. eauto.
  Qed.
  Lemma min_semivariance_answers : 
    (exists lb ub s, bounds_in_force mn o lb ub /\ least w o u lb ub (if mn then 0 else 1) (fun _ => True) (semivariance rets b) s) ->
    exists w' o' dd, min_semivariance sv d mn w o = (w', o', Ok dd).
  Proof.
    intros Hex. pose proof Hop as [Ho [[i [j Hc]] [Hl [Hu [Hn [Hq [Hm [Ha [Has Hus]]]]]]]]].
    destruct (min_semivariance sv d mn w o) as [[w' o'] rr] eqn:H.
    unfold min_semivariance in H. do 3 unfold bind at 1 in H. unfold new_var in H. cbn [w_sizes w_val w_params w_next] in H.
    rewrite set_objective_full_run, app_length, Nat.add_comm in H. cbn [w_sizes w_val w_params w_next plus List.length] in H.
    fold p in H. fold n in H.
    set (w1 := mkWorld _ _ _ _) in H at 1. set (o1 := set_obj _ _) in H.
    edestruct (semi_gen_answers w1 o1 [] [] (w_next w) (add_all (ESumSq (EVar n)) (e_add o)) (fun _ q => q) (fun _ _ => True)
      (fun _ => True) (semivariance rets b)) as [w'' [o'' [d'' E]]]; try reflexivity; try assumption; try tauto.
    - unfold o1. cbn [e_cons set_obj]. rewrite app_nil_r. reflexivity.
    - unfold w1, sizes, T. cbn [w_sizes]. rewrite <- app_assoc. reflexivity.
    - rewrite app_nil_r. reflexivity.
    - intros s Hs. change (par_values w1) with (par_values w). apply evals_add_all'; [apply eval_ssq|exact Ha].
    - intros s. split; constructor.
    - pose proof (eq_trans (eq_sym E) H) as HH. inversion HH; subst. eauto.
  Qed.
  Lemma semi_risk_answers : forall t m, e_mu o = Some m -> fresh_name w o "target_semivariance" -> 0 <= sd_freq d ->
    (exists lb ub s, bounds_in_force mn o lb ub /\ least w o u lb ub (if mn then 0 else 1) (fun x => sd_freq d * semivariance rets b x <= t * t) (fun x => - inner m x) s) ->
    exists w' o' dd, semi_efficient_risk sv d t mn w o = (w', o', Ok dd).
  Proof.
    intros t m Em Hf Hfr Hex. pose proof Hop as [Ho [[i [j Hc]] [Hl [Hu [Hn [Hq [Hm [Ha [Has Hus]]]]]]]]].
    destruct (semi_efficient_risk sv d t mn w o) as [[w' o'] rr] eqn:H.
    unfold semi_efficient_risk in H. unfold bind at 1 in H. rewrite not_defined_run in H by exact Hf.
    unfold bind at 1 2, get in H. unfold bind at 1 in H. rewrite (need_mu_run w o m Em (Hm m Em)) in H.
    unfold bind at 1 in H. rewrite set_objective_full_run in H. do 2 unfold bind at 1 in H.
    unfold new_var in H. cbn [w_sizes w_val w_params w_next] in H. rewrite app_length, Nat.add_comm in H. cbn [plus List.length] in H.
    fold p in H. fold n in H. unfold bind at 1 in H. rewrite new_param_run in H by (intros _; nra). cbn [w_sizes w_val w_params w_next] in H.
    unfold bind at 1 in H. rewrite add_constraint_open in H by exact Ho. cbn [w_sizes w_val w_params w_next] in H.
    set (w1 := mkWorld _ _ _ _) in H at 1. set (o1 := set_cons _ _) in H.
    assert (Hpv : par_values w1 = par_values w ++ [t * t]) by (unfold w1, par_values; cbn [w_params]; rewrite map_app; reflexivity).
    change (bind (bind (add_split d p n) (fun _ => make_weight_sum_constraint mn)) (fun _ => solve_and_output sv) w1 o1 = (w', o', rr)) in H.
    rewrite bind_assoc in H.
    edestruct (semi_gen_answers w1 o1 [(S (w_next w), CIneq (EMul (EScalar (sd_freq d)) (ESumSq (EVar n))) (EPar (List.length (w_params w))))] [t * t]
      (w_next w) (add_all (portfolio_return_e (EVar (e_w o)) m true) (e_add o)) (fun x _ => - inner m x) (fun _ q => sd_freq d * q <= t * t)
      (fun x => sd_freq d * semivariance rets b x <= t * t) (fun x => - inner m x)) as [w'' [o'' [d'' E]]]; try reflexivity; try assumption; try tauto.
    - unfold w1, sizes, T. cbn [w_sizes]. rewrite <- app_assoc. reflexivity.
    - intros s Hs. rewrite evals_add_all by (auto; apply scalar_ret). rewrite evals_ret. cbn [sign_of].
      rewrite (penalty_world w w1 s (e_add o) [t * t] Hpv Has). lra.
    - intros; lra.
    - intros s. rewrite Forall_cons_iff'. cbn [snd].
      rewrite (sat_ineq1 s _ _ _ (sd_freq d * ssq (s n)) (t * t)).
      + split; [intros [Hx _]; exact Hx|intros Hx; split; [exact Hx|constructor]].
      + assert (E : forall a c, eval s (par_values w1) (EMul a c) = bop Rmult (eval s (par_values w1) a) (eval s (par_values w1) c)) by reflexivity.
        rewrite E, eval_ssq. reflexivity.
      + cbn [eval]. rewrite Hpv, par_new. reflexivity.
    - intros x q q' Hq1 Hq2. nra.
    - pose proof (eq_trans (eq_sym E) H) as HH. inversion HH; subst. eauto.
  Qed.
  Lemma semi_return_answers : forall t m mx, e_mu o = Some m -> fresh_name w o "target_return" -> 0 <= t -> list_max (map Rabs m) = Some mx -> t <= mx ->
    (exists lb ub s, bounds_in_force mn o lb ub /\ least w o u lb ub (if mn then 0 else 1) (fun x => t <= inner m x) (semivariance rets b) s) ->
    exists w' o' dd, semi_efficient_return sv d (NFloat t) mn w o = (w', o', Ok dd).
  Proof.
    intros t m mx Em Hf Ht0 Hmx Hle Hex. pose proof Hop as [Ho [[i [j Hc]] [Hl [Hu [Hn [Hq [Hm [Ha [Has Hus]]]]]]]]].
    destruct (semi_efficient_return sv d (NFloat t) mn w o) as [[w' o'] rr] eqn:H.
    unfold semi_efficient_return in H. rewrite (proj2 (Rltb_false t 0)) in H by lra.
    unfold bind at 1, get in H. rewrite Em in H. rewrite Hmx, (proj2 (Rltb_false mx t)) in H by lra.
    unfold bind at 1 in H. rewrite not_defined_run in H by exact Hf.
    do 3 unfold bind at 1 in H. unfold bind at 1 in H. unfold new_var in H. cbn [w_sizes w_val w_params w_next] in H. rewrite app_length, Nat.add_comm in H. cbn [plus List.length] in H.
    fold p in H. fold n in H. rewrite set_objective_full_run in H. unfold bind at 1 in H. 
    rewrite new_param_run in H by discriminate. cbn [w_sizes w_val w_params w_next] in H.
    unfold bind at 1 in H. erewrite (need_mu_run _ _ m) in H; [|exact Em|exact (Hm m Em)].
    unfold bind at 1 in H. rewrite add_constraint_open in H by exact Ho. cbn [w_sizes w_val w_params w_next] in H.
    set (w1 := mkWorld _ _ _ _) in H at 1. set (o1 := set_cons _ _) in H.
    assert (Hpv : par_values w1 = par_values w ++ [t]) by (unfold w1, par_values; cbn [w_params]; rewrite map_app; reflexivity).
    change (bind (bind (add_split d p n) (fun _ => make_weight_sum_constraint mn)) (fun _ => solve_and_output sv) w1 o1 = (w', o', rr)) in H.
    rewrite bind_assoc in H.
    edestruct (semi_gen_answers w1 o1 [(S (w_next w), CIneq (EPar (List.length (w_params w))) (ESum (EDot m (EVar (e_w o)))))] [t]
      (w_next w) (add_all (ESumSq (EVar n)) (e_add o)) (fun _ q => q) (fun x _ => t <= inner m x)
      (fun x => t <= inner m x) (semivariance rets b)) as [w'' [o'' [d'' E]]]; try reflexivity; try assumption; try tauto.
    - unfold w1, sizes, T. cbn [w_sizes]. rewrite <- app_assoc. reflexivity.
    - intros s Hs. rewrite (evals_add_all' s _ _ _ (ssq (s n))); [|apply eval_ssq|exact Ha].
      rewrite (penalty_world w w1 s (e_add o) [t] Hpv Has). lra.
    - intros s. rewrite Forall_cons_iff'. cbn [snd].
      rewrite (sat_ineq1 s _ _ _ t (inner m (s (e_w o)))).
      + split; [intros [Hx _]; exact Hx|intros Hx; split; [exact Hx|constructor]].
      + cbn [eval]. rewrite Hpv, par_new. reflexivity.
      + cbn [eval]. rewrite vsum_total, dot_inner. cbn [total]. f_equal. lra.
    - pose proof (eq_trans (eq_sym E) H) as HH. inversion HH; subst. eauto.
  Qed.
  Lemma semi_utility_answers : forall k m, e_mu o = Some m -> fresh_name w o "risk_aversion" -> 0 < k ->
    (exists lb ub s, bounds_in_force mn o lb ub /\ least w o u lb ub (if mn then 0 else 1) (fun _ => True) (fun x => - inner m x / sd_freq d + 1 / 2 * k * semivariance rets b x) s) ->
    exists w' o' dd, semi_max_quadratic_utility sv d k mn w o = (w', o', Ok dd).
  Proof.
    intros k m Em Hf Hk Hex. pose proof Hop as [Ho [[i [j Hc]] [Hl [Hu [Hn [Hq [Hm [Ha [Has Hus]]]]]]]]].
    destruct (semi_max_quadratic_utility sv d k mn w o) as [[w' o'] rr] eqn:H.
    unfold semi_max_quadratic_utility in H. assert (Et : Rleb k 0 = false) by (destruct (Rleb k 0) eqn:Ek; [apply Rleb_true in Ek; lra|reflexivity]). rewrite Et in H.
    unfold bind at 1 in H. rewrite not_defined_run in H by exact Hf.
    do 3 unfold bind at 1 in H. unfold new_var in H. cbn [w_sizes w_val w_params w_next] in H. rewrite app_length, Nat.add_comm in H. cbn [plus List.length] in H.
    fold p in H. fold n in H. unfold bind at 1, get in H.
    unfold bind at 1 in H. erewrite (need_mu_run _ _ m) in H; [|exact Em|exact (Hm m Em)].
    unfold bind at 1 in H. rewrite new_param_run in H by (intros _; lra). cbn [w_sizes w_val w_params w_next] in H.
    unfold bind at 1 in H. rewrite set_objective_full_run in H. cbn [w_sizes w_val w_params w_next] in H.
    set (w1 := mkWorld _ _ _ _) in H at 1. set (o1 := set_obj _ _) in H.
    assert (Hpv : par_values w1 = par_values w ++ [k]) by (unfold w1, par_values; cbn [w_params]; rewrite map_app; reflexivity).
    change (bind (bind (add_split d p n) (fun _ => make_weight_sum_constraint mn)) (fun _ => solve_and_output sv) w1 o1 = (w', o', rr)) in H.
    rewrite bind_assoc in H.
    edestruct (semi_gen_answers w1 o1 [] [k]
      (w_next w) (add_all (EAdd (EMul (portfolio_return_e (EVar (e_w o)) m true) (EScalar (/ sd_freq d)))
        (EMul (EMul (EScalar (1 / 2)) (EPar (List.length (w_params w)))) (ESumSq (EVar n)))) (e_add o))
      (fun x q => - inner m x / sd_freq d + 1 / 2 * k * q) (fun _ _ => True)
      (fun _ => True) (fun x => - inner m x / sd_freq d + 1 / 2 * k * semivariance rets b x)) as [w'' [o'' [d'' E]]]; try reflexivity; try assumption; try tauto.
    - unfold o1. cbn [e_cons set_obj]. rewrite app_nil_r. reflexivity.
    - unfold w1, sizes, T. cbn [w_sizes]. rewrite <- app_assoc. reflexivity.
    - intros s Hs. rewrite (evals_add_all' s _ _ _ (- inner m (s (e_w o)) / sd_freq d + 1 / 2 * k * ssq (s n))); [| |exact Ha].
      + rewrite (penalty_world w w1 s (e_add o) [k] Hpv Has). lra.
      + assert (E1 : forall a c, eval s (par_values w1) (EMul a c) = bop Rmult (eval s (par_values w1) a) (eval s (par_values w1) c)) by reflexivity.
        assert (E2 : forall a c, eval s (par_values w1) (EAdd a c) = bop Rplus (eval s (par_values w1) a) (eval s (par_values w1) c)) by reflexivity.
        rewrite E2, !E1, eval_ssq. cbn [eval EScalar]. rewrite Hpv, par_new. 
        unfold portfolio_return_e. cbn [eval sign_of EScalar bop map]. rewrite dot_inner. cbn [bop map]. f_equal. unfold Rdiv. ring.
    - intros x q q' Hqq. nra.
    - intros s. split; constructor.
    - pose proof (eq_trans (eq_sym E) H) as HH. inversion HH; subst. eauto.
  Qed.
End SemiAnswers.

(** ** what is reported *)
Lemma semi_perf_run : forall d (o : ef) m r rf, e_weights o = Some r -> e_mu o = Some m ->
  let dev := sqrt (sd_freq d * semivariance (sd_returns d) (sd_bench d) r) in
  semi_performance d o rf = Ok (inner m r, dev, if Reqb dev 0 then None else Some ((inner m r - rf) / dev)).
Proof.
  intros d o m r rf Er Em dev. unfold semi_performance. rewrite Er, Em, dot_inner.
  assert (E : vsum (map (fun y => y * y) (map (fun y => Rmin (y - sd_bench d) 0) (matvec (sd_returns d) r))) / INR (sd_T d) * sd_freq d =
    sd_freq d * semivariance (sd_returns d) (sd_bench d) r).
  { rewrite vsum_total, matvec_inner, !map_map. unfold semivariance, period_returns. rewrite map_map, Rmult_comm. f_equal. unfold sd_T. f_equal. f_equal.
    apply map_ext. intros row. rewrite shortfall_max. unfold Rmin, Rmax.
    destruct (Rle_dec (inner row r - sd_bench d) 0), (Rle_dec (sd_bench d - inner row r) 0); try lra. 
    assert (Ez : inner row r - sd_bench d = 0) by lra. rewrite Ez. ring. }
  rewrite E. reflexivity.
Qed.
