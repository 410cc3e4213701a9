(** * Critical line algorithm: concrete runs *)
From Coq Require Import ZArith QArith Qreals String List Bool Reals Lra Lia Permutation.
From Verif Require Import Num Py MBase MCLA SLin SBL SCLA RBase PyLemmas QRBase Sums Mat PBase PCov1 PBL2 PCLA1 PCLA2 PCLA3 PCLA4 PCLA9 PCLAQ.
Import ListNotations.
Local Open Scope R_scope.

Local Notation QN := QNum.
Definition zq (l : list Z) : list Q := map inject_Z l.
Definition zr (l : list Z) : list R := map IZR l.
(** bounds (0, 1), no labels *)
Definition long_only (mean : list Z) (cov : list (list Z)) : cla Q :=
  mkCLA (mkBase (map (fun i => LInt (Z.of_nat i)) (seq 0 (length mean))) None) (zq mean) (map zq cov)
        (repeat 0%Q (length mean)) (repeat 1%Q (length mean)) false [] None.
(** the object made by the constructor *)
Definition long_only_cla (mean : list Z) (cov : list (list Z)) : res (cla R) :=
  cla_init (Some (None, zr mean)) (map zr cov) (CPair (PInt 0) (PInt 1)).
Lemma zq_R : forall l, qv (zq l) = zr l.
Proof. intros l. unfold qv, zq, zr. rewrite map_map. apply map_ext. intros z. apply (QR_ofZ z). Qed.
Lemma zqm_R : forall M, qm (map zq M) = map zr M.
Proof. intros M. unfold qm. rewrite map_map. apply map_ext, zq_R. Qed.
Lemma long_only_is : forall mean cov, long_only_cla mean cov = Ok (qcla (long_only mean cov)).
Proof.
  intros mean cov. unfold long_only_cla, cla_init, read_cla_bounds. cbn [rbind]. unfold qcla, long_only. cbn [c_base c_mean c_cov c_lb c_ub c_int c_tp map]. f_equal.
  rewrite zq_R, zqm_R. unfold qv. rewrite !map_repeat, RMicromega.Q2R_0, RMicromega.Q2R_1. unfold zr. rewrite map_length. reflexivity.
Qed.
Definition idord (l : list nat) : list nat := l.
Lemma idord_ok : set_order idord.
Proof. intros l. apply Permutation_refl. Qed.

Lemma total_repeat : forall c n, total (repeat c n) = INR n * c.
Proof. intros c. induction n as [|n IH]; [cbn; ring|]. change (total (repeat c (S n))) with (c + total (repeat c n)). rewrite IH, S_INR. ring. Qed.
Lemma long_only_posed : forall mean cov, let n := length mean in (1 <= n)%nat -> qsquare n (map zq cov) = true -> qsym n (map zq cov) = true -> qchol n (qent (map zq cov)) = true ->
  well_posed (qcla (long_only mean cov)) /\ well_labelled (qcla (long_only mean cov)).
Proof.
  intros mean cov n Hn H1 H2 H3. destruct (qposdef_R n _ H1 H2 H3) as [Hp Hs].
  assert (L : c_n (qcla (long_only mean cov)) = n) by (unfold c_n; cbn [qcla long_only c_mean]; unfold qv, zq; rewrite !map_length; reflexivity).
  unfold well_posed, well_labelled. rewrite L. cbn [qcla long_only c_base c_tp c_int c_lb c_ub c_cov qbase b_tickers map]. fold n. unfold qv. rewrite !map_repeat, RMicromega.Q2R_0, RMicromega.Q2R_1.
  split; [|split].
  - split; [reflexivity|]. split; [reflexivity|]. split; [|split; [|split; [|split; assumption]]].
    + split; [apply repeat_length|]. split; [apply repeat_length|]. clear. induction n as [|n IH]; cbn; constructor; [lra|exact IH].
    + rewrite total_repeat. lra.
    + rewrite total_repeat. apply le_INR in Hn. cbn [INR] in Hn. lra.
  - apply FinFun.Injective_map_NoDup; [|apply seq_NoDup]. intros a b E. injection E as E. lia.
  - rewrite map_length, seq_length, repeat_length. reflexivity.
Qed.

(** the real run from the rational run *)
Lemma run : forall fuel inv mean cov o1 r, sound_inverse inv -> complete_inverse inv ->
  @solve Q QN fuel qinv idord (long_only mean cov) = (o1, r) -> r <> Err LinAlgError ->
  solve fuel inv idord (qcla (long_only mean cov)) = (qcla o1, r).
Proof.
  intros fuel inv mean cov o1 r Hs Hc E H. rewrite (solve_Q inv qinv idord fuel); rewrite ?E; [reflexivity|apply checked_follows; assumption|reflexivity|exact H].
Qed.
Ltac feas := split; [cbn; lra|split; repeat (apply Forall2_cons; [lra|]); apply Forall2_nil].

(** ** A failed run leaves an infeasible portfolio behind (C49, C53) *)
Definition failing : cla Q := long_only [2; 5; 2]%Z [[3; 4; 2]; [4; 9; 4]; [2; 4; 9]]%Z.
Definition failing_tp : list (tp Q) :=
  [mkTP [0; 1; 0]%Q None None [1%nat]; mkTP [0; 1; 0]%Q (Some (5 # 3)) (Some (2 # 3)) [1%nat; 0%nat]; mkTP [0; 0; 0]%Q (Some (1 # 3)) (Some (10 # 3)) [0%nat]].
Lemma failing_run : forall k, @solve Q QN (10 + k) qinv idord failing = (set_tp failing_tp failing, Err TypeError).
Proof. intros k. vm_compute. reflexivity. Qed.
Lemma qcla_ready : forall o, c_tp o <> [] -> forall fuel inv ord, ensure fuel inv ord (qcla o) = (qcla o, Ok tt).
Proof. intros o H fuel inv ord. apply ensure_ready. cbn. destruct (c_tp o); [congruence|discriminate]. Qed.
Lemma call_after : forall o w, c_tp o <> [] -> @chosen Q QN o = Ok w -> NoDup (b_tickers (c_base o)) -> length (b_tickers (c_base o)) = length w ->
  forall fuel inv ord, snd (do_call fuel inv ord CallMinVol (qcla o)) = Ok [qv w].
Proof.
  intros o w Ht Hw Hnd Hl fuel inv ord. cbn [do_call]. rewrite (min_vol_chosen _ _ _ _ _ (qcla_ready o Ht fuel inv ord)), chosen_Q, Hw. cbn [qmap snd make_output_weights set_cweights c_base b_weights qcla].
  cbn [snd]. rewrite output_values; [reflexivity|exact Hnd|]. cbn [b_tickers qbase]. rewrite qv_length. exact Hl.
Qed.
Theorem failed_then_infeasible : exists o, long_only_cla [2; 5; 2]%Z [[3; 4; 2]; [4; 9; 4]; [2; 4; 9]]%Z = Ok o /\ well_posed o /\ well_labelled o /\
  forall k inv c, sound_inverse inv -> complete_inverse inv ->
  exists o', do_call (10 + k) inv idord c o = (o', Err TypeError) /\
    (forall fuel inv' ord, snd (do_call fuel inv' ord CallMinVol o') = Ok [[0; 0; 0]]) /\ ~ nearly_feasible tol9 (c_lb o) (c_ub o) [0; 0; 0].
Proof.
  exists (qcla failing). split; [apply long_only_is|].
  destruct (long_only_posed [2; 5; 2]%Z [[3; 4; 2]; [4; 9; 4]; [2; 4; 9]]%Z) as [Hp Hl]; [cbn; lia|vm_compute; reflexivity..|]. split; [exact Hp|]. split; [exact Hl|].
  intros k inv c Hs Hc. exists (qcla (set_tp failing_tp failing)). split; [|split].
  - assert (Ee : ensure (10 + k) inv idord (qcla failing) = (qcla (set_tp failing_tp failing), Err TypeError)).
    { apply (run (10 + k) inv _ _ _ _ Hs Hc (failing_run k)). discriminate. }
    destruct c; cbn [do_call]; unfold cla_min_volatility, cla_max_sharpe, cla_frontier; rewrite Ee; reflexivity.
  - intros fuel inv' ord. rewrite (call_after (set_tp failing_tp failing) [0; 0; 0]%Q).
    + unfold qv. cbn [map]. rewrite RMicromega.Q2R_0. reflexivity.
    + discriminate.
    + vm_compute. reflexivity.
    + apply Hl.
    + reflexivity.
  - intros [H _]. cbn in H. replace (0 + (0 + (0 + 0)) - 1) with (-1) in H by ring. rewrite Rabs_left in H by lra. unfold tol9 in H. lra.
Qed.

(** ** Equal expected returns (C53) *)
Definition equal2 : cla Q := long_only [1; 1]%Z [[1; 0]; [0; 4]]%Z.
Definition equal2_tp : list (tp Q) := [mkTP [0; 1]%Q None None [1%nat]].
Lemma equal2_run : forall k, @solve Q QN (10 + k) qinv idord equal2 = (set_tp equal2_tp equal2, Err TypeError).
Proof. intros k. vm_compute. reflexivity. Qed.
Theorem poisoned_min_volatility : exists o, long_only_cla [1; 1]%Z [[1; 0]; [0; 4]]%Z = Ok o /\ well_posed o /\ well_labelled o /\
  forall k inv c, sound_inverse inv -> complete_inverse inv ->
  exists o', do_call (10 + k) inv idord c o = (o', Err TypeError) /\
    (forall fuel inv' ord, snd (do_call fuel inv' ord CallMinVol o') = Ok [[0; 1]]) /\
    feasible (c_lb o) (c_ub o) [1; 0] /\ qform (c_cov o) [1; 0] < qform (c_cov o) [0; 1].
Proof.
  exists (qcla equal2). split; [apply long_only_is|].
  destruct (long_only_posed [1; 1]%Z [[1; 0]; [0; 4]]%Z) as [Hp Hl]; [cbn; lia|vm_compute; reflexivity..|]. split; [exact Hp|]. split; [exact Hl|].
  intros k inv c Hs Hc. exists (qcla (set_tp equal2_tp equal2)). split; [|split; [|split]].
  - assert (Ee : ensure (10 + k) inv idord (qcla equal2) = (qcla (set_tp equal2_tp equal2), Err TypeError)).
    { apply (run (10 + k) inv _ _ _ _ Hs Hc (equal2_run k)). discriminate. }
    destruct c; cbn [do_call]; unfold cla_min_volatility, cla_max_sharpe, cla_frontier; rewrite Ee; reflexivity.
  - intros fuel inv' ord. rewrite (call_after (set_tp equal2_tp equal2) [0; 1]%Q).
    + unfold qv. cbn [map]. rewrite RMicromega.Q2R_0, RMicromega.Q2R_1. reflexivity.
    + discriminate.
    + vm_compute. reflexivity.
    + apply Hl.
    + reflexivity.
  - cbn [qcla equal2 long_only c_lb c_ub]. unfold qv. rewrite !map_repeat, RMicromega.Q2R_0, RMicromega.Q2R_1. cbn [repeat length]. feas.
  - cbn [qcla equal2 long_only c_cov]. rewrite zqm_R. unfold qform, zr. cbn. lra.
Qed.

(** ** A tie at lambda zero (C91) *)
Definition tied : cla Q := long_only [7; 6; 3]%Z [[11; 4; 12]; [4; 4; 8]; [12; 8; 23]]%Z.
Definition tied_tp : list (tp Q) :=
  [mkTP [1; 0; 0]%Q None None [0%nat]; mkTP [1; 0; 0]%Q (Some 7%Q) (Some (-38)%Q) [0%nat; 1%nat]].
Lemma tied_run : forall k, @solve Q QN (10 + k) qinv idord tied = (set_tp tied_tp tied, Ok tt).
Proof. intros k. vm_compute. reflexivity. Qed.
Lemma call_first : forall fuel inv ord o o1 w, solve fuel inv ord (qcla o) = (qcla o1, Ok tt) -> c_tp o = [] -> @chosen Q QN o1 = Ok w -> NoDup (b_tickers (c_base o1)) -> length (b_tickers (c_base o1)) = length w ->
  snd (do_call fuel inv ord CallMinVol (qcla o)) = Ok [qv w].
Proof.
  intros fuel inv ord o o1 w E Ht Hw Hnd Hl. assert (Ee : ensure fuel inv ord (qcla o) = (qcla o1, Ok tt)) by (unfold ensure; cbn [qcla c_tp]; rewrite Ht; exact E).
  cbn [do_call]. rewrite (min_vol_chosen _ _ _ _ _ Ee), chosen_Q, Hw. cbn [qmap snd make_output_weights set_cweights c_base b_weights qcla].
  rewrite output_values; [reflexivity|exact Hnd|]. cbn [b_tickers qbase]. rewrite qv_length. exact Hl.
Qed.
Theorem tie_misses_minimum : exists o, long_only_cla [7; 6; 3]%Z [[11; 4; 12]; [4; 4; 8]; [12; 8; 23]]%Z = Ok o /\ well_posed o /\ well_labelled o /\
  feasible (c_lb o) (c_ub o) [0; 1; 0] /\ qform (c_cov o) [0; 1; 0] = 4 /\ qform (c_cov o) [1; 0; 0] = 11 /\
  forall k inv, sound_inverse inv -> complete_inverse inv -> snd (do_call (10 + k) inv idord CallMinVol o) = Ok [[1; 0; 0]].
Proof.
  exists (qcla tied). split; [apply long_only_is|].
  destruct (long_only_posed [7; 6; 3]%Z [[11; 4; 12]; [4; 4; 8]; [12; 8; 23]]%Z) as [Hp Hl]; [cbn; lia|vm_compute; reflexivity..|]. split; [exact Hp|]. split; [exact Hl|].
  assert (Hq : qm (c_cov tied) = map zr [[11; 4; 12]; [4; 4; 8]; [12; 8; 23]]%Z) by apply zqm_R. split; [|split; [|split]].
  - cbn [qcla tied long_only c_lb c_ub]. unfold qv. rewrite !map_repeat, RMicromega.Q2R_0, RMicromega.Q2R_1. cbn [repeat length]. feas.
  - cbn [qcla c_cov]. rewrite Hq. unfold qform, zr. cbn. lra.
  - cbn [qcla c_cov]. rewrite Hq. unfold qform, zr. cbn. lra.
  - intros k inv Hs Hc. rewrite (call_first _ _ _ tied (set_tp tied_tp tied) [1; 0; 0]%Q).
    + unfold qv. cbn [map]. rewrite RMicromega.Q2R_0, RMicromega.Q2R_1. reflexivity.
    + apply (run (10 + k) inv _ _ _ _ Hs Hc (tied_run k)). discriminate.
    + reflexivity.
    + vm_compute. reflexivity.
    + apply Hl.
    + reflexivity.
Qed.

(** ** A dropped turning point costs Sharpe ratio (C90) *)
Definition stale : cla Q := long_only [4; 3; 6; 1]%Z [[41; 14; 0; 20]; [14; 12; 12; 0]; [0; 12; 65; -20]; [20; 0; -20; 20]]%Z.
Definition stale_w : list (list Q) :=
  [[0; 0; 1; 0]; [0; 0; 1; 0]; [89 # 184; 0; 95 # 184; 0]; [262 # 547; 5 # 547; 280 # 547; 0]; [0; 35 # 108; 5 # 27; 53 # 108]]%Q.
Lemma stale_run : forall k, let r := @solve Q QN (10 + k) qinv idord stale in map t_w (c_tp (fst r)) = stale_w /\ snd r = Ok tt.
Proof. intros k. vm_compute. split; reflexivity. Qed.
Definition sharpe (mean : list R) (cov : list (list R)) (w : list R) : R := inner w mean / sqrt (qform cov w).
Lemma sharpe_worse : forall mean cov w v, 0 < qform cov w -> 0 < qform cov v -> 0 < inner v mean ->
  (105 / 100) * (105 / 100) * (inner w mean * inner w mean) * qform cov v < inner v mean * inner v mean * qform cov w ->
  105 / 100 * sharpe mean cov w < sharpe mean cov v.
Proof.
  intros mean cov w v Hw Hv Hm H. unfold sharpe. pose proof (sqrt_lt_R0 _ Hw) as S1. pose proof (sqrt_lt_R0 _ Hv) as S2.
  pose proof (sqrt_sqrt _ (Rlt_le _ _ Hw)) as E1. pose proof (sqrt_sqrt _ (Rlt_le _ _ Hv)) as E2.
  set (a := sqrt (qform cov w)) in *. set (b := sqrt (qform cov v)) in *. rewrite <- E1, <- E2 in H. set (x := inner w mean) in *. set (y := inner v mean) in *.
  apply (Rmult_lt_reg_r (a * b)); [apply Rmult_lt_0_compat; assumption|].
  replace (105 / 100 * (x / a) * (a * b)) with (105 / 100 * x * b) by (field; lra). replace (y / b * (a * b)) with (y * a) by (field; lra).
  assert (Hya : 0 < y * a) by (apply Rmult_lt_0_compat; assumption).
  destruct (Rle_lt_dec (105 / 100 * x * b) 0) as [Hn|Hn]; [lra|]. apply Rsqr_incrst_0; [unfold Rsqr; nra|lra|lra].
Qed.
Definition stale_mean : list R := [4; 3; 6; 1].
Definition stale_cov : list (list R) := [[41; 14; 0; 20]; [14; 12; 12; 0]; [0; 12; 65; -20]; [20; 0; -20; 20]].
Definition stale_best : list R := [0; 85 / 278; 40 / 139; 113 / 278].
Definition stale_R : list (list R) :=
  [[0; 0; 1; 0]; [0; 0; 1; 0]; [89 / 184; 0; 95 / 184; 0]; [262 / 547; 5 / 547; 280 / 547; 0]; [0; 35 / 108; 5 / 27; 53 / 108]].
Lemma stale_w_R : map qv stale_w = stale_R.
Proof. unfold stale_w, stale_R, qv. cbn [map]. unfold Q2R. cbn [Qnum Qden]. repeat (apply f_equal2; [repeat (apply f_equal2; [lra|]); reflexivity|]). reflexivity. Qed.
Lemma stale_segment : forall i p q a, nth_error stale_R i = Some p -> nth_error stale_R (S i) = Some q -> 0 <= a <= 1 ->
  let w := combo a p q in 0 < qform stale_cov w /\
  (105 / 100) * (105 / 100) * (inner w stale_mean * inner w stale_mean) * qform stale_cov stale_best < inner stale_best stale_mean * inner stale_best stale_mean * qform stale_cov w.
Proof.
  intros i p q a Hp Hq Ha w.
  assert (Ev : qform stale_cov stale_best = 424 * 330 / (139 * 139)) by (unfold qform, stale_cov, stale_best; cbn; lra).
  assert (Em : inner stale_best stale_mean = 424 / 139) by (unfold stale_best, stale_mean; cbn; lra).
  rewrite Ev, Em. destruct i as [|[|[|[|i]]]]; [..|destruct i; discriminate]; cbn in Hp, Hq; injection Hp as <-; injection Hq as <-; unfold w, combo, qform, stale_cov, stale_mean; cbn [map2 map]; runfold; cbn [inner map].
  - split; nra.
  - split; nra.
  - split; nra.
  - pose proof (Rle_0_sqr (a - 191 / 1000)) as H1. pose proof (Rle_0_sqr a) as H2. unfold Rsqr in H1, H2.
    set (b := a * a) in *. split; nra.
Qed.
Theorem dropped_point_costs : exists o, long_only_cla [4; 3; 6; 1]%Z [[41; 14; 0; 20]; [14; 12; 12; 0]; [0; 12; 65; -20]; [20; 0; -20; 20]]%Z = Ok o /\ well_posed o /\ well_labelled o /\
  feasible (c_lb o) (c_ub o) stale_best /\
  forall k inv, sound_inverse inv -> complete_inverse inv ->
  exists w, snd (do_call (10 + k) inv idord CallSharpe o) = Ok [w] /\ 105 / 100 * sharpe (c_mean o) (c_cov o) w < sharpe (c_mean o) (c_cov o) stale_best.
Proof.
  exists (qcla stale). split; [apply long_only_is|].
  destruct (long_only_posed [4; 3; 6; 1]%Z [[41; 14; 0; 20]; [14; 12; 12; 0]; [0; 12; 65; -20]; [20; 0; -20; 20]]%Z) as [Hp Hl]; [cbn; lia|vm_compute; reflexivity..|]. split; [exact Hp|]. split; [exact Hl|].
  change (long_only _ _) with stale in Hp, Hl. split.
  { cbn [qcla stale long_only c_lb c_ub]. unfold qv. rewrite !map_repeat, RMicromega.Q2R_0, RMicromega.Q2R_1. cbn [repeat length]. unfold stale_best. feas. }
  intros k inv Hs Hc. destruct (stale_run k) as [Ew Er]. destruct (@solve Q QN (10 + k) qinv idord stale) as [o1 r] eqn:Es. cbn [fst snd] in Ew, Er. subst r.
  assert (E : solve (10 + k) inv idord (qcla stale) = (qcla o1, Ok tt)) by (apply (run (10 + k) inv _ _ _ _ Hs Hc Es); discriminate).
  destruct (max_sharpe_total (10 + k) inv idord (qcla stale) (qcla o1) eq_refl eq_refl eq_refl ltac:(apply Hp) E) as [o' [d Ed]].
  assert (Ee : ensure (10 + k) inv idord (qcla stale) = (qcla o1, Ok tt)) by exact E.
  pose proof (solve_same (10 + k) inv idord (qcla stale)) as Hsame. rewrite E in Hsame. cbn [fst] in Hsame. destruct Hsame as [S1 [S2 [S3 S4]]].
  assert (Er : map t_w (c_tp (qcla o1)) = stale_R).
  { rewrite <- stale_w_R, <- Ew. cbn [qcla c_tp]. rewrite !map_map. apply map_ext. intros t. reflexivity. }
  assert (Hn : Forall (fun p => length (t_w p) = 4%nat) (c_tp (qcla o1))).
  { apply Forall_map with (P := fun w => length w = 4%nat) (f := t_w). rewrite Er. repeat constructor. }
  destruct (max_sharpe_run _ _ _ _ _ _ _ _ Ee Hn Ed) as [i [p [q [a [Hp1 [Hq1 [Ha [-> ->]]]]]]]].
  apply (map_nth_error t_w) in Hp1, Hq1. rewrite Er in Hp1, Hq1. pose proof (stale_segment i _ _ a Hp1 Hq1 Ha) as [K1 K2].
  exists (combo a (t_w p) (t_w q)). cbn [do_call]. rewrite Ed. cbn [snd]. split.
  - rewrite output_values; [reflexivity|rewrite S1; apply Hl|]. rewrite S1. unfold combo. rewrite map2_length.
    apply nth_error_In in Hp1, Hq1. assert (Hin : forall w, In w stale_R -> length w = 4%nat) by (apply Forall_forall; repeat constructor).
    rewrite (Hin _ Hp1), (Hin _ Hq1). reflexivity.
  - assert (E1 : c_mean (qcla stale) = stale_mean) by (cbn [qcla stale long_only c_mean]; rewrite zq_R; reflexivity).
    assert (E2 : c_cov (qcla stale) = stale_cov) by (cbn [qcla stale long_only c_cov]; rewrite zqm_R; reflexivity).
    rewrite E1, E2. apply sharpe_worse; [exact K1| | |exact K2].
    + unfold qform, stale_cov, stale_best. cbn. lra.
    + unfold stale_best, stale_mean. cbn. lra.
Qed.
