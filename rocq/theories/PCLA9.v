(** * Critical line algorithm: correctness of a run *)
From Coq Require Import ZArith List Bool Reals Lra Lia Permutation.
From Verif Require Import Num Py MBase MCLA SLin SCLA SBL RBase PyLemmas Sums Mat PBase PCov1 PBL1 PBL2 PCLA1 PCLA2 PCLA3 PCLA4 PCLA5 PCLA6 PCLA7 PCLA8.
Import ListNotations.
Local Open Scope R_scope.

(** ** The start satisfies the invariant *)
Lemma start_inv : forall o : cla R, c_int o = false -> boxes (c_n o) (c_lb o) (c_ub o) -> total (c_lb o) < 1 -> 1 <= total (c_ub o) ->
  pos_def (c_n o) (c_cov o) ->
  exists a w, init_algo o = Ok ([a], w) /\ length w = c_n o /\ max_return (c_mean o) (c_lb o) (c_ub o) w /\
    Inv (c_n o) (entry (c_cov o)) (vec (c_mean o)) (vec (c_lb o)) (vec (c_ub o)) [a] (vec w) None.
Proof.
  intros o Hi Hb H1 H2 Hpd. destruct (init_algo_ok o Hi Hb H1 H2) as [a [w [E [Ha [Hw [Hm [He Hs]]]]]]].
  exists a, w. split; [exact E|]. split; [exact Hw|]. split; [exact Hm|]. unfold c_n in *.
  assert (Hf : free_set (length (c_mean o)) [a]) by (split; [discriminate|split; [constructor; [intros []|constructor]|intros i [<-|[]]; exact Ha]]).
  split; [exact Hf|]. split.
  - intros j Hj Hn. apply He; [lia|]. intros ->. apply Hn. left; reflexivity.
  - exists a. split; [reflexivity|]. split; [|exact Hs].
    intros lam x g Hx. assert (Hw' : sol (length (c_mean o)) (entry (c_cov o)) (vec (c_mean o)) [a] (vec w) lam (vec w) (ap (length (c_mean o)) (entry (c_cov o)) (vec w) a - lam * vec (c_mean o) a)).
    { split; [reflexivity|]. split; [rewrite <- total_vec by exact Hw; apply Hm|]. intros i [<-|[]]. reflexivity. }
    rewrite (single_const _ _ _ a (vec w) lam x g lam _ _ Ha Hx Hw' a Ha). destruct Hm as [[_ [F1 F2]] _]. apply Forall2_nth in F1. apply Forall2_nth in F2.
    destruct Hb as [B1 [B2 _]]. split; [apply F1; lia|apply F2; lia].
Qed.

Lemma in_keep : forall (mean : list R) p rest q, In q (p :: keep mean rest) -> In q (p :: rest).
Proof. intros mean p rest q [<-|H]; [left; reflexivity|right; apply (incl_keep _ _ _ H)]. Qed.

(** ** Kept points are optimal *)
Theorem kept_optimal : forall fuel inv ord (o o' : cla R), sound_inverse inv -> set_order ord -> well_posed o ->
  untied (c_mean o) (c_cov o) (c_lb o) (c_ub o) -> solve fuel inv ord o = (o', Ok tt) ->
  forall p, In p (c_tp o') -> total (t_w p) = 1 ->
  match t_l p with
  | None => max_return (c_mean o) (c_lb o) (c_ub o) (t_w p)
  | Some lam => 0 <= lam /\ optimal_at (c_mean o) (c_cov o) (c_lb o) (c_ub o) lam (t_w p) /\
      free_set (c_n o) (t_f p) /\ exists g, stationary (c_mean o) (c_cov o) (t_f p) lam g (t_w p)
  end.
Proof.
  intros fuel inv ord o o' Hinv Hord [_ [Hi [Hb [H1 [H2 [Hpd Hsym]]]]]] Hu E p Hp Ht.
  assert (Hlen : length (c_ub o) = length (c_lb o)) by (destruct Hb as [-> [-> _]]; reflexivity).
  destruct (solve_ok _ _ _ _ _ Hlen E) as [f [w [pts [p0 [rest [Ei [El [_ [Hpur [_ [Htp _]]]]]]]]]]].
  destruct (start_inv o Hi Hb H1 H2 Hpd) as [a [w0 [Ei' [Hw [Hm HI]]]]]. rewrite Ei in Ei'. injection Ei' as -> ->.
  rewrite Htp in Hp. apply in_keep in Hp. rewrite <- Hpur, purge_num_err_filter in Hp. apply filter_In in Hp. destruct Hp as [Hp _].
  unfold raw_points in El. rewrite Hi in El.
  destruct (loop_path (c_mean o) (c_cov o) (c_lb o) (c_ub o) Hpd Hsym Hb inv ord Hinv Hord Hu fuel [a] w0 None _ _ _ HI Hw El) as [more [-> [Hg _]]].
  destruct Hp as [<-|Hp]; [exact Hm|]. rewrite Forall_forall in Hg. destruct (Hg p Hp) as [_ [l [-> [Hl [Hf Hopt]]]]].
  destruct (Hopt Ht) as [O1 O2]. auto.
Qed.

(** ** The minimum variance portfolio *)
Lemma keep_in_last : forall mean pre (q : tp R), In q (keep mean (pre ++ [q])).
Proof.
  intros mean pre q. destruct (keep_last mean (pre ++ [q]) q) as [H1 H2]; [destruct pre; discriminate|].
  rewrite last_last in H1. rewrite (app_removelast_last q H2), H1. apply in_or_app. right. left. reflexivity.
Qed.
Lemma end_optimal : forall (o : cla R) w, boxes (c_n o) (c_lb o) (c_ub o) -> optimal_at (c_mean o) (c_cov o) (c_lb o) (c_ub o) 0 w ->
  least_variance (c_cov o) (c_lb o) (c_ub o) w.
Proof. intros o w Hb [H1 H2]. split; [exact H1|]. intros v Hv. specialize (H2 v Hv). lra. Qed.

Lemma loop_result : forall fuel inv ord (o : cla R) f w pts, sound_inverse inv -> set_order ord -> well_posed o ->
  untied (c_mean o) (c_cov o) (c_lb o) (c_ub o) -> untied_end (c_mean o) (c_cov o) (c_lb o) (c_ub o) ->
  init_algo o = Ok (f, w) -> raw_points fuel inv ord o f w = (pts, Ok tt) ->
  exists p pre q, pts = p :: pre ++ [q] /\ feasible (c_lb o) (c_ub o) (t_w p) /\ t_l p = None /\ t_l q = Some 0 /\
    least_variance (c_cov o) (c_lb o) (c_ub o) (t_w q).
Proof.
  intros fuel inv ord o f w pts Hinv Hord [_ [Hi [Hb [H1 [H2 [Hpd Hsym]]]]]] Hu He Ei El.
  destruct (start_inv o Hi Hb H1 H2 Hpd) as [a [w0 [Ei' [Hw [Hm HI]]]]]. rewrite Ei in Ei'. injection Ei' as -> ->.
  unfold raw_points in El. rewrite Hi in El.
  destruct (loop_path (c_mean o) (c_cov o) (c_lb o) (c_ub o) Hpd Hsym Hb inv ord Hinv Hord Hu fuel [a] w0 None _ _ _ HI Hw El) as [more [-> [Hg Hend]]].
  destruct (Hend eq_refl) as [pre [q [-> [Hq1 Hq2]]]]. specialize (Hq2 He).
  exists (mkTP w0 None None [a]), pre, q. split; [reflexivity|]. split; [apply Hm|]. split; [reflexivity|]. split; [exact Hq1|].
  rewrite Forall_forall in Hg. destruct (Hg q) as [_ [l [Hl [_ [_ Hopt]]]]]; [apply in_or_app; right; left; reflexivity|].
  rewrite Hq1 in Hl. injection Hl as <-. destruct (Hopt Hq2) as [Hopt1 _]. apply end_optimal; assumption.
Qed.
Lemma feasible_not_dropped : forall lb ub w, length ub = length lb -> feasible lb ub w -> num_err lb ub tol9 w = false.
Proof.
  intros lb ub w Hlen Hf. apply num_err_false; [|exact Hlen|apply feasible_nearly; [left; apply tol9_pos|exact Hf]].
  destruct Hf as [_ [Hf _]]. apply Forall2_length in Hf. auto.
Qed.

(** a successful run keeps a point of least variance *)
Theorem kept_least : forall fuel inv ord (o o' : cla R), sound_inverse inv -> set_order ord -> well_posed o ->
  untied (c_mean o) (c_cov o) (c_lb o) (c_ub o) -> untied_end (c_mean o) (c_cov o) (c_lb o) (c_ub o) ->
  solve fuel inv ord o = (o', Ok tt) ->
  exists p, In p (c_tp o') /\ t_l p = Some 0 /\ least_variance (c_cov o) (c_lb o) (c_ub o) (t_w p).
Proof.
  intros fuel inv ord o o' Hinv Hord Hwp Hu He E. pose proof Hwp as [_ [Hi [Hb _]]].
  assert (Hlen : length (c_ub o) = length (c_lb o)) by (destruct Hb as [-> [-> _]]; reflexivity).
  destruct (solve_ok _ _ _ _ _ Hlen E) as [f [w [pts [p0 [rest [Ei [El [_ [Hpur [_ [Htp _]]]]]]]]]]].
  destruct (loop_result fuel inv ord o f w pts Hinv Hord Hwp Hu He Ei El) as [p [pre [q [-> [Hp [Hpl [Hq1 Hq2]]]]]]].
  exists q. split; [|auto]. rewrite purge_num_err_filter in Hpur. cbn [filter] in Hpur.
  rewrite (feasible_not_dropped _ _ _ Hlen Hp) in Hpur. cbn [negb] in Hpur. injection Hpur as <- Hrest.
  rewrite filter_app in Hrest. cbn [filter] in Hrest. rewrite (feasible_not_dropped _ _ _ Hlen (proj1 Hq2)) in Hrest. cbn [negb] in Hrest.
  rewrite Htp, <- Hrest. right. apply keep_in_last.
Qed.

Theorem min_vol_global : forall fuel inv ord (o o' : cla R) d, sound_inverse inv -> set_order ord -> well_posed o -> well_labelled o ->
  untied (c_mean o) (c_cov o) (c_lb o) (c_ub o) -> untied_end (c_mean o) (c_cov o) (c_lb o) (c_ub o) ->
  cla_min_volatility fuel inv ord o = (o', Ok d) ->
  nearly_feasible tol9 (c_lb o) (c_ub o) (dvalues d) /\
  forall v, feasible (c_lb o) (c_ub o) v -> qform (c_cov o) (dvalues d) <= qform (c_cov o) v.
Proof.
  intros fuel inv ord o o' d Hinv Hord Hwp Hlab Hu He E. pose proof Hwp as [Ht [Hi [Hb _]]].
  assert (Hlen : length (c_ub o) = length (c_lb o)) by (destruct Hb as [-> [-> _]]; reflexivity).
  destruct (ensure fuel inv ord o) as [o1 [u|e]] eqn:Ee.
  2:{ unfold cla_min_volatility in E. rewrite Ee in E. discriminate. }
  destruct u. assert (Es : solve fuel inv ord o = (o1, Ok tt)) by (unfold ensure in Ee; rewrite Ht in Ee; exact Ee).
  destruct (min_vol_run _ _ _ _ _ _ _ Ee E) as [p [Hp [-> [-> Hm]]]].
  destruct (kept_least fuel inv ord o o1 Hinv Hord Hwp Hu He Es) as [q [Hq [_ Hqv]]].
  destruct (solve_feasible _ _ _ _ _ Hlen Es) as [_ Hf]. rewrite Forall_forall in Hf. pose proof (Hf p Hp) as Hfp.
  pose proof (solve_same fuel inv ord o) as Hs. rewrite Es in Hs. cbn [fst] in Hs. destruct Hs as [S1 [S2 [S3 _]]].
  destruct Hlab as [Hn Hl]. rewrite output_values.
  - split; [exact Hfp|]. intros v Hv. rewrite <- S3. eapply Rle_trans; [apply (Hm q Hq)|]. rewrite S3. apply Hqv, Hv.
  - rewrite S1. exact Hn.
  - rewrite S1, Hl. symmetry. apply (nearly_length _ _ _ _ Hfp).
Qed.

(** ** The run succeeds *)
Theorem solve_total : forall fuel inv ord (o : cla R), sound_inverse inv -> complete_inverse inv -> set_order ord -> well_posed o ->
  general_position o -> (3 ^ c_n o <= fuel)%nat -> exists o', solve fuel inv ord o = (o', Ok tt).
Proof.
  intros fuel inv ord o Hinv Hcomp Hord Hwp [Hu [He [Hmv Hst]]] Hfuel. pose proof Hwp as [Ht [Hi [Hb [H1 [H2 [Hpd Hsym]]]]]].
  assert (Hlen : length (c_ub o) = length (c_lb o)) by (destruct Hb as [-> [-> _]]; reflexivity).
  destruct (start_inv o Hi Hb H1 H2 Hpd) as [a [w [Ei [Hw [Hm HI]]]]].
  assert (Hstrict : forall i, (i < length (c_mean o))%nat -> vec (c_lb o) i < vec (c_ub o) i).
  { intros i Hin. apply Forall2_nth in Hst. apply Hst. destruct Hb as [-> _]. exact Hin. }
  assert (Hl : exists pts, raw_points fuel inv ord o [a] w = (pts, Ok tt)).
  { unfold raw_points. rewrite Hi.
    apply (loop_total (c_mean o) (c_cov o) (c_lb o) (c_ub o) Hpd Hsym Hb inv ord Hinv Hord Hu Hstrict Hcomp Hmv fuel [a] w None []); auto.
    split; [constructor|intros Fc bc lc []]. }
  destruct Hl as [pts El]. destruct (loop_result fuel inv ord o [a] w pts Hinv Hord Hwp Hu He Ei El) as [p [pre [q [-> [Hp [Hpl [Hq1 Hq2]]]]]]].
  unfold solve. rewrite Ei. unfold raw_points in El. rewrite El. rewrite purge_tol_eq, purge_num_err_filter. cbn [filter].
  rewrite (feasible_not_dropped _ _ _ Hlen Hp). cbn [negb]. rewrite filter_app. cbn [filter]. rewrite (feasible_not_dropped _ _ _ Hlen (proj1 Hq2)). cbn [negb].
  destruct (filter _ pre ++ [q]) as [|q0 l] eqn:Ef; [destruct (filter _ pre); discriminate|]. rewrite purge_excess_ok. eauto.
Qed.
Lemma index_best_total : forall (better : R -> R -> bool) l, l <> [] -> exists k, index_best better l = Ok k.
Proof. intros better [|x l] H; [congruence|]. cbn. eauto. Qed.
Theorem min_vol_total : forall fuel inv ord (o : cla R), sound_inverse inv -> complete_inverse inv -> set_order ord -> well_posed o -> well_labelled o ->
  general_position o -> (3 ^ c_n o <= fuel)%nat ->
  exists o' d, cla_min_volatility fuel inv ord o = (o', Ok d) /\ nearly_feasible tol9 (c_lb o) (c_ub o) (dvalues d) /\
    forall v, feasible (c_lb o) (c_ub o) v -> qform (c_cov o) (dvalues d) <= qform (c_cov o) v.
Proof.
  intros fuel inv ord o Hinv Hcomp Hord Hwp Hlab Hgp Hfuel. destruct (solve_total fuel inv ord o Hinv Hcomp Hord Hwp Hgp Hfuel) as [o1 Es].
  pose proof Hwp as [Ht [_ [Hb _]]]. pose proof Hgp as [Hu [He _]].
  assert (Ee : ensure fuel inv ord o = (o1, Ok tt)) by (unfold ensure; rewrite Ht; exact Es).
  assert (Hrun : exists o' d, cla_min_volatility fuel inv ord o = (o', Ok d)).
  { unfold cla_min_volatility. rewrite Ee. destruct (kept_least fuel inv ord o o1 Hinv Hord Hwp Hu He Es) as [q [Hq _]].
    destruct (index_best_total (fun x y => @nltb R RNum x y) (map (fun p => quad (c_cov o1) (t_w p)) (c_tp o1))) as [k Ek].
    { intros E0. apply map_eq_nil in E0. rewrite E0 in Hq. contradiction. }
    fold (index_min (map (fun p => quad (c_cov o1) (t_w p)) (c_tp o1))) in Ek. rewrite Ek. cbn [rbind].
    destruct (index_min_spec _ _ Ek) as [v [Hv _]]. rewrite nth_error_map in Hv. unfold item. destruct (nth_error (c_tp o1) k) as [p|]; [|discriminate].
    do 2 eexists. reflexivity. }
  destruct Hrun as [o' [d E]]. exists o', d. split; [exact E|]. apply (min_vol_global fuel inv ord o o' d); auto.
Qed.

(** ** Whole segments are optimal *)
Section Segment.
  Variables (mean : list R) (cov : list (list R)) (lb ub : list R).
  Notation n := (length mean).
  Hypotheses (Hpd : pos_def n cov) (Hsym : symmetric n cov) (Hbox : boxes n lb ub).
  Definition slope (w : list R) (lam : R) (v : nat -> R) : R := sumn n (fun i => v i * (inner (nth i cov []) w - lam * nth i mean 0)).
  Lemma value_line : forall w d lam t, length w = n ->
    let u := of_fun n (fun i => vec w i + t * d i) in
    qform cov u / 2 - lam * inner u mean = qform cov w / 2 - lam * inner w mean + t * slope w lam d + t * t / 2 * bil n (entry cov) d d.
  Proof.
    intros w d lam t Hw u. assert (Lu : length u = n) by apply of_fun_length.
    rewrite !(qform_bil n) by (auto; apply Hpd). rewrite !(inner_vec n) by auto.
    assert (Eu : forall i, (i < n)%nat -> vec u i = vec w i + t * d i) by (intros; apply vec_of_fun; assumption).
    rewrite (bil_ext n _ _ _ (fun i => vec w i + t * d i) (fun i => vec w i + t * d i)) by exact Eu. rewrite bil_line by exact Hsym.
    assert (Es : slope w lam d = bil n (entry cov) (vec w) d - lam * sumn n (fun i => d i * vec mean i)).
    { unfold slope. rewrite (bil_sym n (entry cov) (vec w) d) by exact Hsym. unfold bil. rewrite <- sumn_scal, <- sumn_minus. apply sumn_ext. intros i Hi.
      rewrite <- (ap_inner mean cov Hpd w i Hw Hi). unfold ap, vec. ring. }
    rewrite Es. rewrite (sumn_ext n (fun i => vec u i * vec mean i) (fun i => vec w i * vec mean i + t * (d i * vec mean i))) by (intros i Hi; rewrite Eu by exact Hi; ring).
    rewrite sumn_plus, sumn_scal. field.
  Qed.
  Lemma optimal_slope : forall w lam v, optimal_at mean cov lb ub lam w -> feasible lb ub v -> 0 <= slope w lam (fun i => vec v i - vec w i).
  Proof.
    intros w lam v [Hw Hopt] Hv. pose proof (proj1 (feasible_vec mean lb ub Hbox w) Hw) as [Lw [Sw Bw]]. pose proof (proj1 (feasible_vec mean lb ub Hbox v) Hv) as [Lv [Sv Bv]].
    set (d := fun i => vec v i - vec w i). apply Rnot_lt_le. intros Hneg.
    set (s := slope w lam d) in *. set (q := bil n (entry cov) d d).
    assert (Hq : 0 <= q) by (unfold q; destruct (bil_pos n (entry cov) (pos_def_posdef n cov Hpd) d) as [Hz|Hp]; [rewrite bil_zero by exact Hz; lra|lra]).
    assert (Ht : exists t, 0 < t <= 1 /\ t * s + t * t / 2 * q < 0).
    { destruct (Rle_lt_dec (q + s) 0) as [Hc|Hc].
      - exists 1. split; [lra|]. nra.
      - assert (Hq0 : 0 < q) by lra. exists (- s / q). assert (0 < / q) by (apply Rinv_0_lt_compat, Hq0). split; [split|].
        + apply Rmult_lt_0_compat; lra.
        + apply (Rmult_le_reg_r q); [exact Hq0|]. unfold Rdiv. rewrite Rmult_assoc, Rinv_l by lra. lra.
        + replace (- s / q * s + - s / q * (- s / q) / 2 * q) with (- (s * s) * / q / 2) by (field; lra).
          assert (0 < s * s) by nra. assert (0 < s * s * / q) by (apply Rmult_lt_0_compat; assumption). lra. }
    destruct Ht as [t [Ht Hlt]]. pose proof (value_line w d lam t Lw) as E. cbv zeta in E. fold s q in E.
    assert (Hu : feasible lb ub (of_fun n (fun i => vec w i + t * d i))).
    { apply (feasible_vec mean lb ub Hbox). split; [apply of_fun_length|].
      assert (Eu : forall i, (i < n)%nat -> vec (of_fun n (fun i => vec w i + t * d i)) i = vec w i + t * d i) by (intros i Hi; apply vec_of_fun; exact Hi). split.
      - rewrite (sumn_ext n _ (fun i => vec w i + t * d i)) by exact Eu. rewrite sumn_plus, sumn_scal. unfold d. rewrite sumn_minus, Sw, Sv. ring.
      - intros i Hi. rewrite Eu by exact Hi. unfold d. specialize (Bw i Hi). specialize (Bv i Hi). nra. }
    specialize (Hopt _ Hu). lra.
  Qed.
  Lemma slope_optimal : forall w lam, feasible lb ub w -> (forall v, feasible lb ub v -> 0 <= slope w lam (fun i => vec v i - vec w i)) ->
    optimal_at mean cov lb ub lam w.
  Proof.
    intros w lam Hw H. split; [exact Hw|]. intros v Hv. pose proof (proj1 (feasible_vec mean lb ub Hbox w) Hw) as [Lw _].
    pose proof (proj1 (feasible_vec mean lb ub Hbox v) Hv) as [Lv _].
    set (d := fun i => vec v i - vec w i). pose proof (value_line w d lam 1 Lw) as E. cbv zeta in E.
    assert (Ev : of_fun n (fun i => vec w i + 1 * d i) = v).
    { apply nth_ext0; [rewrite of_fun_length; auto|]. intros i Hi. rewrite of_fun_length in Hi. change (vec (of_fun n (fun i => vec w i + 1 * d i)) i = vec v i).
      rewrite vec_of_fun by exact Hi. unfold d. ring. }
    rewrite Ev in E. rewrite E. specialize (H v Hv). fold d in H.
    assert (Hq : 0 <= bil n (entry cov) d d) by (destruct (bil_pos n (entry cov) (pos_def_posdef n cov Hpd) d) as [Hz|Hp]; [rewrite bil_zero by exact Hz; lra|lra]).
    lra.
  Qed.
  Lemma slope_mix : forall t w1 l1 w2 l2 w v, length w1 = n -> length w2 = n -> length w = n -> (forall i, (i < n)%nat -> vec w i = t * vec w1 i + (1 - t) * vec w2 i) ->
    slope w (t * l1 + (1 - t) * l2) v = t * slope w1 l1 v + (1 - t) * slope w2 l2 v.
  Proof.
    intros t w1 l1 w2 l2 w v L1 L2 L E. unfold slope. rewrite <- !sumn_scal, <- sumn_plus. apply sumn_ext. intros i Hi.
    rewrite <- !(ap_inner mean cov Hpd _ i) by assumption. rewrite (ap_ext n _ (vec w) (fun k => t * vec w1 k + (1 - t) * vec w2 k)) by exact E. rewrite ap_lin. ring.
  Qed.
  Lemma blend_nth : forall t p q i, length p = length q -> nth i (blend t p q) 0 = t * nth i p 0 + (1 - t) * nth i q 0.
  Proof.
    intros t. unfold blend. induction p as [|x p IH]; intros [|y q] [|i] H; try discriminate; cbn [combine map nth fst snd]; try ring. apply IH. cbn in H. lia.
  Qed.
  Theorem segment_optimal : forall f w1 l1 g1 w2 l2 g2 t, free_set n f -> optimal_at mean cov lb ub l1 w1 -> optimal_at mean cov lb ub l2 w2 ->
    stationary mean cov f l1 g1 w1 -> stationary mean cov f l2 g2 w2 -> agrees_off f w2 w1 -> 0 <= t <= 1 ->
    optimal_at mean cov lb ub (t * l1 + (1 - t) * l2) (blend t w1 w2).
  Proof.
    intros f w1 l1 g1 w2 l2 g2 t [_ [_ Hin]] O1 O2 S1 S2 [Hlen Hag] Ht.
    pose proof (proj1 (feasible_vec mean lb ub Hbox w1) (proj1 O1)) as [L1 [T1 B1]]. pose proof (proj1 (feasible_vec mean lb ub Hbox w2) (proj1 O2)) as [L2 [T2 B2]].
    assert (L : length (blend t w1 w2) = n) by (unfold blend; rewrite map_length, combine_length; lia).
    assert (E : forall i, vec (blend t w1 w2) i = t * vec w1 i + (1 - t) * vec w2 i) by (intros i; apply blend_nth; lia).
    assert (Hf : feasible lb ub (blend t w1 w2)).
    { apply (feasible_vec mean lb ub Hbox). split; [exact L|]. split.
      - rewrite (sumn_ext n _ (fun i => t * vec w1 i + (1 - t) * vec w2 i)) by (intros; apply E). rewrite sumn_plus, !sumn_scal, T1, T2. ring.
      - intros i Hi. rewrite E. specialize (B1 i Hi). specialize (B2 i Hi). nra. }
    apply slope_optimal; [exact Hf|]. intros v Hv. rewrite (slope_mix t w1 l1 w2 l2) by (auto; intros; apply E).
    (* the difference of the two points does not change the slope *)
    assert (Hz : forall w lam g c, stationary mean cov f lam g w -> slope w lam (fun i => c * (vec w1 i - vec w2 i)) = 0).
    { intros w lam g c Hs. unfold slope. rewrite (sumn_ext n _ (fun i => (c * g) * (vec w1 i - vec w2 i))).
      - rewrite sumn_scal, sumn_minus, T1, T2. ring.
      - intros i Hi. destruct (in_dec Nat.eq_dec i f) as [Hf'|Hf']; [rewrite (Hs i Hf'); ring|]. unfold vec. rewrite (Hag i Hf'). ring. }
    assert (Hadd : forall w lam x y z, (forall i, (i < n)%nat -> x i = y i + z i) -> slope w lam x = slope w lam y + slope w lam z).
    { intros w lam x y z H. unfold slope. rewrite <- sumn_plus. apply sumn_ext. intros i Hi. rewrite H by exact Hi. ring. }
    rewrite (Hadd w1 l1 _ (fun i => vec v i - vec w1 i) (fun i => (1 - t) * (vec w1 i - vec w2 i))) by (intros i _; rewrite E; ring).
    rewrite (Hadd w2 l2 _ (fun i => vec v i - vec w2 i) (fun i => (- t) * (vec w1 i - vec w2 i))) by (intros i _; rewrite E; ring).
    rewrite (Hz w1 l1 g1 (1 - t) S1), (Hz w2 l2 g2 (- t) S2).
    pose proof (optimal_slope w1 l1 v O1 Hv) as P1. pose proof (optimal_slope w2 l2 v O2 Hv) as P2. nra.
  Qed.
End Segment.

Theorem kept_segment : forall fuel inv ord (o o' : cla R), sound_inverse inv -> set_order ord -> well_posed o ->
  untied (c_mean o) (c_cov o) (c_lb o) (c_ub o) -> solve fuel inv ord o = (o', Ok tt) ->
  forall p q l1 l2 t, In p (c_tp o') -> In q (c_tp o') -> t_l p = Some l1 -> t_l q = Some l2 -> total (t_w p) = 1 -> total (t_w q) = 1 ->
  incl (t_f p) (t_f q) -> agrees_off (t_f p) (t_w q) (t_w p) -> 0 <= t <= 1 ->
  optimal_at (c_mean o) (c_cov o) (c_lb o) (c_ub o) (t * l1 + (1 - t) * l2) (blend t (t_w p) (t_w q)).
Proof.
  intros fuel inv ord o o' Hinv Hord Hwp Hu E p q l1 l2 t Hp Hq El1 El2 Tp Tq Hincl Hag Ht.
  pose proof (kept_optimal fuel inv ord o o' Hinv Hord Hwp Hu E p Hp Tp) as Kp. pose proof (kept_optimal fuel inv ord o o' Hinv Hord Hwp Hu E q Hq Tq) as Kq.
  rewrite El1 in Kp. rewrite El2 in Kq. destruct Kp as [_ [Op [Fp [g1 Sp]]]], Kq as [_ [Oq [_ [g2 Sq]]]].
  destruct Hwp as [_ [_ [Hb [_ [_ [Hpd Hsym]]]]]].
  apply (segment_optimal (c_mean o) (c_cov o) (c_lb o) (c_ub o) Hpd Hsym Hb (t_f p) _ _ g1 _ _ g2); auto.
  intros i Hi. apply Sq, Hincl, Hi.
Qed.

(** ** C90: the point where an asset reaches a bound *)
Lemma free_step : forall inv ord (mean : list R) cov lb ub isint f w last f' w' p, set_order ord -> free_set (length mean) f ->
  step inv ord mean cov lb ub isint f w w last = Ok (f', w', p) -> free_set (length mean) f'.
Proof.
  intros inv ord mean cov lb ub isint f w last f' w' p Hord Hf E. unfold step in E.
  destruct (bound_free inv ord mean cov lb ub f w) as [li|e] eqn:E1; [|discriminate]. cbn [rbind] in E.
  destruct (free_bound inv ord mean cov f w last) as [lo|e] eqn:E2; [|discriminate]. cbn [rbind] in E.
  destruct (next_event li lo) as [ev|e] eqn:E3; [|discriminate]. cbn [rbind] in E.
  destruct (after_event isint ev f w) as [[f1 w1] l] eqn:E4.
  destruct (matrices inv ord mean cov f1 w) as [[[[P FB] mF] wB]|e] eqn:Em; [|discriminate]. cbn [rbind] in E.
  destruct (compute_w P FB _ wB l) as [[wF g]|e] eqn:Ew; [|discriminate]. cbn [rbind] in E. injection E as <- <- <-.
  pose proof (next_event_spec li lo ev E3) as Hev. destruct ev as [|l0 i b|l0 j]; cbn [after_event] in E4; injection E4 as <- <- <-; auto.
  - destruct Hev as [Hli _]. unfold bound_free in E1. destruct (Nat.ltb_spec 1 (length f)) as [Hl|Hl]; [|injection E1 as <-; discriminate].
    destruct (matrices inv ord mean cov f w) as [[[[P0 FB0] mF0] wB0]|e]; [|discriminate]. cbn [rbind] in E1. injection E1 as E1.
    destruct (case_a_spec lb ub P0 FB0 mF0 wB0 f 0 None li E1) as [A1 _]. destruct (A1 _ _ _ Hli) as [Hx|[q [Hq _]]]; [rewrite Hli in Hx; discriminate|].
    apply remove_first_free; [exact Hf|apply (nth_error_In _ _ Hq)|lia].
  - destruct Hev as [Hlo _]. unfold free_bound in E2. destruct (Nat.ltb_spec (length f) (size mean)) as [Hl|Hl]; [|injection E2 as <-; discriminate].
    assert (Hx : forall bs best r, (forall i, In i bs -> (i < length mean)%nat /\ ~ In i f) -> case_b inv ord mean cov f w last bs best = Ok r ->
      forall l i, r = Some (l, i) -> best = r \/ In i bs).
    { clear. induction bs as [|a bs IH]; intros best r Hbs E l i Hr; [cbn in E; injection E as <-; auto|]. cbn [case_b] in E.
      destruct (matrices inv ord mean cov (f ++ [a]) w) as [[[[P FB] mF] wB]|e]; [|discriminate]. cbn [rbind] in E.
      destruct (compute_lambda P FB mF wB (length mF - 1) _) as [[l1 b1]|]; [|discriminate].
      match type of E with case_b _ _ _ _ _ _ _ _ ?B = _ => destruct (IH B r (fun i Hi => Hbs i (or_intror Hi)) E l i Hr) as [Hb|Hb] end; [|right; right; exact Hb].
      destruct (_ && _) in Hb; [|left; exact Hb]. right. left. congruence. }
    destruct (Hx _ _ _ (fun i Hi => proj1 (others_in ord (size mean) f i Hord) Hi) E2 l0 j Hlo) as [Hy|Hy]; [rewrite Hlo in Hy; discriminate|].
    apply (others_in ord (size mean) f j Hord) in Hy. apply free_app; tauto.
Qed.

Lemma in_step_total : forall inv ord (mean : list R) cov lb ub f w last f' w' p, sound_inverse inv -> set_order ord -> square (length mean) cov ->
  free_set (length mean) f -> length w = length mean -> step inv ord mean cov lb ub false f w w last = Ok (f', w', p) ->
  (length f <= length f')%nat /\ total w' = 1 \/
  exists i, In i f /\ ~ In i f' /\ total w' = 1 + (nth i w' 0 - nth i w 0) /\ (nth i w' 0 = nth i lb 0 \/ nth i w' 0 = nth i ub 0) /\ length f = Datatypes.S (length f').
Proof.
  intros inv ord mean cov lb ub f w last f' w' p Hinv Hord Hsq Hf Hw E. pose proof (free_step _ _ _ _ _ _ _ _ _ _ _ _ _ Hord Hf E) as Hf'.
  pose proof Hf as [_ [Hnd Hin]]. unfold step in E.
  destruct (bound_free inv ord mean cov lb ub f w) as [li|e] eqn:E1; [|discriminate]. cbn [rbind] in E.
  destruct (free_bound inv ord mean cov f w last) as [lo|e] eqn:E2; [|discriminate]. cbn [rbind] in E.
  destruct (next_event li lo) as [ev|e] eqn:E3; [|discriminate]. cbn [rbind] in E.
  destruct (after_event false ev f w) as [[f1 w1] l] eqn:E4.
  destruct (matrices inv ord mean cov f1 w) as [[[[P FB] mF] wB]|e] eqn:Em; [|discriminate]. cbn [rbind] in E.
  match type of E with rbind (compute_w P FB ?M wB l) _ = _ => set (mF' := M) in E end.
  destruct (compute_w P FB mF' wB l) as [[wF g]|e] eqn:Ew; [|discriminate]. cbn [rbind] in E. injection E as <- <- <-.
  pose proof Hf' as [_ [Hnd1 Hin1]]. destruct (matrices_ok _ _ _ _ _ _ _ _ _ _ Em Hf') as [_ [_ [HmF _]]].
  assert (Lm : length mF' = length f1) by (unfold mF'; destruct ev; rewrite ?repeat_length, HmF; apply pick_length).
  assert (LF : length wF = length f1) by (apply (compute_w_length inv ord mean cov f1 w P FB mF wB mF' l wF g); auto).
  destruct (put_all_split f1 wF w Hnd1 (eq_sym LF)) as [S1' S2']; [intros k Hk; rewrite Hw; auto|].
  destruct (point_solves inv ord mean cov f1 w P FB mF wB mF' l wF g (put_all false f1 wF w)) as [T1 _]; auto; [rewrite put_all_length; exact Hw|].
  pose proof (next_event_spec li lo ev E3) as Hev. destruct ev as [|l0 i b|l0 j]; cbn [after_event] in E4; injection E4 as <- <- <-.
  - left. split; [lia|exact T1].
  - right. destruct Hev as [Hli _]. unfold bound_free in E1. destruct (Nat.ltb_spec 1 (length f)) as [Hl|Hl]; [|injection E1 as <-; discriminate].
    destruct (matrices inv ord mean cov f w) as [[[[P0 FB0] mF0] wB0]|e]; [|discriminate]. cbn [rbind] in E1. injection E1 as E1.
    destruct (case_a_spec lb ub P0 FB0 mF0 wB0 f 0 None li E1) as [A1 _]. destruct (A1 _ _ _ Hli) as [Hx|[q [Hq Hc]]]; [rewrite Hli in Hx; discriminate|].
    pose proof (nth_error_In _ _ Hq) as Hi. exists i. split; [exact Hi|].
    assert (Hif1 : ~ In i (remove_first i f)) by (rewrite remove_first_in by exact Hnd; tauto). split; [exact Hif1|].
    assert (Lw1 : length (put false i b w) = length mean) by (rewrite put_length; exact Hw).
    destruct (put_all_split (remove_first i f) wF (put false i b w) Hnd1 (eq_sym LF)) as [S1 [S2 S3]]; [intros k Hk; rewrite Lw1; auto|].
    assert (Hput : forall k, nth k (put false i b w) 0 = if Nat.eqb k i then b else nth k w 0).
    { intros k. unfold put. cbn [stored]. destruct (Nat.eqb_spec k i) as [->|Hki].
      - rewrite nth_list_set_same; [reflexivity|]. rewrite Hw. auto.
      - apply nth_list_set_other. auto. }
    set (w2 := put_all false (remove_first i f) wF (put false i b w)) in *. set (u := put_all false (remove_first i f) wF w) in *.
    assert (Hw2i : nth i w2 0 = b) by (rewrite S3 by exact Hif1; rewrite Hput, Nat.eqb_refl; reflexivity).
    assert (Hmix : forall k, k <> i -> nth k w2 0 = nth k u 0).
    { intros k Hki. destruct (in_dec Nat.eq_dec k (remove_first i f)) as [Hk|Hk]; [rewrite S1, S1' by exact Hk; reflexivity|].
      rewrite S3 by exact Hk. rewrite Hput. destruct (Nat.eqb_spec k i); [contradiction|]. destruct S2' as [_ S2']. rewrite S2' by exact Hk. reflexivity. }
    assert (Hui : nth i u 0 = nth i w 0) by (destruct S2' as [_ S2']; apply S2', Hif1).
    assert (Lw2 : length w2 = length mean) by (unfold w2; rewrite put_all_length; exact Lw1).
    assert (Lu : length u = length mean) by (unfold u; rewrite put_all_length; exact Hw).
    split; [|split].
    + rewrite <- T1. rewrite !(total_vec (length mean)) by assumption.
      assert (E : sumn (length mean) (fun k => vec w2 k - vec u k) = vec w2 i - vec u i).
      { apply (sumn_single (length mean) (fun k => vec w2 k - vec u k)); [auto|]. intros k Hk Hki. unfold vec. rewrite Hmix by exact Hki. ring. }
      rewrite sumn_minus in E. unfold vec at 3 4 in E. rewrite Hui in E. lra.
    + rewrite Hw2i. unfold compute_lambda in Hc. match type of Hc with (if ?c then _ else _) = _ => destruct c end; [discriminate|].
      assert (Hb : b = nth i lb 0 \/ b = nth i ub 0).
      { destruct wB0; injection Hc as _ <-; unfold compute_bi; match goal with |- context [if ?c then _ else _] => destruct c end; auto. }
      exact Hb.
    + symmetry. apply remove_first_length, Hi.
  - left. split; [rewrite app_length; cbn; lia|exact T1].
Qed.

(** a run: consecutive raw points *)
Theorem bound_points : forall fuel inv ord (o : cla R) f w pts r, sound_inverse inv -> set_order ord -> square (c_n o) (c_cov o) -> c_int o = false ->
  boxes (c_n o) (c_lb o) (c_ub o) -> init_algo o = Ok (f, w) -> free_set (c_n o) f -> raw_points fuel inv ord o f w = (pts, r) ->
  forall p q, consecutive p q pts ->
    (length (t_f p) <= length (t_f q))%nat /\ total (t_w q) = 1 \/
    exists i, In i (t_f p) /\ ~ In i (t_f q) /\ (nth i (t_w q) 0 = nth i (c_lb o) 0 \/ nth i (t_w q) 0 = nth i (c_ub o) 0) /\
      total (t_w q) = 1 + (nth i (t_w q) 0 - nth i (t_w p) 0) /\
      (tol9 < Rabs (nth i (t_w q) 0 - nth i (t_w p) 0) -> ~ In q (purge_num_err (c_lb o) (c_ub o) tol9 pts)).
Proof.
  intros fuel inv ord o f w pts r Hinv Hord Hsq Hi [Hb1 [Hb2 _]] Ei Hf El p q Hc.
  assert (Hloop : forall fuel f w last pre pts r, free_set (c_n o) f -> length w = c_n o ->
    loop inv ord (c_mean o) (c_cov o) (c_lb o) (c_ub o) false fuel f w last pre = (pts, r) -> forall p0 l, pre = l ++ [p0] -> t_w p0 = w -> t_f p0 = f ->
    (forall p q, consecutive p q pre -> (length (t_f p) <= length (t_f q))%nat /\ total (t_w q) = 1 \/
    exists i, In i (t_f p) /\ ~ In i (t_f q) /\ (nth i (t_w q) 0 = nth i (c_lb o) 0 \/ nth i (t_w q) 0 = nth i (c_ub o) 0) /\
      total (t_w q) = 1 + (nth i (t_w q) 0 - nth i (t_w p) 0)) ->
    forall p q, consecutive p q pts -> (length (t_f p) <= length (t_f q))%nat /\ total (t_w q) = 1 \/
    exists i, In i (t_f p) /\ ~ In i (t_f q) /\ (nth i (t_w q) 0 = nth i (c_lb o) 0 \/ nth i (t_w q) 0 = nth i (c_ub o) 0) /\
      total (t_w q) = 1 + (nth i (t_w q) 0 - nth i (t_w p) 0)).
  { clear - Hinv Hord Hsq. induction fuel as [|fuel IH]; intros f w last pre pts r Hf Hw E p0 l Hpre Hp0w Hp0f HP; [cbn in E; injection E as <- <-; exact HP|].
    cbn [loop] in E. destruct (step inv ord (c_mean o) (c_cov o) (c_lb o) (c_ub o) false f w w last) as [[[f' w'] p1]|e] eqn:Es; [|injection E as <- <-; exact HP].
    assert (Hpoint : t_w p1 = w' /\ t_f p1 = f').
    { clear - Es. unfold step in Es. destruct (bound_free _ _ _ _ _ _ _ _); [|discriminate]. cbn [rbind] in Es. destruct (free_bound _ _ _ _ _ _ _); [|discriminate]. cbn [rbind] in Es.
      destruct (next_event _ _) as [ev|]; [|discriminate]. cbn [rbind] in Es. destruct (after_event _ _ _ _) as [[f1 w1] l]. destruct (matrices _ _ _ _ _ _) as [[[[P FB] mF] wB]|]; [|discriminate].
      cbn [rbind] in Es. destruct (compute_w _ _ _ _ _) as [[wF g]|]; [|discriminate]. cbn [rbind] in Es. injection Es as <- <- <-. auto. }
    destruct Hpoint as [Hp1w Hp1f].
    assert (Hw' : length w' = c_n o).
    { destruct (step_length _ _ _ _ _ _ _ _ _ _ _ _ _ _ Es) as [H1 H2]. congruence. }
    assert (HP' : forall p q, consecutive p q (pre ++ [p1]) -> (length (t_f p) <= length (t_f q))%nat /\ total (t_w q) = 1 \/
      exists i, In i (t_f p) /\ ~ In i (t_f q) /\ (nth i (t_w q) 0 = nth i (c_lb o) 0 \/ nth i (t_w q) 0 = nth i (c_ub o) 0) /\
      total (t_w q) = 1 + (nth i (t_w q) 0 - nth i (t_w p) 0)).
    { intros p q [l1 [l2 Hc]]. destruct l2 as [|x l2].
      - assert (E1 : pre ++ [p1] = (l1 ++ [p]) ++ [q]) by (rewrite <- app_assoc; exact Hc). apply app_inj_tail in E1. destruct E1 as [E1 <-].
        rewrite Hpre in E1. apply app_inj_tail in E1. destruct E1 as [_ <-]. rewrite Hp1w, Hp1f, Hp0w, Hp0f.
        destruct (in_step_total inv ord (c_mean o) (c_cov o) (c_lb o) (c_ub o) f w last f' w' p1 Hinv Hord Hsq Hf Hw Es) as [H|[i [A1 [A2 [A3 [A4 A5]]]]]]; [left; exact H|].
        right. exists i. auto.
      - apply HP. destruct (@exists_last _ (x :: l2)) as [l3 [y Hy]]; [discriminate|]. rewrite Hy in Hc.
        assert (E1 : pre ++ [p1] = (l1 ++ p :: q :: l3) ++ [y]) by (rewrite <- app_assoc; cbn [app]; exact Hc). apply app_inj_tail in E1. destruct E1 as [-> _].
        exists l1, l3. reflexivity. }
    destruct (t_l p1) as [l0|]; [|injection E as <- <-; exact HP']. destruct (_ =? _)%num in E; [injection E as <- <-; exact HP'|].
    apply (IH f' w' (Some l0) (pre ++ [p1]) pts r (free_step _ _ _ _ _ _ _ _ _ _ _ _ _ Hord Hf Es) Hw' E p1 pre eq_refl Hp1w Hp1f HP'). }
  assert (Hw : length w = c_n o) by (rewrite (init_algo_length o f w Ei); exact Hb1).
  unfold raw_points in El. rewrite Hi in El.
  destruct (Hloop fuel f w None _ pts r Hf Hw El (mkTP w None None f) [] eq_refl eq_refl eq_refl) with (p := p) (q := q) as [H|[i [A1 [A2 [A3 A4]]]]]; auto.
  - intros p' q' [l1 [l2 Hx]]. destruct l1 as [|y l1]; [discriminate|]. destruct l1; discriminate.
  - right. exists i. split; [exact A1|]. split; [exact A2|]. split; [exact A3|]. split; [exact A4|]. intros Habs Hq.
    rewrite purge_num_err_filter in Hq. apply filter_In in Hq. destruct Hq as [_ Hq]. apply negb_true_iff in Hq.
    unfold num_err in Hq. runfold. rewrite vsum_total, A4 in Hq. replace (1 + (nth i (t_w q) 0 - nth i (t_w p) 0) - 1) with (nth i (t_w q) 0 - nth i (t_w p) 0) in Hq by ring.
    destruct (Rltb tol9 (nabs (nth i (t_w q) 0 - nth i (t_w p) 0))) eqn:Er; [discriminate|]. rprop. apply (Rlt_not_le _ _ Habs). 
    rewrite <- nabs_Rabs. exact Er.
Qed.

Theorem bound_dropped : forall fuel inv ord (o : cla R) f w pts r, sound_inverse inv -> set_order ord -> square (c_n o) (c_cov o) -> c_int o = false ->
  boxes (c_n o) (c_lb o) (c_ub o) -> total (c_lb o) < 1 -> 1 <= total (c_ub o) ->
  init_algo o = Ok (f, w) -> raw_points fuel inv ord o f w = (pts, r) ->
  forall p q, consecutive p q pts ->
    (length (t_f p) <= length (t_f q))%nat /\ total (t_w q) = 1 \/
    exists i, In i (t_f p) /\ ~ In i (t_f q) /\ (nth i (t_w q) 0 = nth i (c_lb o) 0 \/ nth i (t_w q) 0 = nth i (c_ub o) 0) /\
      total (t_w q) = 1 + (nth i (t_w q) 0 - nth i (t_w p) 0) /\
      (tol9 < Rabs (nth i (t_w q) 0 - nth i (t_w p) 0) -> ~ In q (purge_num_err (c_lb o) (c_ub o) tol9 pts)).
Proof.
  intros fuel inv ord o f w pts r Hinv Hord Hsq Hi Hb H1 H2 Ei El. destruct (init_algo_ok o Hi Hb H1 H2) as [a [w0 [Ei' [Ha _]]]].
  pose proof Ei as Ei2. rewrite Ei in Ei'. injection Ei' as -> ->. apply (bound_points fuel inv ord o [a] w0 pts r); auto.
  split; [discriminate|]. split; [constructor; [intros []|constructor]|intros i [<-|[]]; exact Ha].
Qed.

(** ** Bounds formats *)
Lemma mapM_item : forall {X} (k : nat) (d : X) rows, Forall (fun r => (k < length r)%nat) rows -> mapM (item k) rows = Ok (map (fun r => nth k r d) rows).
Proof.
  intros X k d. induction rows as [|r rows IH]; intros H; [reflexivity|]. inversion H as [|? ? H1 H2]; subst. cbn [mapM map].
  unfold item at 1. rewrite (nth_error_nth' r d H1). cbn [rbind]. rewrite IH by exact H2. reflexivity.
Qed.
Theorem cla_formats : forall (ps : list (pynum R * pynum R)), length ps <> 2%nat -> ps <> [] ->
  let n := length ps in
  let lo := map (fun p => pval (fst p)) ps in let hi := map (fun p => pval (snd p)) ps in
  let isint := forallb (fun p => is_pint (fst p)) ps in
  read_cla_bounds n (CSeq (map (fun p => [fst p; snd p]) ps)) = Ok (lo, hi, isint) /\
  read_cla_bounds n (CSeq [map fst ps; map snd ps]) = Ok (lo, hi, isint) /\
  (forall l u, Forall (fun p => p = (l, u)) ps -> read_cla_bounds n (CPair l u) = Ok (lo, hi, false)).
Proof.
  intros ps H2 H0 n lo hi isint. split; [|split].
  - unfold read_cla_bounds. destruct ps as [|p ps]; [congruence|]. cbn [item nth_error map rbind]. unfold n. rewrite <- (map_length (fun p => [fst p; snd p])).
    change ([fst p; snd p] :: map (fun p0 => [fst p0; snd p0]) ps) with (map (fun p0 : pynum R * pynum R => [fst p0; snd p0]) (p :: ps)). rewrite Nat.eqb_refl.
    rewrite !(mapM_item _ (fst p)); cbn [rbind].
    + rewrite !map_map. cbn [nth]. unfold lo, hi, isint. f_equal. f_equal. clear. generalize (p :: ps). intros l. induction l as [|q l IH]; [reflexivity|]. cbn. rewrite IH. reflexivity.
    + apply Forall_forall. intros r Hr. apply in_map_iff in Hr. destruct Hr as [q [<- _]]. cbn. lia.
    + apply Forall_forall. intros r Hr. apply in_map_iff in Hr. destruct Hr as [q [<- _]]. cbn. lia.
  - unfold read_cla_bounds. cbn [item nth_error rbind length]. destruct (Nat.eqb_spec 2 n) as [E|E]; [unfold n in E; congruence|].
    rewrite !map_length. fold n. rewrite Nat.eqb_refl. cbn [negb item nth_error rbind]. rewrite ?map_length, ?Nat.eqb_refl. cbn [negb]. rewrite !map_map.
    unfold lo, hi, isint. f_equal. f_equal. clear. induction ps as [|q l IH]; [reflexivity|]. cbn. rewrite IH. reflexivity.
  - intros l u H. cbn [read_cla_bounds]. f_equal. f_equal. unfold lo, hi, n. clear - H. induction ps as [|q ps IH]; [reflexivity|]. inversion H as [|? ? E1 E2]; subst. cbn in IH |- *.
    specialize (IH E2). injection IH as IH1 IH2. rewrite <- IH1, <- IH2. reflexivity.
Qed.
Theorem cla_formats_two : forall l0 l1 u0 u1 : pynum R,
  read_cla_bounds 2 (CSeq [[l0; l1]; [u0; u1]]) = Ok ([pval l0; pval u0], [pval l1; pval u1], is_pint l0 && (is_pint u0 && true)).
Proof. reflexivity. Qed.

(** ** max_sharpe succeeds *)
Lemma eval_sr_ok : forall n mean cov w0 w1 a, pos_def n cov -> length w0 = n -> length w1 = n -> 1 / 2 <= total w0 -> 1 / 2 <= total w1 -> 0 <= a <= 1 ->
  exists v, eval_sr mean cov w0 w1 a = Ok v.
Proof.
  intros n mean cov w0 w1 a [_ Hpd] L0 L1 T0 T1 Ha. unfold eval_sr. rewrite quad_qform.
  assert (0 < qform cov (combo a w0 w1)).
  { apply Hpd; [rewrite combo_length; congruence|]. intros E. assert (Et : total (combo a w0 w1) = 0) by (rewrite E; clear; induction n as [|n IH]; cbn in *; lra).
    rewrite total_combo in Et by congruence. nra. }
  destruct (Rleb (qform cov (combo a w0 w1)) 0) eqn:Er; [rprop; lra|eauto].
Qed.
Lemma sharpe_segments_ok : forall n mean cov pts, pos_def n cov -> Forall (fun p : tp R => length (t_w p) = n /\ 1 / 2 <= total (t_w p)) pts ->
  exists l, sharpe_segments mean cov pts = Ok l /\ length l = (length pts - 1)%nat.
Proof.
  intros n mean cov pts Hpd. induction pts as [|p pts IH]; intros H; [exists []; auto|]. destruct pts as [|q rest]; [exists []; auto|].
  inversion H as [|? ? [Lp Tp] H2]; subst. inversion H2 as [|? ? [Lq Tq] _]; subst.
  change (sharpe_segments mean cov (p :: q :: rest)) with
    (do r <- golden_section (eval_sr mean cov (t_w p) (t_w q)) 0 1 ;
     do l' <- sharpe_segments mean cov (q :: rest) ; Ok ((combo (fst r) (t_w p) (t_w q), snd r) :: l')).
  destruct (golden_section_total (eval_sr mean cov (t_w p) (t_w q)) 0 1) as [r ->]; [lra|intros x Hx; apply (eval_sr_ok (length (t_w p))); auto|]. cbn [rbind].
  destruct (IH H2) as [l' [-> Hl]]. cbn [rbind]. eexists. split; [reflexivity|]. cbn in *. lia.
Qed.
Theorem max_sharpe_total : forall fuel inv ord (o o1 : cla R), length (c_lb o) = c_n o -> length (c_ub o) = c_n o -> c_tp o = [] -> pos_def (c_n o) (c_cov o) ->
  solve fuel inv ord o = (o1, Ok tt) -> exists o' d, cla_max_sharpe fuel inv ord o = (o', Ok d).
Proof.
  intros fuel inv ord o o1 L1 L2 Ht Hpd Es. assert (Hlen : length (c_ub o) = length (c_lb o)) by congruence.
  destruct (solve_feasible _ _ _ _ _ Hlen Es) as [H2 Hf].
  assert (Ee : ensure fuel inv ord o = (o1, Ok tt)) by (unfold ensure; rewrite Ht; exact Es).
  pose proof (solve_same fuel inv ord o) as Hs. rewrite Es in Hs. cbn [fst] in Hs. destruct Hs as [S1 [S2 [S3 _]]].
  unfold cla_max_sharpe. rewrite Ee. destruct (sharpe_segments_ok (c_n o) (c_mean o1) (c_cov o1) (c_tp o1)) as [l [-> Hl]].
  - rewrite S3. exact Hpd.
  - apply Forall_forall. intros p Hp. rewrite Forall_forall in Hf. specialize (Hf p Hp). split; [rewrite (nearly_length _ _ _ _ Hf); exact L1|].
    destruct Hf as [Hf _]. unfold tol9 in Hf. unfold Rabs in Hf. destruct (Rcase_abs _); lra.
  - cbn [rbind]. destruct (index_best_total (fun x y => @nltb R RNum y x) (map snd l)) as [k Ek].
    { intros E0. apply map_eq_nil in E0. subst l. cbn in Hl. lia. }
    fold (index_max (map snd l)) in Ek. rewrite Ek. cbn [rbind]. destruct (index_max_spec _ _ Ek) as [v [Hv _]]. rewrite nth_error_map in Hv. unfold item.
    destruct (nth_error l k) as [x|]; [|discriminate]. do 2 eexists. reflexivity.
Qed.
