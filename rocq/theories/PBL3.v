(** * Reachable Black-Litterman objects; posterior returns and covariance in terms of the system *)
From Coq Require Import List Reals Lra Lia Arith Bool.
From Verif Require Import Num Py RBase PyLemmas MBase SLin SBL Sums Mat MRisk MBL PCov1 PCov2 PBL1 PBL2.
Import ListNotations.
Local Open Scope R_scope.

Definition inputs (o : bl) := (b_tickers (bl_base o), bl_sigma o, bl_n o, bl_Q o, bl_P o, (bl_pi o, bl_omega o, bl_tau o, bl_ra o)).
Definition caches_ok (la : linalg) (o : bl) : Prop :=
  (bl_tsp o = None \/ bl_tsp o = Some (tau_sigma_P o)) /\
  (bl_A o = None \/ bl_A o = Some (system_matrix o (tau_sigma_P o))) /\
  (bl_pcov o = None \/ bl_pcov o = Some (snd (bl_cov la (with_caches o (tau_sigma_P o) (system_matrix o (tau_sigma_P o)))))).
Record wf (n k : nat) (o : bl) : Prop := {
  wf_n : bl_n o = n; wf_sigma : shaped n n (bl_sigma o); wf_Q : length (bl_Q o) = k; wf_P : shaped k n (bl_P o);
  wf_pi : length (bl_pi o) = n; wf_omega : shaped k k (bl_omega o); wf_tau : 0 < bl_tau o <= 1; wf_ra : 0 < bl_ra o }.

Lemma has_shape_true : forall r c m, has_shape r c m = true <-> shaped r c m.
Proof.
  intros r c m. unfold has_shape, shaped. rewrite andb_true_iff, Nat.eqb_eq, forallb_forall, Forall_forall. split; intros [H1 H2]; split; auto; intros x Hx.
  - apply Nat.eqb_eq, H2, Hx.
  - apply Nat.eqb_eq, H2, Hx.
Qed.

(** every field of a constructed object *)
Lemma bl_init_inv : forall a o, bl_init a = Ok o ->
  let sigma := cov_values (a_cov a) in let n := length sigma in
  bl_sigma o = sigma /\ bl_n o = n /\ bl_base o = base_init n (Some (cov_tickers (a_cov a))) /\ bl_tau o = a_tau a /\ bl_ra o = a_ra a /\
  0 < a_ra a /\ 0 < a_tau a <= 1 /\
  (match a_views a with VNone => set_Q_P n (a_Q a) (a_P a) | VDict d => parse_views n (cov_tickers (a_cov a)) d | VBad => Err TypeError end) = Ok (bl_Q o, bl_P o) /\
  set_pi n (a_pi a) (a_cov a) (a_ra a) (a_caps a) (a_rf a) = Ok (bl_pi o) /\
  check_dimensions n (bl_Q o) (bl_P o) (bl_pi o) sigma = Ok tt /\
  set_omega n sigma (bl_Q o) (bl_P o) (a_tau a) (a_omega a) (a_conf a) = Ok (bl_omega o) /\
  bl_tsp o = None /\ bl_A o = None /\ bl_rets o = None /\ bl_pcov o = None.
Proof.
  intros a o H. cbv zeta. unfold bl_init in H. cbv zeta in H. cbn [b_tickers base_init] in H.
  set (n := length (cov_values (a_cov a))) in *.
  destruct (match a_views a with VNone => _ | VDict d => _ | VBad => _ end) as [[Q P]|e]; cbn [rbind] in H; [|discriminate].
  destruct (Rleb (a_ra a) 0) eqn:Era; cbn [rbind] in H; [discriminate|].
  destruct (set_pi n (a_pi a) (a_cov a) (a_ra a) (a_caps a) (a_rf a)) as [pi|e]; cbn [rbind] in H; [|discriminate].
  destruct (Rleb (a_tau a) 0) eqn:Et; cbn [orb rbind] in H; [discriminate|].
  destruct (Rltb 1 (a_tau a)) eqn:Et1; cbn [rbind] in H; [discriminate|].
  destruct (check_dimensions n Q P pi (cov_values (a_cov a))) as [[]|e] eqn:Ed; cbn [rbind] in H; [|discriminate].
  destruct (set_omega n (cov_values (a_cov a)) Q P (a_tau a) (a_omega a) (a_conf a)) as [om|e] eqn:Eo; cbn [rbind] in H; [|discriminate].
  injection H as <-. cbn. apply Rleb_false in Era, Et. apply Rltb_false in Et1. repeat split; auto.
Qed.
Lemma init_wf : forall a o, bl_init a = Ok o -> wf (bl_n o) (length (bl_Q o)) o.
Proof.
  intros a o H. destruct (bl_init_inv a o H) as (E1 & E2 & E3 & E4 & E5 & Hra & Ht & _ & _ & Hd & Ho & _).
  unfold check_dimensions in Hd.
  destruct (Nat.eqb (length (bl_pi o)) (length (cov_values (a_cov a)))) eqn:Ep; [|discriminate].
  destruct (has_shape (length (bl_Q o)) (length (cov_values (a_cov a))) (bl_P o)) eqn:EP; [|discriminate].
  destruct (has_shape (length (cov_values (a_cov a))) (length (cov_values (a_cov a))) (cov_values (a_cov a))) eqn:ES; [|discriminate].
  apply Nat.eqb_eq in Ep. apply has_shape_true in EP, ES.
  unfold set_omega in Ho. cbv zeta in Ho.
  destruct (match a_omega a with OmDefault => _ | OmArr m => _ | OmIdzorek => _ | OmBad => _ end) as [m|e]; cbn [rbind] in Ho; [|discriminate].
  destruct (has_shape (length (bl_Q o)) (length (bl_Q o)) m) eqn:EO; [|discriminate]. injection Ho as Ho. rewrite Ho in EO. apply has_shape_true in EO.
  rewrite E2. constructor; auto; try congruence; rewrite ?E4, ?E5; auto; try (rewrite E1; exact ES).
Qed.

(** ** Methods do not change the inputs *)
Lemma fill_ok : forall la o, caches_ok la o -> fill o = (with_caches o (tau_sigma_P o) (system_matrix o (tau_sigma_P o)), (tau_sigma_P o, system_matrix o (tau_sigma_P o))).
Proof.
  intros la o (Ht & HA & _). unfold fill. cbv zeta. destruct Ht as [Ht|Ht], HA as [HA|HA]; rewrite Ht, HA; reflexivity.
Qed.
Lemma with_caches_eq : forall la o, caches_ok la o -> forall t A, fill o = (with_caches o t A, (t, A)) -> t = tau_sigma_P o /\ A = system_matrix o (tau_sigma_P o).
Proof. intros la o H t A E. rewrite (fill_ok la) in E by exact H. injection E as E1 E2. auto. Qed.

Definition fresh (o : bl) : bl :=
  mkBL (mkBase (b_tickers (bl_base o)) None) (bl_sigma o) (bl_n o) (bl_Q o) (bl_P o) (bl_pi o) (bl_omega o) (bl_tau o) (bl_ra o) None None None None.

Lemma returns_fresh : forall la o, caches_ok la o -> snd (bl_returns la o) = snd (bl_returns la (fresh o)).
Proof. intros la o H. unfold bl_returns. rewrite (fill_ok la) by exact H. reflexivity. Qed.
Lemma cov_fresh : forall la o, caches_ok la o -> snd (bl_cov la o) = snd (bl_cov la (fresh o)).
Proof. intros la o H. unfold bl_cov. rewrite (fill_ok la) by exact H. reflexivity. Qed.
Lemma fresh_ok : forall la o, caches_ok la (fresh o).
Proof. intros la o. repeat split; left; reflexivity. Qed.
Lemma fresh_inputs : forall o o', inputs o = inputs o' -> fresh o = fresh o'.
Proof. intros o o' H. unfold inputs in H. injection H as H1 H2 H3 H4 H5 H6 H7 H8 H9. unfold fresh. congruence. Qed.

Definition good (la : linalg) (o o' : bl) : Prop := inputs o' = inputs o /\ caches_ok la o'.
Lemma returns_good : forall la o, caches_ok la o -> good la o (fst (bl_returns la o)) /\
  bl_A (fst (bl_returns la o)) = Some (system_matrix o (tau_sigma_P o)) /\ bl_base (fst (bl_returns la o)) = bl_base o /\
  bl_pcov (fst (bl_returns la o)) = bl_pcov o.
Proof.
  intros la o H. unfold bl_returns. rewrite (fill_ok la) by exact H. cbn [fst]. repeat split; try (right; reflexivity).
  destruct H as (_ & _ & [H|H]); [left; exact H|right]. cbn. rewrite H. reflexivity.
Qed.
Lemma cov_good : forall la o, caches_ok la o -> good la o (fst (bl_cov la o)) /\ bl_base (fst (bl_cov la o)) = bl_base o /\
  bl_rets (fst (bl_cov la o)) = bl_rets o.
Proof.
  intros la o H. unfold bl_cov. rewrite (fill_ok la) by exact H. cbn [fst]. repeat split; try (right; reflexivity).
  destruct H as (_ & _ & [H|H]); [left; exact H|right]. cbn. rewrite H. reflexivity.
Qed.
Lemma good_trans : forall la o1 o2 o3, good la o1 o2 -> inputs o3 = inputs o2 -> caches_ok la o3 -> good la o1 o3.
Proof. intros la o1 o2 o3 [H1 _] H2 H3. split; [congruence|exact H3]. Qed.
Lemma caches_keep : forall la o o', caches_ok la o -> inputs o' = inputs o -> bl_tsp o' = bl_tsp o -> bl_A o' = bl_A o -> bl_pcov o' = bl_pcov o -> caches_ok la o'.
Proof.
  intros la o o' (H1 & H2 & H3) HI Ht HA Hp. unfold inputs in HI. injection HI as E1 E2 E3 E4 E5 E6 E7 E8 E9.
  assert (ET : tau_sigma_P o' = tau_sigma_P o) by (unfold tau_sigma_P; rewrite E2, E3, E4, E5, E8; reflexivity).
  assert (EA : forall t, system_matrix o' t = system_matrix o t) by (intros t; unfold system_matrix; rewrite E3, E4, E5, E7; reflexivity).
  unfold caches_ok. rewrite Ht, HA, Hp, ET, EA. repeat split; auto.
  replace (snd (bl_cov la (with_caches o' (tau_sigma_P o) (system_matrix o (tau_sigma_P o))))) with (snd (bl_cov la (with_caches o (tau_sigma_P o) (system_matrix o (tau_sigma_P o))))); [exact H3|].
  unfold bl_cov. cbn. rewrite E2, E3, E4, E8. reflexivity.
Qed.
Lemma weights_good : forall la o d, caches_ok la o -> good la o (fst (bl_weights la o d)).
Proof.
  intros la o d H. destruct (returns_good la o H) as ((HI & HC) & HA & HB & _). unfold bl_weights. cbv zeta.
  destruct (bl_returns la o) as [o1 post]. cbn [fst] in *.
  assert (H2 : good la o (with_rets o1 (combine (b_tickers (bl_base o)) post))).
  { split; [rewrite <- HI; reflexivity|]. apply (caches_keep la o1); try reflexivity; exact HC. }
  destruct (match la_solve la _ post with Some x => _ | None => _ end) as [raw|e]; [|exact H2].
  destruct (Reqb (vsum raw) 0); [exact H2|]. cbn [fst]. destruct H2 as [H2 H3]. split; [rewrite <- H2; reflexivity|].
  apply (caches_keep la (with_rets o1 (combine (b_tickers (bl_base o)) post))); try reflexivity; exact H3.
Qed.
Lemma cov_with_caches : forall la o, snd (bl_cov la (with_caches o (tau_sigma_P o) (system_matrix o (tau_sigma_P o)))) = snd (bl_cov la (fresh o)).
Proof. intros la o. reflexivity. Qed.
Lemma performance_good : forall la o rf, caches_ok la o -> good la o (fst (bl_performance la o rf)).
Proof.
  intros la o rf H. unfold bl_performance. destruct (bl_pcov o) eqn:Ep; cbn [fst]; [split; [reflexivity|exact H]|].
  destruct (cov_good la o H) as ((HI & HC) & HB & _). pose proof (cov_fresh la o H) as HF. destruct (bl_cov la o) as [o' m]. cbn [fst snd] in *. rewrite HF.
  split; [rewrite <- HI; reflexivity|]. destruct HC as (H1 & H2 & _). repeat split; [exact H1|exact H2|]. right. cbn [bl_pcov with_pcov].
  rewrite cov_with_caches. f_equal. f_equal. f_equal. apply fresh_inputs. rewrite <- HI. reflexivity.
Qed.
Lemma set_weights_tickers : forall b (d : dict R), b_tickers (fst (set_weights b d)) = b_tickers b.
Proof. intros b d. unfold set_weights. destruct (mapM _ _); reflexivity. Qed.
Lemma step_good : forall la o op, caches_ok la o -> good la o (bl_step la o op).
Proof.
  intros la o op H. destruct op; cbn [bl_step].
  - apply returns_good; exact H.
  - apply cov_good; exact H.
  - apply weights_good; exact H.
  - apply performance_good; exact H.
  - assert (HI : forall o', o' = (mkBL (fst (set_weights (bl_base o) d)) (bl_sigma o) (bl_n o) (bl_Q o) (bl_P o) (bl_pi o) (bl_omega o) (bl_tau o)
           (bl_ra o) (bl_tsp o) (bl_A o) (bl_rets o) (bl_pcov o)) -> inputs o' = inputs o).
    { intros o' ->. unfold inputs. cbn [bl_base bl_sigma bl_n bl_Q bl_P bl_pi bl_omega bl_tau bl_ra]. rewrite set_weights_tickers. reflexivity. }
    split; [apply HI; reflexivity|]. apply (caches_keep la o); try reflexivity; [exact H|apply HI; reflexivity].
Qed.
Lemma run_good : forall la ops o, caches_ok la o -> good la o (bl_run la o ops).
Proof.
  intros la ops. induction ops as [|op ops IH]; intros o H; [split; [reflexivity|exact H]|].
  change (bl_run la o (op :: ops)) with (bl_run la (bl_step la o op) ops). destruct (step_good la o op H) as [H1 H2].
  destruct (IH _ H2) as [H3 H4]. split; [congruence|exact H4].
Qed.
Lemma init_caches : forall la a o, bl_init a = Ok o -> caches_ok la o.
Proof.
  intros la a o H. destruct (bl_init_inv a o H) as (_ & _ & _ & _ & _ & _ & _ & _ & _ & _ & _ & E1 & E2 & _ & E3). repeat split; left; assumption.
Qed.
Lemma wf_inputs : forall n k o o', inputs o' = inputs o -> wf n k o -> wf n k o'.
Proof.
  intros n k o o' HI [H1 H2 H3 H4 H5 H6 H7 H8]. unfold inputs in HI. injection HI as E1 E2 E3 E4 E5 E6 E7 E8 E9.
  constructor; congruence.
Qed.
Lemma reachable_ok : forall la o, reachable la o -> wf (bl_n o) (length (bl_Q o)) o /\ caches_ok la o.
Proof.
  intros la o (a & o0 & ops & Ha & ->). destruct (run_good la ops o0 (init_caches la a o0 Ha)) as [HI HC]. split; [|exact HC].
  pose proof (init_wf a o0 Ha) as HW. assert (E : bl_n (bl_run la o0 ops) = bl_n o0 /\ bl_Q (bl_run la o0 ops) = bl_Q o0).
  { unfold inputs in HI. injection HI as _ _ E3 E4 _ _ _ _ _. auto. }
  destruct E as [-> ->]. apply (wf_inputs _ _ o0); assumption.
Qed.

(** ** C63 *)
Lemma weights_fresh : forall la o d, caches_ok la o -> snd (bl_weights la o d) = snd (bl_weights la (fresh o) d).
Proof.
  intros la o d H. pose proof (returns_fresh la o H) as ER. destruct (returns_good la o H) as (_ & EA & EB & _).
  destruct (returns_good la (fresh o) (fresh_ok la o)) as (_ & EA' & EB' & _).
  unfold bl_weights. cbv zeta. destruct (bl_returns la o) as [o1 post]. destruct (bl_returns la (fresh o)) as [o2 post2]. cbn [fst snd] in *. subst post2.
  rewrite EA, EA'. change (bl_ra (fresh o)) with (bl_ra o). change (bl_sigma (fresh o)) with (bl_sigma o).
  change (system_matrix (fresh o) (tau_sigma_P (fresh o))) with (system_matrix o (tau_sigma_P o)).
  destruct (match la_solve la _ post with Some x => _ | None => _ end) as [raw|e]; [|reflexivity].
  destruct (Reqb (vsum raw) 0); [reflexivity|]. cbn [snd]. unfold with_weights, with_rets. cbn [bl_base]. unfold make_output_weights, make_output_of. cbn [b_weights b_tickers].
  rewrite EB, EB'. reflexivity.
Qed.
(** state of weights and posterior returns after a successful [bl_weights] *)
Lemma weights_state : forall la o d x, caches_ok la o -> snd (bl_weights la o d) = Ok x ->
  bl_base (fst (bl_weights la o d)) = bl_base (fst (bl_weights la (fresh o) d)) /\
  bl_rets (fst (bl_weights la o d)) = bl_rets (fst (bl_weights la (fresh o) d)).
Proof.
  intros la o d x H Hx. pose proof (returns_fresh la o H) as ER. destruct (returns_good la o H) as (_ & EA & EB & _).
  destruct (returns_good la (fresh o) (fresh_ok la o)) as (_ & EA' & EB' & _).
  revert Hx. unfold bl_weights. cbv zeta. destruct (bl_returns la o) as [o1 post]. destruct (bl_returns la (fresh o)) as [o2 post2]. cbn [fst snd] in *. subst post2.
  rewrite EA, EA'. change (bl_ra (fresh o)) with (bl_ra o). change (bl_sigma (fresh o)) with (bl_sigma o).
  change (system_matrix (fresh o) (tau_sigma_P (fresh o))) with (system_matrix o (tau_sigma_P o)).
  destruct (match la_solve la _ post with Some x => _ | None => _ end) as [raw|e]; [|discriminate].
  destruct (Reqb (vsum raw) 0); [discriminate|]. intros _. cbn [fst]. unfold with_weights, with_rets. cbn [bl_base bl_rets].
  rewrite EB, EB'. split; reflexivity.
Qed.
Lemma performance_fresh : forall la o rf, caches_ok la o ->
  snd (bl_performance la o rf) = portfolio_performance (match b_weights (bl_base o) with Some w => WtArray w | None => WtNone end)
         (match bl_rets o with Some r => MuSeries r | None => MuNone end)
         (CovFrame (b_tickers (bl_base o)) (snd (bl_cov la (fresh o)))) rf.
Proof.
  intros la o rf H. unfold bl_performance. pose proof H as (_ & _ & Hp). destruct (bl_pcov o) eqn:Ep.
  - destruct Hp as [Hp|Hp]; [discriminate|]. rewrite cov_with_caches in Hp. assert (E : m = snd (bl_cov la (fresh o))) by congruence.
    rewrite <- E. cbn [snd]. rewrite Ep. reflexivity.
  - pose proof (cov_fresh la o H) as EC. destruct (cov_good la o H) as (_ & EB & ER). destruct (bl_cov la o) as [o' m]. cbn [fst snd] in *. subst m.
    cbn [with_pcov bl_pcov bl_base bl_rets]. rewrite EB, ER. reflexivity.
Qed.
Theorem caching : forall la a o ops, bl_init a = Ok o -> let o' := bl_run la o ops in
  snd (bl_returns la o') = snd (bl_returns la o) /\ snd (bl_cov la o') = snd (bl_cov la o) /\
  (forall d, snd (bl_weights la o' d) = snd (bl_weights la o d)) /\
  (forall d x rf, snd (bl_weights la o d) = Ok x ->
     snd (bl_performance la (fst (bl_weights la o' d)) rf) = snd (bl_performance la (fst (bl_weights la o d)) rf)).
Proof.
  intros la a o ops Ha o'. pose proof (init_caches la a o Ha) as H0. destruct (run_good la ops o H0) as [HI HC]. fold o' in HI, HC.
  assert (EF : fresh o' = fresh o) by (apply fresh_inputs; exact HI).
  assert (HW : forall d, snd (bl_weights la o' d) = snd (bl_weights la o d)).
  { intros d. rewrite (weights_fresh la o'), (weights_fresh la o), EF by assumption. reflexivity. }
  repeat split; [rewrite (returns_fresh la o'), (returns_fresh la o), EF by assumption; reflexivity
                |rewrite (cov_fresh la o'), (cov_fresh la o), EF by assumption; reflexivity|exact HW|].
  intros d x rf Hx. destruct (weights_good la o d H0) as [I1 C1]. destruct (weights_good la o' d HC) as [I2 C2].
  rewrite !performance_fresh by assumption.
  destruct (weights_state la o d x H0 Hx) as [S1 S2]. pose proof Hx as Hx'. rewrite <- HW in Hx'. destruct (weights_state la o' d x HC Hx') as [S3 S4].
  assert (EFW : fresh (fst (bl_weights la o' d)) = fresh (fst (bl_weights la o d))) by (apply fresh_inputs; congruence).
  rewrite EFW, S1, S2, S3, S4, EF. reflexivity.
Qed.
