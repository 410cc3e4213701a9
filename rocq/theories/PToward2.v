(** * The views raised, moved part of the way, and a single view: from the arguments (C136) *)
From Coq Require Import List Reals Lra Lia Arith Bool.
From Verif Require Import Num Py RBase PyLemmas MBase SLin SBL Sums Mat MRisk MBL PCov1 PCov2 PHRP2 PBL1 PBL2 PBL3 PBL4 PBL5 PBL6 PBL9 PBL10 SViews PViews2 PViews5 SToward PToward.
Import ListNotations.
Local Open Scope R_scope.

Lemma other_init : forall a Q Q' P om c o, bl_init (with_views a Q P om c) = Ok o -> length Q' = length Q ->
  exists o', bl_init (with_views a Q' P om c) = Ok o' /\ other_views o o' /\ bl_Q o' = Q' /\ bl_Q o = Q /\ bl_P o = P.
Proof.
  intros a Q Q' P om c o H HL. pose proof (PViews2.init_views _ _ H) as HV. unfold views_of in HV. cbn [with_views a_cov a_views a_Q a_P set_Q_P] in HV. injection HV as EQ EP.
  pose proof (init_wf _ _ H) as W. destruct (bl_init_inv _ _ H) as (E1 & E2 & E3 & E4 & E5 & _ & _ & _ & _ & _ & Ho & _).
  cbn [with_views a_cov a_tau a_omega a_conf] in *. rewrite <- EQ, <- EP in *.
  eexists. split; [|split; [|split; [|split]]].
  - apply (init_change (with_views a Q P om c) o (with_views a Q' P om c) Q' P (bl_omega o) H); [reflexivity|reflexivity| |].
    + rewrite HL, EP. exact (wf_P _ _ o W).
    + cbn [with_views a_omega a_conf]. rewrite E1, E2, E4, <- Ho. unfold set_omega. cbv zeta. rewrite HL. reflexivity.
  - unfold other_views. cbn. rewrite <- EQ, <- EP. repeat split; auto.
  - reflexivity.
  - first [reflexivity|symmetry; exact EQ].
  - first [reflexivity|symmetry; exact EP].
Qed.
Lemma other_ready : forall la a Q P om c o, bl_init (with_views a Q P om c) = Ok o -> caches_ok la o.
Proof. intros la a Q P om c o H. apply (init_caches la _ _ H). Qed.
Lemma part_way_length : forall t x y, length y = length x -> length (part_way t x y) = length x.
Proof. induction x as [|a x IH]; intros [|b y] H; try discriminate; cbn; [reflexivity|]. injection H as H. rewrite IH by exact H. reflexivity. Qed.
Lemma part_way_nth : forall t x y i, length y = length x -> (i < length x)%nat -> nth i (part_way t x y) 0 = (1 - t) * nth i x 0 + t * nth i y 0.
Proof.
  induction x as [|a x IH]; intros [|b y] i H Hi; try discriminate; cbn in Hi; [lia|]. injection H as H. destruct i as [|i]; cbn; [reflexivity|]. apply IH; [exact H|lia].
Qed.
Lemma other_cov : forall la n k o o', exact_linalg la -> wf n k o -> wf n k o' -> caches_ok la o -> caches_ok la o' -> other_views o o' -> snd (bl_cov la o') = snd (bl_cov la o).
Proof.
  intros la n k o o' Hla W W' C C' (E1 & E2 & E3 & E4 & E5 & E6 & E7). unfold bl_cov. rewrite (fill_ok la o C), (fill_ok la o' C'). cbn [snd fst].
  assert (ET : tau_sigma_P o' = tau_sigma_P o) by (unfold tau_sigma_P; rewrite E1, E2, E3, E6, E7; reflexivity). rewrite ET.
  assert (EA : system_matrix o' (tau_sigma_P o) = system_matrix o (tau_sigma_P o)) by (unfold system_matrix; rewrite E1, E3, E5, E7; reflexivity). rewrite EA.
  rewrite E1, E2, E6, E7. reflexivity.
Qed.

(** ** part of the way *)
Theorem affine_views : forall la a Q1 Q2 P om c o1 t, exact_linalg la -> bl_init (with_views a Q1 P om c) = Ok o1 -> length Q2 = length Q1 ->
  psd (bl_n o1) (bl_sigma o1) -> symmetric (bl_n o1) (bl_sigma o1) -> psd (length Q1) (bl_omega o1) -> symmetric (length Q1) (bl_omega o1) ->
  exists o2 o3, bl_init (with_views a Q2 P om c) = Ok o2 /\ bl_init (with_views a (part_way t Q1 Q2) P om c) = Ok o3 /\
    snd (bl_returns la o3) = part_way t (snd (bl_returns la o1)) (snd (bl_returns la o2)) /\
    snd (bl_cov la o2) = snd (bl_cov la o1) /\ snd (bl_cov la o3) = snd (bl_cov la o1).
Proof.
  intros la a Q1 Q2 P om c o1 t Hla H HL Hp Hs Hop Hos.
  destruct (other_init a Q1 Q2 P om c o1 H HL) as (o2 & H2 & O2 & EQ2 & EQ1 & EP).
  destruct (other_init a Q1 (part_way t Q1 Q2) P om c o1 H (part_way_length t Q1 Q2 HL)) as (o3 & H3 & O3 & EQ3 & _ & _).
  exists o2, o3. split; [exact H2|]. split; [exact H3|].
  pose proof (init_wf _ _ H) as W1. pose proof (init_wf _ _ H2) as W2. pose proof (init_wf _ _ H3) as W3.
  rewrite (proj1 O2), EQ2, HL in W2. rewrite (proj1 O3), EQ3, part_way_length in W3 by exact HL. rewrite EQ1 in W1.
  assert (R1 : regular (bl_n o1) (length Q1) o1) by (constructor; assumption).
  pose proof (other_regular _ _ _ _ O2 R1 W2) as R2. pose proof (other_regular _ _ _ _ O3 R1 W3) as R3.
  pose proof (other_ready la _ _ _ _ _ _ H) as C1. pose proof (other_ready la _ _ _ _ _ _ H2) as C2. pose proof (other_ready la _ _ _ _ _ _ H3) as C3.
  split; [|split; [apply (other_cov la _ _ _ _ Hla W1 W2 C1 C2 O2)|apply (other_cov la _ _ _ _ Hla W1 W3 C1 C3 O3)]].
  destruct (returns_char la _ _ o1 Hla R1 C1) as (_ & _ & _ & L1 & _). destruct (returns_char la _ _ o2 Hla R2 C2) as (_ & _ & _ & L2 & _).
  destruct (returns_char la _ _ o3 Hla R3 C3) as (_ & _ & _ & L3 & _).
  apply (vec_ext (bl_n o1)); [exact L3|rewrite part_way_length; congruence|]. intros i Hi.
  rewrite (affine_core la (bl_n o1) (length Q1) Hla o1 o2 o3 t R1 R2 R3 C1 C2 C3 O2 O3); [|intros x Hx|exact Hi].
  - unfold vec. rewrite part_way_nth; [reflexivity|congruence|rewrite L1; exact Hi].
  - unfold vec. rewrite EQ1, EQ2, EQ3. apply part_way_nth; [exact HL|exact Hx].
Qed.

(** ** one view raised *)
Theorem raise_matrix : forall la a Q Q' P om c o j d, exact_linalg la -> bl_init (with_views a Q P om c) = Ok o -> raised_view j d Q Q' -> 0 <= d ->
  psd (bl_n o) (bl_sigma o) -> symmetric (bl_n o) (bl_sigma o) -> psd (length Q) (bl_omega o) -> symmetric (length Q) (bl_omega o) -> uncorrelated (length Q) (bl_omega o) ->
  exists o', bl_init (with_views a Q' P om c) = Ok o' /\ let p := nth j P [] in
    0 <= inner p (snd (bl_returns la o')) - inner p (snd (bl_returns la o)) <= d.
Proof.
  intros la a Q Q' P om c o j d Hla H HR Hd Hp Hs Hop Hos HU. pose proof HR as (_ & HL & _).
  destruct (other_init a Q Q' P om c o H HL) as (o' & H' & O' & EQ' & EQ & EP). exists o'. split; [exact H'|].
  pose proof (init_wf _ _ H) as W. pose proof (init_wf _ _ H') as W'. rewrite (proj1 O'), EQ', HL in W'. rewrite EQ in W.
  assert (R : regular (bl_n o) (length Q) o) by (constructor; assumption).
  rewrite <- EP. apply (raise_objects la (bl_n o) (length Q) Hla o o' j d R (other_regular _ _ _ _ O' R W')); try assumption.
  - apply (other_ready la _ _ _ _ _ _ H).
  - apply (other_ready la _ _ _ _ _ _ H').
  - rewrite EQ, EQ'. exact HR.
Qed.
Lemma chosen_uncorrelated : forall a Q P om c o, bl_init (with_views a Q P om c) = Ok o -> om = OmDefault \/ om = OmIdzorek -> uncorrelated (length Q) (bl_omega o).
Proof.
  intros a Q P om c o H Hom i j Hi Hj Hne. destruct (other_init a Q Q P om c o H eq_refl) as (_ & _ & _ & _ & EQ & _).
  destruct (PBL10.init_omega _ _ H) as [_ G]. rewrite EQ in G. destruct (G Hom i j Hi Hj) as [G1 _]. exact (G1 Hne).
Qed.
Theorem raise_chosen : forall la a Q Q' P om c o j d, exact_linalg la -> bl_init (with_views a Q P om c) = Ok o -> raised_view j d Q Q' -> 0 <= d ->
  om = OmDefault \/ om = OmIdzorek -> psd (bl_n o) (bl_sigma o) -> symmetric (bl_n o) (bl_sigma o) ->
  exists o', bl_init (with_views a Q' P om c) = Ok o' /\ let p := nth j P [] in
    0 <= inner p (snd (bl_returns la o')) - inner p (snd (bl_returns la o)) <= d.
Proof.
  intros la a Q Q' P om c o j d Hla H HR Hd Hom Hp Hs. destruct (other_init a Q Q P om c o H eq_refl) as (_ & _ & _ & _ & EQ & _).
  pose proof (init_regular _ _ H Hom Hp Hs) as R. rewrite EQ in R. apply (raise_matrix la a Q Q' P om c o j d Hla H HR Hd Hp Hs (rg_omega _ _ _ R) (rg_omega_sym _ _ _ R)).
  exact (chosen_uncorrelated a Q P om c o H Hom).
Qed.

(** ** one entry of a dictionary raised *)
Lemma parse_rows : forall n ts d d' Q P, parse_views n ts d = Ok (Q, P) -> map fst d' = map fst d -> parse_views n ts d' = Ok (map snd d', P).
Proof.
  intros n ts. unfold parse_views. induction d as [|[l v] d IH]; intros [|[l' v'] d'] Q P H E; try discriminate.
  - cbn in H. injection H as <- <-. reflexivity.
  - cbn [map fst] in E. injection E as -> E. cbn [mapM fst snd] in H |- *. destruct (index_of l ts) as [i|]; cbn [rbind] in *; [|discriminate].
    destruct (mapM _ d) as [rs|e] eqn:Ed; cbn [rbind] in H; [|discriminate]. injection H as <- <-.
    specialize (IH d' (map fst rs) (map snd rs) eq_refl E). destruct (mapM _ d') as [rs'|e] eqn:Ed'; cbn [rbind] in IH; [|discriminate]. injection IH as I1 I2.
    cbn [rbind map fst snd]. rewrite I1, I2. reflexivity.
Qed.
Lemma nth_mid : forall (X : Type) (l1 l2 : list X) x d, nth (length l1) (l1 ++ x :: l2) d = x.
Proof. intros. rewrite app_nth2 by lia. rewrite Nat.sub_diag. reflexivity. Qed.
Lemma nth_beside : forall (X : Type) (l1 l2 : list X) x y d i, i <> length l1 -> nth i (l1 ++ x :: l2) d = nth i (l1 ++ y :: l2) d.
Proof. induction l1 as [|z l1 IH]; intros l2 x y d [|i] H; cbn in *; try reflexivity; [contradiction|]. apply IH. intros ->. apply H. reflexivity. Qed.
Theorem raise_dict : forall la a v1 l q v2 q' om c o, exact_linalg la -> bl_init (with_dict a (v1 ++ (l, q) :: v2) om c) = Ok o -> q <= q' ->
  om = OmDefault \/ om = OmIdzorek -> psd (bl_n o) (bl_sigma o) -> symmetric (bl_n o) (bl_sigma o) -> length (cov_tickers (a_cov a)) = bl_n o ->
  exists o' r r', bl_init (with_dict a (v1 ++ (l, q') :: v2) om c) = Ok o' /\
    dget l (combine (cov_tickers (a_cov a)) (snd (bl_returns la o))) = Some r /\ dget l (combine (cov_tickers (a_cov a)) (snd (bl_returns la o'))) = Some r' /\
    0 <= r' - r <= q' - q.
Proof.
  intros la a v1 l q v2 q' om c o Hla H Hq Hom Hp Hs HT.
  pose proof (PViews2.init_views _ _ H) as HV. unfold views_of in HV. cbn [with_dict a_cov a_views] in HV.
  destruct (bl_init_inv _ _ H) as (_ & En & _). cbn [with_dict a_cov] in En. rewrite <- En in HV.
  destruct (parse_views_ok _ _ _ _ _ HV HT) as (EQ & LP & HG).
  assert (HV' : parse_views (bl_n o) (cov_tickers (a_cov a)) (v1 ++ (l, q') :: v2) = Ok (map snd (v1 ++ (l, q') :: v2), bl_P o)).
  { apply (parse_rows _ _ (v1 ++ (l, q) :: v2) _ (bl_Q o)); [exact HV|]. rewrite !map_app. reflexivity. }
  rewrite EQ in HV. rewrite En in HV, HV'. rewrite (dict_arrays a _ _ _ om c HV) in H. rewrite (dict_arrays a _ _ _ om c HV').
  assert (HR : raised_view (length v1) (q' - q) (map snd (v1 ++ (l, q) :: v2)) (map snd (v1 ++ (l, q') :: v2))).
  { unfold raised_view. rewrite !map_app. cbn [map snd]. rewrite <- (map_length snd v1). split; [rewrite app_length; cbn; lia|]. split; [rewrite !app_length; reflexivity|].
    split; [rewrite !nth_mid; lra|]. intros i Hi. apply nth_beside. exact Hi. }
  destruct (raise_chosen la a _ _ _ om c o (length v1) (q' - q) Hla H HR) as (o' & H' & G); [lra|exact Hom|exact Hp|exact Hs|]. cbv zeta in G.
  assert (L : forall ob, bl_init (with_views a (map snd (v1 ++ (l, q') :: v2)) (bl_P o) om c) = Ok ob -> length (snd (bl_returns la ob)) = bl_n o).
  { intros ob Hb. pose proof (init_wf _ _ Hb) as W. unfold bl_returns. rewrite (fill_ok la) by exact (init_caches la _ _ Hb). cbn [snd]. rewrite map_length, seq_length.
    destruct (bl_init_inv _ _ Hb) as (_ & Eb & _). rewrite Eb. cbn [with_views a_cov]. symmetry. exact En. }
  assert (L0 : length (snd (bl_returns la o)) = bl_n o).
  { unfold bl_returns. rewrite (fill_ok la) by exact (init_caches la _ _ H). cbn [snd]. rewrite map_length, seq_length. reflexivity. }
  assert (GR : forall x, length x = bl_n o -> dget l (combine (cov_tickers (a_cov a)) x) = Some (inner (nth (length v1) (bl_P o) []) x)).
  { intros x Hx. specialize (HG x Hx). apply (f_equal (fun z => nth (length v1) z None)) in HG.
    assert (E1 : nth (length v1) (map (fun p => dget (fst p) (combine (cov_tickers (a_cov a)) x)) (v1 ++ (l, q) :: v2)) None = dget l (combine (cov_tickers (a_cov a)) x)).
    { rewrite map_app. cbn [map fst]. rewrite <- (map_length (fun p => dget (fst p) (combine (cov_tickers (a_cov a)) x)) v1) at 1. apply nth_mid. }
    rewrite E1 in HG. rewrite <- HG. unfold mat_vec. rewrite map_map.
    assert (Hlt : (length v1 < length (bl_P o))%nat) by (rewrite LP, app_length; cbn; lia).
    rewrite (nth_indep _ None (Some (inner [] x))) by (rewrite map_length; exact Hlt). apply (map_nth (fun r => Some (inner r x)) (bl_P o) [] (length v1)). }
  eexists o', _, _. split; [exact H'|]. split; [apply GR, L0|]. split; [apply GR, L, H'|exact G].
Qed.

(** ** a single view: every asset *)
Theorem single_asset : forall la o, exact_linalg la -> reachable la o -> length (bl_Q o) = 1%nat ->
  psd (bl_n o) (bl_sigma o) -> symmetric (bl_n o) (bl_sigma o) -> 0 <= entry (bl_omega o) 0 0 ->
  let p := nth 0 (bl_P o) [] in let v := bl_tau o * qform (bl_sigma o) p + entry (bl_omega o) 0 0 in
  0 < v -> forall i, (i < bl_n o)%nat ->
  nth i (snd (bl_returns la o)) 0 = nth i (bl_pi o) 0 + bl_tau o * inner (nth i (bl_sigma o) []) p / v * (nth 0 (bl_Q o) 0 - inner p (bl_pi o)).
Proof.
  intros la o Hla Hre Hk Hp Hs Ho p v Hv i Hi. destruct (reachable_ok la o Hre) as [W C]. rewrite Hk in W. set (n := bl_n o) in *.
  assert (R : regular n 1 o).
  { constructor; auto.
    - split; [apply square_shaped, (wf_omega _ _ o W)|]. intros w Hw. rewrite (qform_bil 1) by (auto; apply square_shaped, (wf_omega _ _ o W)).
      unfold bil. cbn [sumn]. pose proof (Rle_0_sqr (vec w 0)) as H1. unfold Rsqr in H1. assert (0 <= entry (bl_omega o) 0 0 * (vec w 0%nat * vec w 0%nat)) by (apply Rmult_le_pos; lra). lra.
    - intros x y Hx Hy. assert (x = 0%nat) by lia. assert (y = 0%nat) by lia. subst. reflexivity. }
  destruct (returns_char la n 1 o Hla R C) as (s & _ & Hsol & HL & Hm).
  assert (Lp : length p = n) by (apply (shaped_row 1 n); [apply (wf_P n 1 o W)|lia]).
  assert (HA : oA o 0%nat 0%nat = v).
  { rewrite (oA_core n 1 o R). unfold sysA, v. f_equal. rewrite (qform_bil n) by (auto; apply Hp). rewrite <- (oS_bil n). reflexivity. }
  assert (E : v * s 0%nat = ob o 0%nat).
  { assert (H1 : app 1 (oA o) s 0%nat = ob o 0%nat).
    { apply Hsol; [|lia]. exists (fun _ => ob o 0%nat / v). intros a Ha. assert (a = 0%nat) by lia. subst a. unfold app. cbn [sumn]. rewrite HA. field. lra. }
    unfold app in H1. cbn [sumn] in H1. rewrite HA in H1. lra. }
  assert (Eb : ob o 0%nat = nth 0 (bl_Q o) 0 - inner p (bl_pi o)).
  { rewrite (inner_vec n p _ Lp (wf_pi n 1 o W)). unfold ob, vec at 1. reflexivity. }
  assert (ET : oT o i 0%nat = bl_tau o * inner (nth i (bl_sigma o) []) p).
  { rewrite (oT_core n 1 o R). unfold sysT. rewrite (inner_vec n _ p (shaped_row n n _ i (wf_sigma n 1 o W) Hi) Lp). rewrite <- sumn_scal. apply sumn_ext. intros j _. unfold oS, entry, vec, p. ring. }
  specialize (Hm i Hi). unfold vec in Hm. rewrite Hm. f_equal. unfold app. cbn [sumn]. rewrite ET, <- Eb, <- E. field. lra.
Qed.

(** ** all the views together *)
Theorem closer_views : forall la o, exact_linalg la -> reachable la o -> forall precS precO,
  pos_def (bl_n o) (bl_sigma o) -> symmetric (bl_n o) (bl_sigma o) -> pos_def (length (bl_Q o)) (bl_omega o) -> symmetric (length (bl_Q o)) (bl_omega o) ->
  right_inverse (bl_n o) (scale_matrix (bl_tau o) (bl_sigma o)) precS -> right_inverse (length (bl_Q o)) (bl_omega o) precO ->
  let mu := snd (bl_returns la o) in
  qform precS (minus_vec mu (bl_pi o)) + qform precO (minus_vec (bl_Q o) (mat_vec (bl_P o) mu)) <= qform precO (minus_vec (bl_Q o) (mat_vec (bl_P o) (bl_pi o))) /\
  0 <= qform precS (minus_vec mu (bl_pi o)) /\
  (qform precS (minus_vec mu (bl_pi o)) = 0 -> mu = bl_pi o).
Proof.
  intros la o Hla Hre precS precO H1 H2 H3 H4 H5 H6 mu. destruct (reachable_ok la o Hre) as [W C]. set (n := bl_n o) in *. set (k := length (bl_Q o)) in *.
  destruct (use_bayes la o Hla Hre precS precO H1 H2 H3 H4 H5 H6) as [HL HM]. fold mu in HL, HM. cbv zeta in HM.
  destruct (HM (bl_pi o) (wf_pi n k o W)) as [HM1 _]. unfold bayes_loss in HM1.
  assert (Z : qform precS (minus_vec (bl_pi o) (bl_pi o)) = 0).
  { rewrite (qform_bil n _ _ (proj1 H5) (minus_vec_length n _ _ (wf_pi n k o W) (wf_pi n k o W))). unfold bil. apply sumn_zero. intros i Hi.
    rewrite (minus_vec_vec n) by apply (wf_pi n k o W). ring. }
  assert (R : regular n k o) by (constructor; auto; apply pos_def_psd; assumption).
  assert (SP : forall f i, (i < n)%nat -> app n (oS o) (app n (entry precS) f) i = f i) by (apply (precS_app n o precS H1 H5)).
  assert (EQ : qform precS (minus_vec mu (bl_pi o)) = bil n (entry precS) (fun i => vec mu i - vec (bl_pi o) i) (fun i => vec mu i - vec (bl_pi o) i)).
  { rewrite (qform_bil n _ _ (proj1 H5) (minus_vec_length n _ _ HL (wf_pi n k o W))). apply bil_ext; intros i Hi; apply (minus_vec_vec n); auto; apply (wf_pi n k o W). }
  split; [lra|]. rewrite EQ. split; [apply (inv_psd n (oS o) (entry precS) (oS_sym n k o R) (oS_pd n k o W H1) SP)|].
  intros E0. apply (vec_ext n); [exact HL|apply (wf_pi n k o W)|]. intros i Hi.
  assert (E1 : vec mu i - vec (bl_pi o) i = 0); [|lra].
  apply (inv_pd n (oS o) (entry precS) (oS_sym n k o R) (oS_pd n k o W H1) SP (fun i => vec mu i - vec (bl_pi o) i) E0 i Hi).
Qed.
