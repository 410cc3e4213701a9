(** * Critical line algorithm: concrete cases meeting the hypotheses of the theorems *)
From Coq Require Import ZArith QArith Qreals String List Bool Reals Lra Lia Permutation Classical ClassicalEpsilon.
From Verif Require Import Num Py MBase MCLA SLin SBL SCLA RBase PyLemmas QRBase Sums Mat PBase PCLA1 PCLA2 PCLA3 PCLA4 PCLA9 PCLAQ PCLAW PCLAI PropertiesCLA.
Import ListNotations.
Local Open Scope R_scope.

(** an inverse as assumed exists, and so does a set order *)
Example ex_contracts : exists inv, sound_inverse inv /\ complete_inverse inv.
Proof.
  exists (fun M => if excluded_middle_informative (exists P, right_inverse (length M) M P)
                   then Ok (epsilon (inhabits (@nil (list R))) (fun P => right_inverse (length M) M P)) else Err LinAlgError).
  split.
  - intros k M P [Hl _] E. destruct (excluded_middle_informative _) as [H|H]; [|discriminate]. injection E as <-. rewrite <- Hl.
    apply (epsilon_spec (inhabits (@nil (list R))) (fun P => right_inverse (length M) M P)), H.
  - intros k M P [Hl _] H. destruct (excluded_middle_informative _) as [H'|H']; [eexists; reflexivity|]. exfalso. apply H'. exists P. rewrite Hl. exact H.
Qed.
Example ex_order : set_order idord.
Proof. exact idord_ok. Qed.

(** two uncorrelated assets with expected returns 2 and 1 *)
Definition duoQ : cla Q := long_only [2; 1]%Z [[1; 0]; [0; 1]]%Z.
Definition duo : cla R := mkCLA (mkBase [LInt 0; LInt 1] None) [2; 1] [[1; 0]; [0; 1]] [0; 0] [1; 1] false [] None.
Lemma duo_Q : qcla duoQ = duo.
Proof.
  unfold qcla, duoQ, long_only, duo. cbn [c_base c_mean c_cov c_lb c_ub c_int c_tp c_frontier]. rewrite zq_R, zqm_R. unfold qv. rewrite !map_repeat, RMicromega.Q2R_0, RMicromega.Q2R_1. reflexivity.
Qed.
Example ex_well_posed : well_posed duo /\ well_labelled duo.
Proof. rewrite <- duo_Q. apply long_only_posed; [cbn; lia|vm_compute; reflexivity..]. Qed.
Lemma duo_stat : forall lam gam w f, (2 <= length f)%nat -> free_set 2 f -> length w = 2%nat -> total w = 1 -> stationary [2; 1] [[1; 0]; [0; 1]] f lam gam w ->
  nth 0 w 0 = (1 + lam) / 2 /\ nth 1 w 0 = (1 - lam) / 2.
Proof.
  intros lam gam w f L [_ [Hn Hf]] Lw Ht Hs. destruct w as [|a [|b [|]]]; try discriminate. cbn in Ht.
  assert (H0 : In 0%nat f /\ In 1%nat f).
  { destruct f as [|i [|j [|k f]]]; cbn in L; try lia.
    - assert (i < 2 /\ j < 2)%nat by (split; apply Hf; cbn; auto). inversion Hn as [|? ? Hi _]; subst. cbn in Hi. assert (i = 0 /\ j = 1 \/ i = 1 /\ j = 0)%nat by lia. cbn. intuition.
    - exfalso. assert (Hlen : (length (i :: j :: k :: f) <= length (seq 0 2))%nat) by (apply NoDup_incl_length; [exact Hn|]; intros x Hx; apply in_seq; specialize (Hf x Hx); lia). cbn in Hlen. lia. }
  destruct H0 as [H0 H1]. pose proof (Hs _ H0) as K0. pose proof (Hs _ H1) as K1. cbn in K0, K1 |- *. lra.
Qed.
Example ex_general_position : general_position duo.
Proof.
  unfold general_position, duo. cbn [c_mean c_cov c_lb c_ub]. split; [|split; [|split]].
  - intros f lam gam w i j [Hne [Hnd Hf]] _ _ _ _ Hi Hj Hni Hnj _ _. cbn in Hi, Hj. destruct f as [|a f]; [congruence|]. assert (a < 2)%nat by (apply (Hf a); left; reflexivity).
    assert (a <> i) by (intros ->; apply Hni; left; reflexivity). assert (a <> j) by (intros ->; apply Hnj; left; reflexivity). lia.
  - intros f gam w i Hf [Hw Hmin] Hb _ Hi Hni. exfalso. assert (F : feasible [0; 0] [1; 1] [1 / 2; 1 / 2]) by feas. specialize (Hmin _ F).
    destruct Hw as [Ht [Hl Hu]]. pose proof (Forall2_length _ _ _ Hl) as L. destruct w as [|a [|b [|]]]; try discriminate L. cbn in Ht. unfold qform in Hmin. cbn in Hmin.
    assert (E : (a - b) * (a - b) <= 0) by nra. assert (a = b). { assert (a - b = 0); [|lra]. apply Rsqr_0_uniq. unfold Rsqr. pose proof (Rle_0_sqr (a - b)) as K. unfold Rsqr in K. lra. }
    subst b. assert (a = 1 / 2) by lra. subst a. destruct (Hb i Hi Hni) as [K|K]; cbn in Hi; destruct i as [|[|i]]; try lia; cbn in K; lra.
  - intros f i lam gam w lam' gam' w' Hf L Hi Lw [La _] Ht Ht' Hs Hs' E. cbn in Lw. rewrite Lw in La.
    destruct (duo_stat lam gam w f L Hf Lw Ht Hs) as [A B]. destruct (duo_stat lam' gam' w' f L Hf La Ht' Hs') as [A' B'].
    destruct Hf as [_ [_ Hf]]. specialize (Hf i Hi). cbn in Hf. destruct i as [|[|i]]; [lra|lra|lia].
  - repeat constructor; lra.
Qed.
(** its turning points: (1,0), (1,0) at lambda 1, (1/2,1/2) at lambda 0 *)
Definition duo_points : list (tp R) := [mkTP [1; 0] None None [0%nat]; mkTP [1; 0] (Some 1) (Some (-1)) [0%nat; 1%nat]; mkTP [1 / 2; 1 / 2] (Some 0) (Some (1 / 2)) [0%nat; 1%nat]].
Definition duo_pointsQ : list (tp Q) := [mkTP [1; 0]%Q None None [0%nat]; mkTP [1; 0]%Q (Some 1%Q) (Some (-1)%Q) [0%nat; 1%nat]; mkTP [1 # 2; 1 # 2]%Q (Some 0%Q) (Some (1 # 2)%Q) [0%nat; 1%nat]].
Lemma duo_runQ : forall k, @solve Q QNum (10 + k) qinv idord duoQ = (set_tp duo_pointsQ duoQ, Ok tt).
Proof. intros k. vm_compute. reflexivity. Qed.
Lemma duo_points_R : map qtp duo_pointsQ = duo_points.
Proof.
  assert (Eh : Q2R (1 # 2) = 1 / 2) by (unfold Q2R; cbn; lra). assert (Em : Q2R (-1) = -1) by (unfold Q2R; cbn; lra).
  unfold duo_pointsQ, duo_points. cbn [map]. unfold qtp, qv. cbn [t_w t_l t_g t_f map option_map]. rewrite Eh, Em, RMicromega.Q2R_0, RMicromega.Q2R_1. reflexivity.
Qed.
Example ex_run : forall k inv, sound_inverse inv -> complete_inverse inv -> solve (10 + k) inv idord duo = (set_tp duo_points duo, Ok tt).
Proof.
  intros k inv Hs Hc. rewrite <- duo_Q, <- duo_points_R. apply (run (10 + k) inv _ _ _ _ Hs Hc (duo_runQ k)). discriminate.
Qed.
Example ex_min_vol : forall k inv, sound_inverse inv -> complete_inverse inv -> snd (do_call (10 + k) inv idord CallMinVol duo) = Ok [[1 / 2; 1 / 2]].
Proof.
  intros k inv Hs Hc. rewrite <- duo_Q. rewrite (call_first _ _ _ duoQ (set_tp duo_pointsQ duoQ) [1 # 2; 1 # 2]%Q).
  - unfold qv. cbn [map]. assert (Eh : Q2R (1 # 2) = 1 / 2) by (unfold Q2R; cbn; lra). rewrite Eh. reflexivity.
  - apply (run (10 + k) inv _ _ _ _ Hs Hc (duo_runQ k)). discriminate.
  - reflexivity.
  - vm_compute. reflexivity.
  - repeat constructor; cbn; intuition congruence.
  - reflexivity.
Qed.
(** C91: the hypotheses of the segment theorem hold for the last two points; halfway lies (3/4, 1/4) *)
Example ex_segment : optimal_at [2; 1] [[1; 0]; [0; 1]] [0; 0] [1; 1] (1 / 2) [3 / 4; 1 / 4].
Proof.
  destruct ex_contracts as [inv [Hs Hc]].
  pose proof (c91_segments_optimal (10 + 0) inv idord duo _ Hs idord_ok (proj1 ex_well_posed) (proj1 ex_general_position) (ex_run 0 inv Hs Hc)
    (nth 1 duo_points (mkTP [] None None [])) (nth 2 duo_points (mkTP [] None None [])) 1 0 (1 / 2)) as H. cbn [nth duo_points t_w t_f t_l] in H.
  replace (1 / 2 * 1 + (1 - 1 / 2) * 0) with (1 / 2) in H by lra.
  replace (blend (1 / 2) [1; 0] [1 / 2; 1 / 2]) with [3 / 4; 1 / 4] in H by (unfold blend; cbn; f_equal; [lra|f_equal; lra]).
  apply H; [cbn; auto|cbn; auto|reflexivity|reflexivity|cbn; lra|cbn; lra|apply incl_refl| |lra].
  split; [reflexivity|]. intros i Hi. destruct i as [|[|i]]; [destruct Hi; cbn; auto|destruct Hi; cbn; auto|]. destruct i; reflexivity.
Qed.
(** C90: in the run of [stale] an asset leaves the free set and its weight jumps by more than the tolerance *)
Definition stale_raw : list (tp Q) * res unit :=
  @loop Q QNum qinv idord (c_mean stale) (c_cov stale) (c_lb stale) (c_ub stale) false 10 [2%nat] [0; 0; 1; 0]%Q None [mkTP [0; 0; 1; 0]%Q None None [2%nat]].
Lemma stale_raw_is : map (fun p => (t_w p, t_f p)) (fst stale_raw) =
  [([0; 0; 1; 0], [2%nat]); ([0; 0; 1; 0], [2%nat; 0%nat]); ([89 # 184; 0; 95 # 184; 0], [2%nat; 0%nat; 1%nat]); ([262 # 547; 5 # 547; 280 # 547; 0], [2%nat; 0%nat; 1%nat; 3%nat]);
   ([0; 4294885 # 128844756; 12124357 # 32211189; 14338867 # 128844756], [2%nat; 1%nat; 3%nat]); ([0; 35 # 108; 5 # 27; 53 # 108], [2%nat; 1%nat; 3%nat])]%Q /\ snd stale_raw = Ok tt.
Proof. vm_compute. split; reflexivity. Qed.
Example ex_dropped : forall inv, sound_inverse inv -> complete_inverse inv -> exists f w pts p q,
  init_algo (qcla stale) = Ok (f, w) /\ raw_points 10 inv idord (qcla stale) f w = (pts, Ok tt) /\ consecutive p q pts /\
  In 0%nat (t_f p) /\ ~ In 0%nat (t_f q) /\ nth 0 (t_w p) 0 = 262 / 547 /\ nth 0 (t_w q) 0 = 0 /\ tol9 < Rabs (nth 0 (t_w q) 0 - nth 0 (t_w p) 0).
Proof.
  intros inv Hs Hc. destruct stale_raw_is as [Hr Hok]. remember (fst stale_raw) as l eqn:El.
  destruct l as [|p0 [|p1 [|p2 [|p3 [|p4 [|p5 [|]]]]]]]; try discriminate Hr. injection Hr as E0 F0 E1 F1 E2 F2 E3 F3 E4 F4 E5 F5.
  assert (K0 : nth 0 (t_w (qtp p3)) 0 = 262 / 547) by (cbn [qtp t_w]; rewrite E3; cbn; unfold Q2R; cbn; lra).
  assert (K1 : nth 0 (t_w (qtp p4)) 0 = 0) by (cbn [qtp t_w]; rewrite E4; cbn; unfold Q2R; cbn; lra).
  exists [2%nat], (qv [0; 0; 1; 0]%Q), (map qtp [p0; p1; p2; p3; p4; p5]), (qtp p3), (qtp p4). split; [|split; [|split; [|split; [|split; [|split; [exact K0|split; [exact K1|]]]]]]].
  - rewrite init_algo_Q. replace (@init_algo Q QNum stale) with (Ok ([2%nat], [0; 0; 1; 0]%Q)) by (vm_compute; reflexivity). reflexivity.
  - unfold raw_points. pose proof (loop_Q inv qinv idord (checked_follows _ inv Hs Hc) (c_mean stale) (c_cov stale) (c_lb stale) (c_ub stale) false 10 [2%nat] [0; 0; 1; 0]%Q None [mkTP [0; 0; 1; 0]%Q None None [2%nat]] _ eq_refl) as H.
    fold stale_raw in H. rewrite Hok, <- El in H. apply H. discriminate.
  - exists [qtp p0; qtp p1; qtp p2], [qtp p5]. reflexivity.
  - cbn [qtp t_f]. rewrite F3. cbn. auto.
  - cbn [qtp t_f]. rewrite F4. cbn. lia.
  - rewrite K0, K1. unfold tol9. rewrite Rabs_left; lra.
Qed.

(** C48: lower bounds that sum to one, and upper bounds that sum to less than one *)
Example ex_boundary : (boxes 2 [1 / 2; 1 / 2] [1; 1] /\ 1 <= total [1 / 2; 1 / 2] /\ feasible [1 / 2; 1 / 2] [1; 1] [1 / 2; 1 / 2]) /\
  boxes 2 [0; 0] [1 / 4; 1 / 2] /\ total [1 / 4; 1 / 2] < 1.
Proof.
  split; [split; [|split; [cbn; lra|feas]]|split; [|cbn; lra]]; (split; [reflexivity|split; [reflexivity|]]; repeat (apply Forall2_cons; [lra|]); apply Forall2_nil).
Qed.
(** C50: the critical line of the two assets, at lambda 1/2 *)
Example ex_stationary : let P := [[1; 0]; [0; 1]] in
  matrices (fun M => Ok M) idord [2; 1] P [0%nat; 1%nat] [1; 0] = Ok (P, None, [2; 1], None) /\ right_inverse 2 P P /\
  compute_w P None [2; 1] None (1 / 2) = Ok ([3 / 4; 1 / 4], - (1 / 4)) /\ compute_lambda P None [2; 1] None 0 (BothBounds 0 1) = Some (-1, 0).
Proof.
  assert (D : forall a b c d : R, dot [a; b] [c; d] = a * c + b * d) by (intros; rewrite dot_inner; cbn; ring).
  assert (V : forall a b : R, vsum [a; b] = a + b) by (intros; rewrite vsum_total; cbn; ring).
  cbv zeta. split; [reflexivity|]. split; [split; [split; [reflexivity|repeat constructor]|]; intros [|a [|b [|]]] Hw; try discriminate Hw; cbn; f_equal; [ring|f_equal; ring]|]. split.
  - unfold compute_w. cbn. rewrite !D, !V. rcase; [exfalso; lra|]. do 2 f_equal; [f_equal; [field|f_equal; field]|field].
  - unfold compute_lambda, compute_bi. cbn. rewrite !D, !V. rcase; [exfalso; lra|]. rcase; [exfalso; lra|]. do 2 f_equal. field.
Qed.
(** C51: the middle point has the smaller return and goes *)
Example ex_purge : let a := mkTP [1; 0] None None [0%nat] in let b := mkTP [0; 1] None None [0%nat] in
  pruned [2; 1] [a; b; a] [a; a].
Proof.
  cbv zeta. constructor; [intros q [<-|[<-|[]]]; cbn; lra|]. apply pr_drop; [eexists; split; [left; reflexivity|cbn; lra]|].
  constructor; [intros q []|constructor].
Qed.
(** C53 *)
Example ex_equal : exists o, long_only_cla [1; 1]%Z [[1; 0]; [0; 4]]%Z = Ok o /\ Forall (eq 1) (c_mean o) /\ well_posed o /\ well_labelled o.
Proof.
  exists (qcla equal2). split; [apply long_only_is|]. split; [cbn [qcla equal2 long_only c_mean]; rewrite zq_R; repeat constructor|].
  apply long_only_posed; [cbn; lia|vm_compute; reflexivity..].
Qed.
(** C55: a function on [0, 1] *)
Example ex_golden : forall x, 0 <= x <= 1 -> exists v, (fun x => Ok (x * (1 - x))) x = Ok v.
Proof. intros x _. eexists. reflexivity. Qed.
(** C89: integer lower bounds 0, upper bounds 1/2; a third each would be feasible *)
Example ex_integer : exists o : cla R, cla_init (Some (None, [3; 2; 1])) [[1; 0; 0]; [0; 1; 0]; [0; 0; 1]] (CSeq [[PInt 0; PFloat (1 / 2)]; [PInt 0; PFloat (1 / 2)]; [PInt 0; PFloat (1 / 2)]]) = Ok o /\
  c_int o = true /\ c_lb o = [0; 0; 0] /\ c_ub o = [1 / 2; 1 / 2; 1 / 2] /\ feasible (c_lb o) (c_ub o) [1 / 3; 1 / 3; 1 / 3] /\ c_tp o = [].
Proof.
  eexists. split; [reflexivity|]. cbn [c_int c_lb c_ub c_tp]. split; [reflexivity|]. split; [reflexivity|]. split; [reflexivity|]. split; [|reflexivity].
  cbn [map pval]. change (@nofZ R RNum 0%Z) with 0. feas.
Qed.
