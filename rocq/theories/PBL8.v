(** * Weights (C61, C62), views (C64), market prior (C65) *)
From Coq Require Import List Reals Lra Lia Arith Bool Permutation Classical.
From Verif Require Import Num Py RBase PyLemmas MBase SLin SBL Sums Mat MRisk MBL PCov1 PCov2 PHRP2 PBL1 PBL2 PBL3 PBL4 PBL5.
Import ListNotations.
Local Open Scope R_scope.

Lemma vsum_tot : forall l : list R, vsum l = total l.
Proof. induction l as [|x l IH]; [reflexivity|]. rewrite vsum_cons, IH. reflexivity. Qed.

(** ** scaled systems *)
Lemma invertible_scale : forall n M c, square n M -> c <> 0 -> (invertible n (scale_matrix c M) <-> invertible n M).
Proof.
  assert (G : forall n M c, square n M -> c <> 0 -> invertible n M -> invertible n (scale_matrix c M)).
  { intros n M c HM Hc [B HB]. exists (scale_matrix (/ c) B). pose proof HB as [QB _]. split; [apply scale_matrix_square; exact QB|]. intros x Hx.
    apply (vec_ext n); [rewrite mat_vec_length; apply (scale_matrix_square c n M HM)|exact Hx|]. intros i Hi.
    pose proof (scale_matrix_square c n M HM) as Q1. pose proof (scale_matrix_square (/ c) n B QB) as Q2.
    assert (HL : length (mat_vec (scale_matrix (/ c) B) x) = n) by (rewrite mat_vec_length; apply Q2).
    rewrite (mat_vec_shaped n n) by assumption. rewrite <- (right_inverse_app n M B HM HB (vec x) i Hi). unfold app at 1 2. apply sumn_ext. intros j Hj.
    rewrite (scale_matrix_entry c n) by assumption. rewrite (mat_vec_shaped n n) by assumption.
    unfold app. rewrite (sumn_ext n _ (fun b => / c * (entry B j b * vec x b))) by (intros b Hb; rewrite (scale_matrix_entry (/ c) n) by assumption; ring).
    rewrite sumn_scal. field. exact Hc. }
  intros n M c HM Hc. split; [|apply G; assumption]. intros H. apply (G n _ (/ c)) in H; [|apply scale_matrix_square; exact HM|apply Rinv_neq_0_compat; exact Hc].
  replace (scale_matrix (/ c) (scale_matrix c M)) with M in H; [exact H|]. unfold scale_matrix. rewrite map_map. rewrite <- (map_id M) at 1. apply map_ext. intros r.
  rewrite map_map. rewrite <- (map_id r) at 1. apply map_ext. intros x. field. exact Hc.
Qed.

Section Weights.
  Variables (la : linalg) (n k : nat) (o : bl).
  Hypothesis Hla : exact_linalg la.
  Hypothesis W : wf n k o.
  Hypothesis Hc : caches_ok la o.
  Let post := snd (bl_returns la o).
  Lemma post_length : length post = n.
  Proof. unfold post, bl_returns. rewrite (fill_ok la) by exact Hc. cbn [snd]. rewrite map_length, seq_length. apply (wf_n n k o W). Qed.
  (** the result in one expression *)
  Definition raw (d : R) : res (list R) :=
    match la_solve la (scale_matrix d (bl_sigma o)) post with
    | Some x => Ok x
    | None => if Nat.eqb k n then Ok (la_lstsq la (system_matrix o (tau_sigma_P o)) post) else Err LinAlgError
    end.
  Lemma weights_eq : forall ra, let d := match ra with None => bl_ra o | Some d => d end in
    match raw d with
    | Err e => snd (bl_weights la o ra) = Err e
    | Ok x => if Reqb (total x) 0 then snd (bl_weights la o ra) = Err FloatSpecial
              else snd (bl_weights la o ra) = Ok (dict_of_pairs (combine (b_tickers (bl_base o)) (map (fun y => y / total x) x))) /\
                   b_weights (bl_base (fst (bl_weights la o ra))) = Some (map (fun y => y / total x) x)
    end.
  Proof.
    intros ra d. unfold raw. pose proof post_length as HL. destruct (returns_good la o Hc) as (_ & EA & EB & _).
    unfold post in *. unfold bl_weights. cbv zeta. fold d. destruct (bl_returns la o) as [o1 p]. cbn [fst snd] in *.
    change (map (map (fun x => d * x)) (bl_sigma o)) with (scale_matrix d (bl_sigma o)). rewrite EA.
    assert (ES : length (system_matrix o (tau_sigma_P o)) = k) by (unfold system_matrix; cbv zeta; rewrite array_length; apply (wf_Q n k o W)).
    rewrite ES, HL.
    assert (G : forall x : list R, if Reqb (total x) 0 then snd (if Reqb (vsum x) 0 then (with_rets o1 (combine (b_tickers (bl_base o)) p), Err FloatSpecial)
        else (with_weights (with_rets o1 (combine (b_tickers (bl_base o)) p)) (map (fun y => y / vsum x) x),
              make_output_weights (bl_base (with_weights (with_rets o1 (combine (b_tickers (bl_base o)) p)) (map (fun y => y / vsum x) x))))) = Err FloatSpecial
       else snd (if Reqb (vsum x) 0 then (with_rets o1 (combine (b_tickers (bl_base o)) p), Err FloatSpecial)
        else (with_weights (with_rets o1 (combine (b_tickers (bl_base o)) p)) (map (fun y => y / vsum x) x),
              make_output_weights (bl_base (with_weights (with_rets o1 (combine (b_tickers (bl_base o)) p)) (map (fun y => y / vsum x) x))))) = Ok (dict_of_pairs (combine (b_tickers (bl_base o)) (map (fun y => y / total x) x))) /\
        b_weights (bl_base (fst (if Reqb (vsum x) 0 then (with_rets o1 (combine (b_tickers (bl_base o)) p), Err FloatSpecial)
        else (with_weights (with_rets o1 (combine (b_tickers (bl_base o)) p)) (map (fun y => y / vsum x) x),
              make_output_weights (bl_base (with_weights (with_rets o1 (combine (b_tickers (bl_base o)) p)) (map (fun y => y / vsum x) x))))))) = Some (map (fun y => y / total x) x)).
    { intros x. rewrite vsum_tot. destruct (Reqb (total x) 0); [reflexivity|]. cbn [snd fst]. unfold make_output_weights, make_output_of, with_weights, with_rets. cbn [bl_base b_weights b_tickers]. rewrite EB. split; reflexivity. }
    destruct (la_solve la (scale_matrix d (bl_sigma o)) p) as [x|]; [apply G|]. destruct (Nat.eqb k n); [apply G|reflexivity].
  Qed.
  Lemma total_quotient : forall x : list R, total x <> 0 -> total (map (fun y => y / total x) x) = 1.
  Proof.
    intros x Hx. assert (G : forall l c, total (map (fun y => y / c) l) = total l / c).
    { induction l as [|a l IH]; intros c; cbn; [unfold Rdiv; ring|]. rewrite IH. unfold Rdiv. ring. }
    rewrite G. field. exact Hx.
  Qed.
  Lemma sigma_scale_square : forall d, square n (scale_matrix d (bl_sigma o)).
  Proof. intros d. apply scale_matrix_square. apply (wf_sigma n k o W). Qed.
  Lemma raw_length : forall d x, raw d = Ok x -> length x = n.
  Proof.
    intros d x. unfold raw. pose proof post_length as HL. destruct Hla as [A1 A2]. destruct (A1 n (scale_matrix d (bl_sigma o)) post (sigma_scale_square d) HL) as [Hi Hn].
    destruct (classic (invertible n (scale_matrix d (bl_sigma o)))) as [I|I].
    - destruct (Hi I) as (y & E & Hy & _). rewrite E. intros H. injection H as <-. exact Hy.
    - rewrite (Hn I). destruct (Nat.eqb_spec k n) as [->|]; [|discriminate]. intros H. injection H as <-.
      assert (SQ : square n (system_matrix o (tau_sigma_P o))) by (unfold system_matrix; cbv zeta; rewrite (wf_Q n n o W); apply array_square).
      destruct (A2 n _ post SQ HL) as [H _]. exact H.
  Qed.
  Lemma dict_pairs : forall x : list R, length x = n -> length (b_tickers (bl_base o)) = n -> NoDup (b_tickers (bl_base o)) ->
    dict_of_pairs (combine (b_tickers (bl_base o)) x) = combine (b_tickers (bl_base o)) x.
  Proof.
    intros x Hx Ht Hn. apply dict_of_pairs_NoDup. rewrite combine_map_fst by congruence. exact Hn.
  Qed.
  (** *** weights sum to one *)
  Theorem weights_sum : forall ra d, snd (bl_weights la o ra) = Ok d ->
    exists w, b_weights (bl_base (fst (bl_weights la o ra))) = Some w /\ length w = n /\ total w = 1 /\
      (length (b_tickers (bl_base o)) = n -> NoDup (b_tickers (bl_base o)) -> d = combine (b_tickers (bl_base o)) w).
  Proof.
    intros ra d H. pose proof (weights_eq ra) as E. cbv zeta in E. destruct (raw _) as [x|e] eqn:ER; [|congruence].
    destruct (Reqb (total x) 0) eqn:E0; [congruence|]. apply Reqb_false in E0. destruct E as [E1 E2]. exists (map (fun y => y / total x) x). split; [exact E2|].
    assert (HL : length (map (fun y => y / total x) x) = n) by (rewrite map_length; apply (raw_length _ _ ER)). split; [exact HL|]. split; [apply total_quotient; exact E0|].
    intros Ht Hn. rewrite E1 in H. injection H as <-. apply dict_pairs; assumption.
  Qed.
  (** *** risk aversion does not matter *)
  Hypothesis Hs : symmetric n (bl_sigma o).
  Lemma raw_scale : forall d1 d2, d1 <> 0 -> d2 <> 0 ->
    (exists x1 x2, raw d1 = Ok x1 /\ raw d2 = Ok x2 /\ x1 = map (Rmult (d2 / d1)) x2) \/ raw d1 = raw d2.
  Proof.
    intros d1 d2 H1 H2. pose proof post_length as HL. pose proof Hla as [A1 _].
    destruct (A1 n (scale_matrix d1 (bl_sigma o)) post (sigma_scale_square d1) HL) as [Hi1 Hn1].
    destruct (A1 n (scale_matrix d2 (bl_sigma o)) post (sigma_scale_square d2) HL) as [Hi2 Hn2].
    pose proof (wf_sigma n k o W) as QS.
    destruct (classic (invertible n (bl_sigma o))) as [I|I].
    - left. destruct Hi1 as (x1 & E1 & L1 & V1); [apply invertible_scale; assumption|]. destruct Hi2 as (x2 & E2 & L2 & V2); [apply invertible_scale; assumption|].
      exists x1, x2. unfold raw. rewrite E1, E2. split; [reflexivity|]. split; [reflexivity|].
      assert (F : forall d x, length x = n -> mat_vec (scale_matrix d (bl_sigma o)) x = post -> forall i, (i < n)%nat -> d * app n (entry (bl_sigma o)) (vec x) i = vec post i).
      { intros d x Hx E i Hi. rewrite <- E. rewrite (mat_vec_shaped n n) by (try assumption; apply sigma_scale_square). unfold app. rewrite <- sumn_scal. apply sumn_ext. intros j Hj.
        rewrite (scale_matrix_entry d n) by assumption. ring. }
      destruct I as [B HB].
      assert (Z : forall i, (i < n)%nat -> d1 * vec x1 i - d2 * vec x2 i = 0).
      { apply (right_inverse_null n (bl_sigma o) B (fun i => d1 * vec x1 i - d2 * vec x2 i)); try assumption. intros i Hi. rewrite app_minus, !app_scal.
        rewrite (F d1 x1 L1 V1 i Hi), (F d2 x2 L2 V2 i Hi). ring. }
      apply (vec_ext n); [exact L1|rewrite map_length; exact L2|]. intros i Hi. specialize (Z i Hi). unfold vec at 2. rewrite (nth_indep _ 0 (d2 / d1 * 0)) by (rewrite map_length, L2; exact Hi).
      rewrite map_nth. fold (vec x2 i). replace (vec x1 i) with (d1 * vec x1 i / d1) by (field; exact H1). replace (d1 * vec x1 i) with (d2 * vec x2 i) by lra. field. exact H1.
    - right. unfold raw. rewrite Hn1, Hn2; [reflexivity| |]; rewrite invertible_scale by assumption; exact I.
  Qed.
  Theorem weights_risk_aversion : forall d1 d2, d1 <> 0 -> d2 <> 0 ->
    snd (bl_weights la o (Some d1)) = snd (bl_weights la o (Some d2)) /\ snd (bl_weights la o None) = snd (bl_weights la o (Some d1)).
  Proof.
    assert (G : forall r1 r2, (match r1 with None => bl_ra o | Some d => d end) <> 0 -> (match r2 with None => bl_ra o | Some d => d end) <> 0 -> snd (bl_weights la o r1) = snd (bl_weights la o r2)).
    { intros r1 r2 H1 H2. pose proof (weights_eq r1) as E1. pose proof (weights_eq r2) as E2. cbv zeta in E1, E2.
      set (d1 := match r1 with None => bl_ra o | Some d => d end) in *. set (d2 := match r2 with None => bl_ra o | Some d => d end) in *.
      destruct (raw_scale d1 d2 H1 H2) as [(x1 & x2 & F1 & F2 & F)|F].
      - rewrite F1 in E1. rewrite F2 in E2. assert (Hq : d2 / d1 <> 0) by (unfold Rdiv; apply Rmult_integral_contrapositive_currified; [exact H2|apply Rinv_neq_0_compat; exact H1]).
        assert (ET : total x1 = d2 / d1 * total x2) by (rewrite F; apply (total_scale (d2 / d1) x2)).
        destruct (Reqb (total x2) 0) eqn:E0.
        + apply Reqb_true in E0. rewrite E0, Rmult_0_r in ET. rewrite (proj2 (Reqb_true _ _) ET) in E1. congruence.
        + apply Reqb_false in E0. rewrite (proj2 (Reqb_false (total x1) 0)) in E1 by (rewrite ET; apply Rmult_integral_contrapositive_currified; assumption).
          destruct E1 as [-> _]. destruct E2 as [-> _].
          assert (EM : map (fun y => y / total x1) x1 = map (fun y => y / total x2) x2).
          { rewrite ET, F, map_map. apply map_ext. intros y. field. repeat split; assumption. }
          rewrite EM. reflexivity.
      - rewrite F in E1. destruct (raw d2) as [x|e]; [|congruence]. destruct (Reqb (total x) 0); [congruence|]. destruct E1 as [-> _]. destruct E2 as [-> _]. reflexivity. }
    intros d1 d2 H1 H2. split; apply G; auto. pose proof (wf_ra n k o W). cbn. lra.
  Qed.
  (** *** C62 *)
  Theorem weights_singular : ~ invertible n (bl_sigma o) -> k <> n -> forall ra, match ra with Some d => d <> 0 | None => True end -> snd (bl_weights la o ra) = Err LinAlgError.
  Proof.
    intros HI Hk ra Hd. pose proof (weights_eq ra) as E. cbv zeta in E. unfold raw in E. pose proof post_length as HL. pose proof Hla as [A1 _].
    set (d := match ra with None => bl_ra o | Some d => d end) in *. assert (Hd0 : d <> 0) by (unfold d; destruct ra; [exact Hd|pose proof (wf_ra n k o W); lra]).
    destruct (A1 n (scale_matrix d (bl_sigma o)) post (sigma_scale_square d) HL) as [_ Hn].
    rewrite Hn in E by (rewrite invertible_scale by (auto; apply (wf_sigma n k o W)); exact HI).
    rewrite (proj2 (Nat.eqb_neq k n) Hk) in E. exact E.
  Qed.
  (** the solution for an invertible covariance matrix *)
  Lemma weights_invertible : forall x, invertible n (bl_sigma o) -> length x = n -> (exists d, d <> 0 /\ mat_vec (scale_matrix d (bl_sigma o)) x = post) -> total x = 1 ->
    forall ra, match ra with Some d => d <> 0 | None => True end -> snd (bl_weights la o ra) = Ok (dict_of_pairs (combine (b_tickers (bl_base o)) x)).
  Proof.
    intros x HI Hx (d & Hd & HV) Hx1 ra Hra. pose proof post_length as HL. pose proof (wf_sigma n k o W) as QS.
    assert (E : snd (bl_weights la o (Some d)) = Ok (dict_of_pairs (combine (b_tickers (bl_base o)) x))).
    { pose proof (weights_eq (Some d)) as E. cbv zeta in E. unfold raw in E. pose proof Hla as [A1 _].
      destruct (A1 n (scale_matrix d (bl_sigma o)) post (sigma_scale_square d) HL) as [Hi _]. destruct Hi as (y & Ey & Ly & Vy); [apply invertible_scale; assumption|].
      rewrite Ey in E. assert (Exy : x = y).
      { destruct HI as [B HB]. apply (vec_ext n); [exact Hx|exact Ly|]. intros i Hi.
        assert (Z : vec x i - vec y i = 0); [|lra].
        apply (right_inverse_null n (bl_sigma o) B (fun i => vec x i - vec y i)); try assumption. intros j Hj.
        assert (G : forall z, length z = n -> mat_vec (scale_matrix d (bl_sigma o)) z = post -> d * app n (entry (bl_sigma o)) (vec z) j = vec post j).
        { intros z Hz Ez. rewrite <- Ez. rewrite (mat_vec_shaped n n) by (try assumption; apply sigma_scale_square). unfold app. rewrite <- sumn_scal. apply sumn_ext. intros b Hb.
          rewrite (scale_matrix_entry d n) by assumption. ring. }
        pose proof (G x Hx HV) as G1. pose proof (G y Ly Vy) as G2. rewrite app_minus. apply Rmult_eq_reg_l with d; [|exact Hd]. lra. }
      subst y. rewrite (proj2 (Reqb_false (total x) 0)) in E by lra. destruct E as [E _]. rewrite E.
      assert (EM : map (fun y => y / total x) x = x) by (rewrite Hx1; rewrite <- (map_id x) at 2; apply map_ext; intros y; field).
      rewrite EM. reflexivity. }
    rewrite <- E. destruct ra as [d'|].
    - apply (weights_risk_aversion d' d); assumption.
    - apply (weights_risk_aversion d d); assumption.
  Qed.
End Weights.
