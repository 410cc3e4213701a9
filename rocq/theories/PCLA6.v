(** * Critical line algorithm: the run follows the path *)
From Coq Require Import ZArith List Bool Reals Lra Lia Permutation.
From Verif Require Import Num Py MBase MCLA SLin SCLA SBL RBase PyLemmas Sums Mat PBase PCov1 PBL1 PBL2 PCLA1 PCLA2 PCLA3 PCLA4 PCLA5.
Import ListNotations.
Local Open Scope R_scope.

Lemma sumn_ext_pair : forall n F v (g : nat -> R), NoDup F -> length F = length v -> (forall i, In i F -> (i < n)%nat) ->
  sumn n (fun i => g i * ext F v i) = sumn (length F) (fun a => g (nth a F O) * nth a v 0).
Proof.
  intros n F v g Hn Hl Hin. rewrite ext_sum by assumption. rewrite inner_sumn by (rewrite map_length; exact Hl). rewrite map_length.
  apply sumn_ext. intros a Ha. f_equal. rewrite (nth_indep _ 0 (g O)) by (rewrite map_length; exact Ha). apply map_nth.
Qed.
Lemma slice_entry : forall cov X Y a c, (a < length X)%nat -> (c < length Y)%nat -> entry (slice cov X Y) a c = entry cov (nth a X O) (nth c Y O).
Proof.
  intros cov X Y a c Ha Hc. unfold entry at 1. rewrite (slice_row cov X Y a (nth a X O)) by (apply nth_error_nth'; exact Ha).
  rewrite (nth_indep _ 0 (entry cov (nth a X O) O)) by (rewrite map_length; exact Hc). apply map_nth.
Qed.
Lemma slice_bil : forall n cov F v, free_set n F -> length v = length F ->
  bil (length F) (entry (slice cov F F)) (vec v) (vec v) = bil n (entry cov) (ext F v) (ext F v).
Proof.
  intros n cov F v [_ [Hn Hin]] Hl. unfold bil.
  rewrite (sumn_ext n _ (fun i => sumn n (fun j => entry cov i j * ext F v j) * ext F v i)) by (intros; ring).
  rewrite (sumn_ext_pair n F v (fun i => sumn n (fun j => entry cov i j * ext F v j))) by auto.
  apply sumn_ext. intros a Ha. rewrite (sumn_ext_pair n F v (fun j => entry cov (nth a F O) j)) by auto.
  unfold vec at 1. rewrite Rmult_comm. f_equal. apply sumn_ext. intros c Hc. rewrite slice_entry by assumption. reflexivity.
Qed.

Section Run.
  Variables (mean : list R) (cov : list (list R)) (lb ub : list R).
  Notation n := (length mean).
  Hypotheses (Hpd : pos_def n cov) (Hsym : symmetric n cov).
  Notation S := (entry cov).
  Notation mu := (vec mean).
  Let Hsq : square n cov := proj1 Hpd.
  Let Spd : posdef n S := pos_def_posdef n cov Hpd.
  Let Ssym : sym n S := Hsym.

  Lemma slice_posdef : forall F, free_set n F -> posdef (length F) (entry (slice cov F F)) /\ symmetric (length F) (slice cov F F).
  Proof.
    intros F HF. pose proof HF as [_ [Hn Hin]]. split.
    - intros x [a [Ha Hx]]. set (v := of_fun (length F) x). assert (Lv : length v = length F) by apply of_fun_length.
      assert (E : bil (length F) (entry (slice cov F F)) x x = bil (length F) (entry (slice cov F F)) (vec v) (vec v)).
      { apply bil_ext; intros i Hi; symmetry; apply vec_of_fun, Hi. }
      rewrite E, (slice_bil n) by assumption. apply Spd. exists (nth a F O). split; [apply Hin, nth_In, Ha|].
      rewrite (ext_in F v a) by (auto; apply nth_error_nth'; exact Ha). change (nth a v 0) with (vec v a). unfold v. rewrite vec_of_fun by exact Ha. exact Hx.
    - intros a c Ha Hc. rewrite !slice_entry by assumption. apply Hsym; apply Hin, nth_In; assumption.
  Qed.

  Lemma a2_pos : forall F P, free_set n F -> right_inverse (length F) (slice cov F F) P -> 0 < total (a2 F P).
  Proof.
    intros F P HF HP. set (k := length F). destruct (slice_posdef F HF) as [Hp _].
    assert (L2 : length (a2 F P) = k) by (unfold a2; rewrite mat_vec_length; apply HP).
    assert (Eq : mat_vec (slice cov F F) (a2 F P) = repeat 1 k) by (apply HP; apply repeat_length).
    assert (Hk : (0 < k)%nat) by (destruct HF as [Hne _]; unfold k; destruct F; [congruence|cbn; lia]).
    assert (Eb : bil k (entry (slice cov F F)) (vec (a2 F P)) (vec (a2 F P)) = total (a2 F P)).
    { rewrite <- (qform_bil k) by (try apply slice_square; exact L2). unfold qform. change (map (fun row => inner row (a2 F P)) (slice cov F F)) with (mat_vec (slice cov F F) (a2 F P)).
      rewrite Eq, total_is_inner, L2. reflexivity. }
    rewrite <- Eb. apply Hp.
    destruct (nonzero_dec k (vec (a2 F P))) as [[i [Hi Hd]]|Hz]; [exists i; auto|]. exfalso.
    assert (E0 : nth 0%nat (mat_vec (slice cov F F) (a2 F P)) 0 = 0).
    { rewrite mv_nth by (unfold slice; rewrite map_length; exact Hk). rewrite inner_sumn.
      - rewrite (square_nth_length k) by (auto; apply slice_square). apply sumn_zero. intros i Hi. change (nth i (a2 F P) 0) with (vec (a2 F P) i). rewrite Hz by exact Hi. ring.
      - rewrite (square_nth_length k) by (auto; apply slice_square). auto. }
    rewrite Eq in E0. destruct k; [lia|]. cbn in E0. lra.
  Qed.

  (** a vector solves the equations of [F] exactly when this holds of its list of entries *)
  Lemma ap_inner : forall w i, length w = n -> (i < n)%nat -> ap n S (vec w) i = inner (nth i cov []) w.
  Proof.
    intros w i Hw Hi. unfold ap. rewrite inner_sumn by (rewrite (square_row n) by assumption; auto).
    rewrite (square_row n) by assumption. reflexivity.
  Qed.
  Lemma sol_list : forall F b lam w g, length w = n -> free_set n F ->
    (sol n S mu F b lam (vec w) g <-> (forall i, (i < n)%nat -> ~ In i F -> nth i w 0 = b i) /\ total w = 1 /\ stationary mean cov F lam g w).
  Proof.
    intros F b lam w g Hw [_ [_ Hin]]. unfold sol, stationary. rewrite (total_vec n w Hw).
    split; (intros [A [B C]]; split; [exact A|]; split; [exact B|]; intros i Hi; specialize (C i Hi); pose proof (Hin i Hi)).
    - rewrite <- ap_inner by assumption. exact C.
    - rewrite ap_inner by assumption. exact C.
  Qed.
  (** the weights computed from [P] *)
  Lemma free_part_sol : forall ord F P wl lam, set_order ord -> free_set n F -> length wl = n -> right_inverse (length F) (slice cov F F) P ->
    let v := free_part n cov ord F wl P (pick mean F) lam in
    sol n S mu F (vec wl) lam (vec (put_all false F v wl)) (gam n cov ord F wl P (pick mean F) lam).
  Proof.
    intros ord F P wl lam Hord HF Hwl HP v. pose proof HF as [_ [Hnd Hin]]. pose proof (a2_pos F P HF HP) as H2.
    assert (Hv : length v = length F).
    { unfold v, free_part. destruct (a_lengths n cov ord F wl P HP (pick mean F)) as [L1 [L2 L3]]. rewrite length_comb; congruence. }
    destruct (put_all_split F v wl Hnd (eq_sym Hv)) as [A1 [A2 A3]]; [intros j Hj; rewrite Hwl; auto|].
    destruct (free_part_solves n cov ord F wl P HP (pick mean F) lam (pick_length _ _)) as [T1 T2]; [lra|]. fold v in T1, T2.
    assert (Hlen : length (put_all false F v wl) = n) by (rewrite put_all_length; exact Hwl).
    destruct (full_split n cov ord F wl Hsq Hord HF Hwl v _ Hv Hlen A1) as [S1 S2]; [intros i _ Hi; apply A3, Hi|].
    apply sol_list; auto. split; [intros i _ Hi; apply A3, Hi|]. split; [lra|].
    intros i Hi. destruct (In_nth_error F i Hi) as [j Hj]. rewrite S2 by auto. rewrite <- (T2 j i Hj), (pick_nth mean F j i Hj). reflexivity.
  Qed.
  Lemma id_order : set_order (fun l => l).
  Proof. intros l. apply Permutation_refl. Qed.
  Lemma sol_ext : forall F b b' lam x g, (forall i, (i < n)%nat -> ~ In i F -> b i = b' i) -> sol n S mu F b lam x g -> sol n S mu F b' lam x g.
  Proof. intros F b b' lam x g H [A [B C]]. split; [|auto]. intros i Hi Hn. rewrite A, H by assumption. reflexivity. Qed.
  Lemma path_exists : forall F b lam, free_set n F -> exists x g, sol n S mu F b lam x g.
  Proof.
    intros F b lam HF. destruct (slice_posdef F HF) as [Hp Hs]. destruct (posdef_invertible _ _ (slice_square cov F) Hs Hp) as [P HP].
    pose proof (free_part_sol (fun l => l) F P (of_fun n b) lam id_order HF (of_fun_length n b) HP) as H. cbv zeta in H.
    eexists. eexists. eapply sol_ext; [|exact H]. intros i Hi _. apply vec_of_fun, Hi.
  Qed.

  Notation sol' := (sol n S mu).
  Notation nu' := (nu n S mu).
  Notation Inv' := (Inv n S mu (vec lb) (vec ub)).
  Notation valid' := (valid n S mu (vec lb) (vec ub)).
  Lemma sol_iff : forall F b b', (forall i, (i < n)%nat -> ~ In i F -> b i = b' i) -> forall lam x g, sol' F b lam x g <-> sol' F b' lam x g.
  Proof. intros F b b' H lam x g. split; apply sol_ext; [exact H|]. intros; symmetry; auto. Qed.
  Lemma Inv_ext : forall F b b' last, (forall i, (i < n)%nat -> ~ In i F -> b i = b' i) -> Inv' F b last -> Inv' F b' last.
  Proof.
    intros F b b' last H [HF [Hb HI]]. split; [exact HF|]. split; [intros j Hj Hn; rewrite <- H by assumption; auto|].
    destruct last as [L|].
    - destruct HI as [HL [x [g [Hx [Hbox [Hs Hd]]]]]]. split; [exact HL|]. exists x, g. split; [apply (sol_ext F b); auto|]. split; [exact Hbox|]. split.
      + intros j Hj Hn. rewrite <- H by assumption. apply Hs; assumption.
      + intros j Hj Hn Hz lam y gy Hl Hy. rewrite <- H by assumption. apply (Hd j Hj Hn Hz lam y gy Hl). apply (sol_ext F b'); [intros; symmetry; auto|exact Hy].
    - destruct HI as [a [-> [Hbox Hmu]]]. exists a. split; [reflexivity|]. split.
      + intros lam x g Hx. apply (Hbox lam x g). apply (sol_ext [a] b'); [intros; symmetry; auto|exact Hx].
      + intros j Hj Hja. rewrite <- H by (auto; intros [?|[]]; congruence). apply Hmu; assumption.
  Qed.

  (** ** Candidates *)
  Section Oracles.
    Variables (inv : list (list R) -> res (list (list R))) (ord : list nat -> list nat).
    Hypotheses (Hinv : sound_inverse inv) (Hord : set_order ord).
    Notation in_cand' := (in_cand n S mu (vec lb) (vec ub)).
    Notation out_cand' := (out_cand n S mu).

    Lemma weight_line : forall f wl P FB mF wB j i, free_set n f -> length wl = n -> matrices inv ord mean cov f wl = Ok (P, FB, mF, wB) ->
      nth_error f j = Some i ->
      exists t c k, 0 < t /\ (forall bi, compute_lambda P FB mF wB j bi = if Reqb c 0 then None else Some ((k - t * lam_b c bi) / c, lam_b c bi)) /\
        forall lam x g, sol' f (vec wl) lam x g -> x i = (k - lam * c) / t.
    Proof.
      intros f wl P FB mF wB j i Hf Hwl Em Hj. pose proof (matrices_ok _ _ _ _ _ _ _ _ _ _ Em Hf) as [EP [-> [HmF ->]]].
      assert (HmFl : length mF = length f) by (rewrite HmF; apply pick_length).
      pose proof (Hinv _ _ _ (slice_square cov f) EP) as HP. pose proof (a2_pos f P Hf HP) as H2.
      exists (total (a2 f P)), (lam_c f P mF j), ((1 - total (fixed n ord f wl) + total (a1 n cov ord f wl P)) * nth j (a2 f P) 0 - total (a2 f P) * nth j (a1 n cov ord f wl P) 0).
      split; [exact H2|]. split.
      - intros bi. rewrite (compute_lambda_eq n cov ord f wl Hf Hwl P HP) by exact HmFl. cbv zeta. destruct (Reqb (lam_c f P mF j) 0) eqn:Ec; [reflexivity|].
        rprop. f_equal. f_equal. field. exact Ec.
      - intros lam x g Hx. pose proof (free_part_sol ord f P wl lam Hord Hf Hwl HP) as Hy. cbv zeta in Hy. rewrite <- HmF in Hy.
        pose proof Hf as [Hne [Hnd Hin]].
        destruct (sol_unique n S mu Spd f (vec wl) lam _ _ _ _ Hne Hin Hy Hx) as [Hxx _]. rewrite Hxx by (apply Hin, (nth_error_In _ _ Hj)).
        unfold vec at 1. assert (Hlen : length (free_part n cov ord f wl P mF lam) = length f).
        { unfold free_part. destruct (a_lengths n cov ord f wl P HP mF) as [L1 [L2 L3]]. rewrite length_comb; congruence. }
        rewrite put_all_nth by (auto; intros q Hq; rewrite Hwl; auto).
        destruct (in_dec Nat.eq_dec i f) as [_|Hc]; [|exfalso; apply Hc, (nth_error_In _ _ Hj)].
        rewrite (ext_in f _ j i) by auto. rewrite (free_part_nth n cov ord f wl P HP) by (auto; lra). reflexivity.
    Qed.

    Lemma in_candidate : forall f wl P FB mF wB j i, free_set n f -> length wl = n -> matrices inv ord mean cov f wl = Ok (P, FB, mF, wB) ->
      nth_error f j = Some i -> in_cand' f (vec wl) i (compute_lambda P FB mF wB j (BothBounds (nth i lb 0) (nth i ub 0))).
    Proof.
      intros f wl P FB mF wB j i Hf Hwl Em Hj. destruct (weight_line f wl P FB mF wB j i Hf Hwl Em Hj) as [t [c [k [Ht [Hl Hx]]]]].
      rewrite Hl. destruct (Reqb c 0) eqn:Ec; rprop.
      - intros lam x g lam' x' g' H1 H2. rewrite (Hx _ _ _ H1), (Hx _ _ _ H2), Ec. f_equal. ring.
      - assert (Ht' : 0 < / t) by (apply Rinv_0_lt_compat, Ht). exists (c / t). split; [|split].
        + unfold Rdiv. apply Rmult_integral_contrapositive_currified; lra.
        + cbn [lam_b]. unfold vec. destruct (Rltb 0 c) eqn:Er; rprop; destruct (Rlt_dec 0 (c / t)) as [Hd|Hd]; try reflexivity; exfalso.
          * apply Hd. apply Rmult_lt_0_compat; assumption.
          * assert (0 < c). { replace c with (c / t * t) by (field; lra). apply Rmult_lt_0_compat; assumption. } lra.
        + intros lam x g H. rewrite (Hx _ _ _ H). field. split; lra.
    Qed.
    Lemma out_candidate : forall f wl P FB mF wB i l b, free_set n f -> (i < n)%nat -> ~ In i f -> length wl = n ->
      matrices inv ord mean cov (f ++ [i]) wl = Ok (P, FB, mF, wB) ->
      compute_lambda P FB mF wB (length mF - 1) (OneBound (nth i wl 0)) = Some (l, b) -> out_cand' f (vec wl) i l.
    Proof.
      intros f wl P FB mF wB i l b Hf Hi Hn Hwl Em E.
      pose proof (free_app n f i Hf Hi Hn) as Hf'.
      pose proof (matrices_ok _ _ _ _ _ _ _ _ _ _ Em Hf') as [_ [_ [HmF _]]].
      assert (Hj : nth_error (f ++ [i]) (length mF - 1) = Some i).
      { rewrite HmF, pick_length, app_length. cbn [length]. replace (length f + 1 - 1)%nat with (length f) by lia.
        rewrite nth_error_app2 by lia. rewrite Nat.sub_diag. reflexivity. }
      destruct (weight_line _ _ _ _ _ _ _ _ Hf' Hwl Em Hj) as [t [c [k [Ht [Hl Hx]]]]]. rewrite Hl in E.
      destruct (Reqb c 0) eqn:Ec; [discriminate|]. rprop. cbn [lam_b] in E. injection E as El Eb.
      assert (Ht' : 0 < / t) by (apply Rinv_0_lt_compat, Ht). exists (c / t). split.
      - unfold Rdiv. apply Rmult_integral_contrapositive_currified; lra.
      - intros lam x g H. rewrite (Hx _ _ _ H), <- El. unfold vec. field. split; lra.
    Qed.

    Lemma case_a_spec : forall P FB mF wB fs j best r, case_a lb ub P FB mF wB fs j best = r ->
      let cand q i := compute_lambda P FB mF wB q (BothBounds (nth i lb 0) (nth i ub 0)) in
      (forall l i b, r = Some (l, i, b) -> best = r \/ exists q, nth_error fs q = Some i /\ cand (j + q)%nat i = Some (l, b)) /\
      (forall q i l b, nth_error fs q = Some i -> cand (j + q)%nat i = Some (l, b) -> exists L I B, r = Some (L, I, B) /\ l <= L) /\
      (forall l i b, best = Some (l, i, b) -> exists L I B, r = Some (L, I, B) /\ l <= L).
    Proof.
      intros P FB mF wB. induction fs as [|a fs IH]; intros j best r E cand.
      - cbn in E. subst r. split; [auto|]. split; [intros q i l b Hq; destruct q; discriminate|]. intros l i b ->. exists l, i, b. split; [reflexivity|lra].
      - cbn [case_a] in E. match type of E with case_a _ _ _ _ _ _ _ _ ?B = _ => set (best' := B) in E end.
        destruct (IH _ _ _ E) as [A1 [A2 A3]]. clear IH. change (@n0 R RNum) with 0 in *.
        assert (Hb' : (best' = best /\ forall l b, cand j a = Some (l, b) -> exists L I B, best = Some (L, I, B) /\ l <= L) \/
                      (exists l b, cand j a = Some (l, b) /\ best' = Some (l, a, b) /\ forall L I B, best = Some (L, I, B) -> L <= l)).
        { unfold best'. fold (cand j a). destruct (cand j a) as [[l b]|]; [|left; split; [reflexivity|discriminate]].
          destruct best as [[[L I] B]|]; cbn [option_map fst above].
          - runfold. destruct (Rltb L l) eqn:Er; rprop.
            + right. exists l, b. split; [reflexivity|]. split; [reflexivity|]. intros L' I' B' EL. injection EL as <- <- <-. lra.
            + left. split; [reflexivity|]. intros l' b' El. injection El as <- <-. exists L, I, B. split; [reflexivity|lra].
          - right. exists l, b. split; [reflexivity|]. split; [reflexivity|discriminate]. }
        clearbody best'. split; [|split].
        + intros l i b Er. destruct (A1 l i b Er) as [Hb|[q [Hq Hc]]].
          * destruct Hb' as [[-> _]|[l' [b' [Hc [-> _]]]]]; [left; exact Hb|]. right. exists O. rewrite <- Hb in Er. injection Er as <- <- <-.
            rewrite Nat.add_0_r. split; [reflexivity|exact Hc].
          * right. exists (Datatypes.S q). split; [exact Hq|]. rewrite <- Nat.add_succ_comm. exact Hc.
        + intros [|q] i l b Hq Hc.
          * cbn in Hq. injection Hq as ->. rewrite Nat.add_0_r in Hc. destruct Hb' as [[-> Hb]|[l' [b' [Hc' [-> _]]]]].
            -- destruct (Hb l b Hc) as [L [I [B [-> Hle]]]]. destruct (A3 L I B eq_refl) as [L2 [I2 [B2 [-> Hle2]]]]. exists L2, I2, B2. split; [reflexivity|lra].
            -- rewrite Hc in Hc'. injection Hc' as <- <-. apply (A3 l i b eq_refl).
          * apply (A2 q i l b Hq). rewrite Nat.add_succ_comm. exact Hc.
        + intros l i b ->. destruct Hb' as [[-> _]|[l' [b' [Hc [-> Hle]]]]]; [apply (A3 l i b eq_refl)|].
          destruct (A3 l' a b' eq_refl) as [L2 [I2 [B2 [-> Hle2]]]]. exists L2, I2, B2. specialize (Hle l i b eq_refl). split; [reflexivity|lra].
    Qed.

    Lemma case_b_spec : forall f wl last bs best r, free_set n f -> length wl = n -> (forall i, In i bs -> (i < n)%nat /\ ~ In i f) ->
      case_b inv ord mean cov f wl last bs best = Ok r ->
      (forall l i, r = Some (l, i) -> best = r \/ In i bs /\ out_cand' f (vec wl) i l /\ below last l) /\
      (forall i, In i bs -> exists l, out_cand' f (vec wl) i l /\ (below last l -> exists L I, r = Some (L, I) /\ l <= L)) /\
      (forall l i, best = Some (l, i) -> exists L I, r = Some (L, I) /\ l <= L).
    Proof.
      intros f wl last. induction bs as [|a bs IH]; intros best r Hf Hwl Hbs E.
      - cbn in E. injection E as <-. split; [auto|]. split; [intros i []|]. intros l i ->. exists l, i. split; [reflexivity|lra].
      - cbn [case_b] in E. destruct (Hbs a (or_introl eq_refl)) as [Ha Hna].
        destruct (matrices inv ord mean cov (f ++ [a]) wl) as [[[[P FB] mF] wB]|e] eqn:Em; [|discriminate]. cbn [rbind] in E. change (@n0 R RNum) with 0 in E.
        destruct (compute_lambda P FB mF wB (length mF - 1) (OneBound (nth a wl 0))) as [[l b]|] eqn:El; [|discriminate].
        pose proof (out_candidate f wl P FB mF wB a l b Hf Ha Hna Hwl Em El) as Hc.
        match type of E with case_b _ _ _ _ _ _ _ _ ?B = _ => set (best' := B) in E end.
        destruct (IH best' r Hf Hwl (fun i Hi => Hbs i (or_intror Hi)) E) as [A1 [A2 A3]]. clear IH.
        assert (Hb' : (best' = best /\ (below last l -> exists L I, best = Some (L, I) /\ l <= L)) \/
                      (below last l /\ best' = Some (l, a) /\ forall L I, best = Some (L, I) -> L <= l)).
        { unfold best'. runfold.
          assert (Hbl : (match last with None => true | Some x => Rltb l x end) = true <-> below last l).
          { destruct last as [x|]; cbn [below]; [|tauto]. split; intros H; rprop; auto. }
          destruct (match last with None => true | Some x => Rltb l x end) eqn:Ebl; cbn [andb].
          - destruct best as [[L I]|]; cbn [option_map fst above]; runfold.
            + destruct (Rltb L l) eqn:Er; rprop.
              * right. split; [apply Hbl; reflexivity|]. split; [reflexivity|]. intros L' I' EL. injection EL as <- <-. lra.
              * left. split; [reflexivity|]. intros _. exists L, I. split; [reflexivity|lra].
            + right. split; [apply Hbl; reflexivity|]. split; [reflexivity|discriminate].
          - left. split; [reflexivity|]. intros H. apply Hbl in H. discriminate. }
        clearbody best'. split; [|split].
        + intros l' i Er. destruct (A1 l' i Er) as [Hb|[Hi Hrest]].
          * destruct Hb' as [[-> _]|[Hbl [-> _]]]; [left; exact Hb|]. right. rewrite <- Hb in Er. injection Er as <- <-. split; [left; reflexivity|]. split; assumption.
          * right. split; [right; exact Hi|exact Hrest].
        + intros i [<-|Hi]; [|apply A2, Hi]. exists l. split; [exact Hc|]. intros Hbl. destruct Hb' as [[-> Hb]|[_ [-> _]]].
          * destruct (Hb Hbl) as [L [I [-> Hle]]]. destruct (A3 L I eq_refl) as [L2 [I2 [-> Hle2]]]. exists L2, I2. split; [reflexivity|lra].
          * apply (A3 l a eq_refl).
        + intros l' i ->. destruct Hb' as [[-> _]|[_ [-> Hle]]]; [apply (A3 l' i eq_refl)|].
          destruct (A3 l a eq_refl) as [L2 [I2 [-> Hle2]]]. specialize (Hle l' i eq_refl). exists L2, I2. split; [reflexivity|lra].
    Qed.
  End Oracles.
End Run.
