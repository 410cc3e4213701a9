(** * Critical line algorithm: the whole run *)
From Coq Require Import ZArith List Bool Reals Lra Lia Permutation.
From Verif Require Import Num Py MBase MCLA SLin SCLA SBL RBase PyLemmas Sums Mat PBase PCov1 PBL1 PBL2 PCLA1 PCLA2 PCLA3 PCLA4 PCLA5 PCLA6 PCLA7.
Import ListNotations.
Local Open Scope R_scope.

Section Whole.
  Variables (mean : list R) (cov : list (list R)) (lb ub : list R).
  Notation n := (length mean).
  Hypotheses (Hpd : pos_def n cov) (Hsym : symmetric n cov) (Hbox : boxes n lb ub).
  Notation S := (entry cov).
  Notation mu := (vec mean).
  Notation sol' := (sol n S mu).
  Notation nu' := (nu n S mu).
  Notation Inv' := (Inv n S mu (vec lb) (vec ub)).
  Notation valid' := (valid n S mu (vec lb) (vec ub)).
  Notation in_cand' := (in_cand n S mu (vec lb) (vec ub)).
  Notation out_cand' := (out_cand n S mu).
  Let Hsq : square n cov := proj1 Hpd.
  Let Spd : posdef n S := pos_def_posdef n cov Hpd.
  Let Hex := path_exists mean cov Hpd Hsym.
  Variables (inv : list (list R) -> res (list (list R))) (ord : list nat -> list nat).
  Hypotheses (Hinv : sound_inverse inv) (Hord : set_order ord).
  Hypothesis Huntied : untied mean cov lb ub.
  Let GP := untied_gpos mean cov lb ub Hpd Hsym Hbox Huntied.
  Notation turned' := (turned mean cov lb ub).

  (** a turning point with the right total is a point of the path *)
  Definition good (p : tp R) : Prop :=
    length (t_w p) = n /\ exists l, t_l p = Some l /\ 0 <= l /\ free_set n (t_f p) /\
      (total (t_w p) = 1 -> optimal_at mean cov lb ub l (t_w p) /\ exists g, stationary mean cov (t_f p) l g (t_w p)).

  Lemma Inv_valid : forall f w L, Inv' f (vec w) (Some L) -> valid' f (vec w) L.
  Proof. intros f w L [_ [_ [_ [x [g [H1 [H2 [H3 _]]]]]]]]. exists x, g. auto. Qed.
  Lemma Inv_optimal : forall f w l g, Inv' f (vec w) (Some l) -> length w = n -> sol' f (vec w) l (vec w) g ->
    optimal_at mean cov lb ub l w /\ exists g, stationary mean cov f l g w.
  Proof.
    intros f w l g HI Hw Hs. pose proof HI as [Hf [Hb _]].
    destruct (valid_sol mean cov lb ub Hpd f (vec w) l w g Hf Hw (Inv_valid _ _ _ HI) Hs) as [H1 H2]. split.
    - apply (sol_optimal mean cov lb ub Hpd Hsym Hbox f (vec w) l w g); auto.
    - exists g. apply (sol_list mean cov Hpd f (vec w) l w g Hw Hf). exact Hs.
  Qed.
  Lemma turned_good : forall f w last f' w' l p, Inv' f (vec w) last -> length w = n -> length w' = n -> 0 <= l -> valid' f (vec w) l ->
    turned' f w last f' w' l -> t_w p = w' -> t_l p = Some l -> t_f p = f' -> good p.
  Proof.
    intros f w last f' w' l p HI Hw Hw' Hl Hv Ht E1 E2 E3. pose proof HI as [Hf [Hb _]]. unfold good. rewrite E1, E2, E3. split; [exact Hw'|].
    exists l. split; [reflexivity|]. split; [exact Hl|]. destruct Ht as [g H1 H2 H3 H4|j g H1 H2 H3 H4 H5 H6 H7 H8|i b H1 H2 H3 H4 H5 H6 H7 H8 H9].
    - subst l f'. split; [exact Hf|]. intros _. destruct (valid_sol mean cov lb ub Hpd f (vec w) 0 w' g Hf Hw' Hv H4) as [S1 S2]. split.
      + apply (sol_optimal mean cov lb ub Hpd Hsym Hbox f (vec w) 0 w' g); auto.
      + exists g. apply (sol_list mean cov Hpd f (vec w) 0 w' g Hw' Hf). exact H4.
    - split; [apply H8|]. intros _. apply (Inv_optimal f' w' l g H8 Hw'). apply (sol_ext mean cov f' (vec w)); [|exact H7].
      intros i Hi Hn. symmetry. destruct H6 as [_ H6]. apply H6, Hn.
    - split; [apply H9|]. intros Ht. destruct H8 as [g Hg]; [lra|]. apply (Inv_optimal f' w' l g H9 Hw' Hg).
  Qed.
  (** without ties at the end the last point has the right total *)
  Lemma turned_end_total : forall f w last f' w', untied_end mean cov lb ub -> Inv' f (vec w) last -> length w = n -> length w' = n -> valid' f (vec w) 0 ->
    turned' f w last f' w' 0 -> total w' = 1.
  Proof.
    intros f w last f' w' Hend HI Hw Hw' Hv Ht. pose proof HI as [Hf [Hb _]]. pose proof Hf as [_ [Hnd Hin]].
    destruct Ht as [g H1 H2 H3 H4|j g H1 H2 H3 H4 H5 H6 H7 H8|i b H1 H2 H3 H4 H5 H6 H7 H8 H9].
    - rewrite (total_vec n) by exact Hw'. apply H4.
    - rewrite (total_vec n) by exact Hw'. apply H7.
    - exfalso. destruct Hv as [x [g [Hx [Hi Hs]]]]. set (v := of_fun n x). assert (Lv : length v = n) by apply of_fun_length.
      pose proof (sol_of_fun mean cov f (vec w) 0 x g Hx) as Hvs. fold v in Hvs.
      assert (E : forall k, (k < n)%nat -> vec v k = x k) by (intros; apply vec_of_fun; assumption).
      assert (Hfi : forall k, In k f' <-> In k f /\ k <> i) by (intros k; rewrite H3; apply remove_first_in, Hnd).
      assert (Ho : optimal_at mean cov lb ub 0 v).
      { destruct (valid_sol mean cov lb ub Hpd f (vec w) 0 v g Hf Lv) as [S1 S2]; [exists x, g; auto|exact Hvs|].
        apply (sol_optimal mean cov lb ub Hpd Hsym Hbox f (vec w) 0 v g); auto. }
      apply (sol_list mean cov Hpd f (vec w) 0 v g Lv Hf) in Hvs. destruct Hvs as [V1 [V2 V3]].
      apply (Hend f' g v i).
      + apply H9.
      + destruct Ho as [Ho1 Ho2]. split; [exact Ho1|]. intros u Hu. specialize (Ho2 u Hu). lra.
      + intros k Hk Hkf. rewrite Lv in Hk. destruct (Nat.eq_dec k i) as [->|Hki].
        * destruct H4 as [kap [Hk0 [Hbi Hc]]]. change (nth i v 0) with (vec v i). rewrite E by exact Hk. rewrite (Hc 0 x g Hx).
          replace (b - (0 - 0) * kap) with b by ring. rewrite Hbi. destruct (Rlt_dec 0 kap); [right|left]; reflexivity.
        * rewrite V1; [apply Hb; [exact Hk|]|exact Hk|]; rewrite Hfi in Hkf; tauto.
      + intros k Hk. apply V3, Hfi, Hk.
      + apply Hin, H1.
      + rewrite Hfi. tauto.
      + rewrite <- (V3 i H1). ring.
  Qed.
  Lemma turned_next : forall f w last f' w' l, turned' f w last f' w' l -> l <> 0 -> Inv' f' (vec w') (Some l).
  Proof. intros f w last f' w' l [g H1 H2 H3 H4|j g H1 H2 H3 H4 H5 H6 H7 H8|i b H1 H2 H3 H4 H5 H6 H7 H8 H9] Hl; [contradiction|exact H8|exact H9]. Qed.

  Theorem loop_path : forall fuel f w last pts pts' r, Inv' f (vec w) last -> length w = n ->
    loop inv ord mean cov lb ub false fuel f w last pts = (pts', r) ->
    exists more, pts' = pts ++ more /\ Forall good more /\
      (r = Ok tt -> exists pre q, more = pre ++ [q] /\ t_l q = Some 0 /\ (untied_end mean cov lb ub -> total (t_w q) = 1)).
  Proof.
    induction fuel as [|fuel IH]; intros f w last pts pts' r HI Hw E.
    - cbn in E. injection E as <- <-. exists []. rewrite app_nil_r. split; [reflexivity|]. split; [constructor|discriminate].
    - cbn [loop] in E. destruct (step inv ord mean cov lb ub false f w w last) as [[[f' w'] p]|e] eqn:Es.
      2:{ injection E as <- <-. exists []. rewrite app_nil_r. split; [reflexivity|]. split; [constructor|discriminate]. }
      destruct (step_turned mean cov lb ub Hpd Hsym Hbox inv ord Hinv Hord GP f w last f' w' p HI Hw Es) as [l [E1 [E2 [E3 [Hw' [Hl [Hup [Hv Ht]]]]]]]].
      rewrite E2 in E. assert (Hvl : valid' f (vec w) l) by (apply Hv; [lra|exact Hup]).
      pose proof (turned_good f w last f' w' l p HI Hw Hw' Hl Hvl Ht E1 E2 E3) as Hg. runfold. destruct (Reqb l 0) eqn:Er; rprop.
      + injection E as <- <-. subst l. exists [p]. split; [reflexivity|]. split; [constructor; [exact Hg|constructor]|]. intros _.
        exists [], p. split; [reflexivity|]. split; [exact E2|]. intros He. rewrite E1. apply (turned_end_total f w last f' w' He HI Hw Hw' Hvl Ht).
      + destruct (IH f' w' (Some l) _ _ _ (turned_next _ _ _ _ _ _ Ht Er) Hw' E) as [more [-> [Hm Hend]]].
        exists (p :: more). rewrite <- app_assoc. split; [reflexivity|]. split; [constructor; assumption|]. intros Hr.
        destruct (Hend Hr) as [pre [q [-> [Hq1 Hq2]]]]. exists (p :: pre), q. auto.
  Qed.

  (** ** The run ends *)
  Hypothesis Hstrict : forall i, (i < n)%nat -> vec lb i < vec ub i.
  Definition dead (F : list nat) (b : nat -> R) (l : R) : Prop := forall lam, lam < l -> ~ valid' F b lam.
  Lemma dead_in : forall F b i l bi, In i F -> in_cand' F b i (Some (l, bi)) -> dead F b l.
  Proof.
    intros F b i l bi Hi [kap [Hk [Hbi Hc]]] lam Hlt [x [g [Hx [Hin _]]]]. specialize (Hin i Hi). rewrite (Hc lam x g Hx) in Hin.
    destruct (Rlt_dec 0 kap) as [Hp|Hp].
    - assert (0 < (l - lam) * kap) by (apply Rmult_lt_0_compat; lra). subst bi. lra.
    - assert (0 < (l - lam) * - kap) by (apply Rmult_lt_0_compat; lra). subst bi. lra.
  Qed.
  Lemma side_sign : forall F b lam x g j, (j < n)%nat -> ~ In j F -> (b j = vec lb j \/ b j = vec ub j) -> sides n S mu (vec lb) (vec ub) F b lam x g ->
    (b j = vec lb j -> 0 <= nu' lam x g j) /\ (b j = vec ub j -> nu' lam x g j <= 0).
  Proof.
    intros F b lam x g j Hj Hn Hb Hs. specialize (Hstrict j Hj). split; intros E; destruct (Hs j Hj Hn) as [[E1 E2]|[E1 E2]]; lra.
  Qed.
  (** beyond the value where the multiplier of [j] vanishes it has the other sign *)
  Lemma other_sign : forall F b j l lam x g lam' x' g', free_set n F -> (j < n)%nat -> ~ In j F -> out_cand' F b j l ->
    sol' F b lam x g -> sol' F b lam' x' g' -> lam < l -> l < lam' -> nu' lam x g j * nu' lam' x' g' j < 0.
  Proof.
    intros F b j l lam x g lam' x' g' HF Hj Hn Hc Hx Hx' H1 H2.
    set (t := (l - lam) / (lam' - lam)). assert (Hd : 0 < lam' - lam) by lra.
    assert (Ht : 0 < t < 1).
    { unfold t. split; [apply Rmult_lt_0_compat; [lra|apply Rinv_0_lt_compat; exact Hd]|].
      apply (Rmult_lt_reg_r (lam' - lam)); [exact Hd|]. unfold Rdiv. rewrite Rmult_assoc, Rinv_l by lra. lra. }
    assert (El : t * lam' + (1 - t) * lam = l) by (unfold t; field; lra).
    pose proof (sol_lin n S mu F b lam' lam x' x g' g t Hx' Hx) as Hs. pose proof (nu_lin n S mu lam' lam x' x g' g t j) as Hl. rewrite El in Hs, Hl.
    rewrite (proj2 (nu_zero n S mu Spd Hex F b j l l _ _ HF Hj Hn Hc Hs) eq_refl) in Hl.
    assert (Z : nu' lam x g j <> 0) by (rewrite (nu_zero n S mu Spd Hex F b j l lam x g HF Hj Hn Hc Hx); lra).
    set (a := nu' lam' x' g' j) in *. set (c := nu' lam x g j) in *.
    assert (Ha : a = - ((1 - t) / t) * c) by (apply (Rmult_eq_reg_l t); [|lra]; field_simplify; [lra|lra]).
    rewrite Ha. assert (0 < (1 - t) / t) by (apply Rmult_lt_0_compat; [lra|apply Rinv_0_lt_compat; lra]).
    assert (0 < c * c) by (destruct (Rdichotomy _ _ Z); nra). nra.
  Qed.
  Lemma dead_out : forall F b j l last, free_set n F -> (forall k, (k < n)%nat -> ~ In k F -> b k = vec lb k \/ b k = vec ub k) ->
    (j < n)%nat -> ~ In j F -> out_cand' F b j l -> below last l ->
    (forall lam, l <= lam -> upto last lam -> valid' F b lam) -> dead F b l.
  Proof.
    intros F b j l last HF Hb Hj Hn Hc Hbl Hv lam Hlt [x [g [Hx [_ Hs]]]].
    assert (He : exists lam', l < lam' /\ upto last lam') by (destruct last as [L|]; [exists L; cbn in *; lra|exists (l + 1); cbn; split; [lra|exact I]]).
    destruct He as [lam' [H1 H2]]. destruct (Hv lam' (Rlt_le _ _ H1) H2) as [x' [g' [Hx' [_ Hs']]]].
    pose proof (other_sign F b j l lam x g lam' x' g' HF Hj Hn Hc Hx Hx' Hlt H1) as Hneg.
    destruct (side_sign F b lam x g j Hj Hn (Hb j Hj Hn) Hs) as [A1 A2]. destruct (side_sign F b lam' x' g' j Hj Hn (Hb j Hj Hn) Hs') as [B1 B2].
    destruct (Hb j Hj Hn) as [E|E].
    - specialize (A1 E). specialize (B1 E). nra.
    - specialize (A2 E). specialize (B2 E). nra.
  Qed.
  (** an asset that has just become free moves into its box *)
  Lemma inward : forall F b j l last, free_set n F -> (forall k, (k < n)%nat -> ~ In k F -> b k = vec lb k \/ b k = vec ub k) ->
    (j < n)%nat -> ~ In j F -> out_cand' F b j l -> below last l ->
    (forall lam, l <= lam -> upto last lam -> valid' F b lam) ->
    forall bi, ~ in_cand' (F ++ [j]) b j (Some (l, bi)).
  Proof.
    intros F b j l last HF Hb Hj Hn Hc Hbl Hv bi [kap [Hk [Hbi Hci]]].
    assert (He : exists lam', l < lam' /\ upto last lam') by (destruct last as [L|]; [exists L; cbn in *; lra|exists (l + 1); cbn; split; [lra|exact I]]).
    destruct He as [lam' [H1 H2]]. destruct (Hv lam' (Rlt_le _ _ H1) H2) as [x' [g' [Hx' [_ Hs']]]].
    set (lam := l - 1). assert (Hlt : lam < l) by (unfold lam; lra).
    destruct (Hex F b lam HF) as [x [g Hx]].
    pose proof (other_sign F b j l lam x g lam' x' g' HF Hj Hn Hc Hx Hx' Hlt H1) as Hneg.
    pose proof (free_app n F j HF Hj Hn) as HF1.
    destruct (Hex (F ++ [j]) b lam HF1) as [y [gy Hy]].
    assert (Hxj : x j = b j) by (destruct Hx as [A _]; apply A; assumption).
    assert (EK : bil n S (fun i => y i - x i) (fun i => y i - x i) = - ((y j - x j) * nu' lam x g j)).
    { destruct Hy as [A' [B' C']]. apply (key n S mu F b b j lam x g y gy); auto.
      - intros i Hi Hni Hne. apply A'; [exact Hi|]. intros Hc'. apply in_app_or in Hc'. destruct Hc' as [?|[?|[]]]; [contradiction|congruence].
      - intros i Hi. apply C', in_or_app. left; exact Hi.
      - apply C', in_or_app. right; left; reflexivity. }
    (* the solution for the larger set at l *)
    destruct (Hex F b l HF) as [z [gz Hz]].
    assert (Hz0 : nu' l z gz j = 0) by (apply (nu_zero n S mu Spd Hex F b j l l z gz HF Hj Hn Hc Hz); reflexivity).
    pose proof (sol_grow n S mu F b l z gz j Hn Hj Hz Hz0) as Hz1.
    assert (Hzj : z j = b j) by (destruct Hz as [A _]; apply A; assumption).
    pose proof (Hci l z gz Hz1) as E1. replace (bi - (l - l) * kap) with bi in E1 by ring. rewrite Hzj in E1.
    pose proof (Hci lam y gy Hy) as E2. rewrite <- E1 in E2, Hbi.
    assert (Hd : y j - x j = kap) by (rewrite E2, Hxj; unfold lam; ring). rewrite Hd in EK.
    destruct (bil_pos n S Spd (fun i => y i - x i)) as [Hzero|Hp]; [specialize (Hzero j Hj); cbn in Hzero; lra|].
    destruct (side_sign F b lam' x' g' j Hj Hn (Hb j Hj Hn) Hs') as [B1 B2]. pose proof (Hstrict j Hj).
    destruct (Rlt_dec 0 kap) as [Hpos|Hpos].
    - specialize (B2 Hbi). nra.
    - specialize (B1 Hbi). nra.
  Qed.

  (** *** Configurations *)
  Definition code (F : list nat) (b : nat -> R) : list nat :=
    map (fun i => if in_dec Nat.eq_dec i F then 0%nat else if Req_EM_T (b i) (vec lb i) then 1%nat else 2%nat) (seq 0 n).
  Fixpoint codes (k : nat) : list (list nat) :=
    match k with O => [[]] | Datatypes.S k' => flat_map (fun c => [0%nat :: c; 1%nat :: c; 2%nat :: c]) (codes k') end.
  Lemma codes_length : forall k, length (codes k) = (3 ^ k)%nat.
  Proof.
    induction k as [|k IH]; [reflexivity|]. cbn [codes Nat.pow]. rewrite <- IH.
    assert (H : forall l, length (flat_map (fun c : list nat => [0%nat :: c; 1%nat :: c; 2%nat :: c]) l) = (3 * length l)%nat).
    { induction l as [|c l IHl]; [reflexivity|]. cbn [flat_map]. rewrite app_length, IHl. cbn [length]. lia. }
    rewrite H. lia.
  Qed.
  Lemma codes_in : forall k c, length c = k -> (forall x, In x c -> (x < 3)%nat) -> In c (codes k).
  Proof.
    induction k as [|k IH]; intros [|x c] Hl Hx; try discriminate; [left; reflexivity|]. cbn [codes]. apply in_flat_map. exists c. split.
    - apply IH; [cbn in Hl; lia|]. intros y Hy. apply Hx. right; exact Hy.
    - specialize (Hx x (or_introl eq_refl)). destruct x as [|[|[|x]]]; cbn; auto; lia.
  Qed.
  Lemma code_in : forall F b, In (code F b) (codes n).
  Proof.
    intros F b. apply codes_in; [unfold code; rewrite map_length, seq_length; reflexivity|]. intros x Hx. unfold code in Hx. apply in_map_iff in Hx.
    destruct Hx as [i [<- _]]. destruct (in_dec Nat.eq_dec i F); [lia|]. destruct (Req_EM_T (b i) (vec lb i)); lia.
  Qed.
  Lemma code_eq : forall F b F' b', code F b = code F' b' -> (forall k, (k < n)%nat -> ~ In k F -> b k = vec lb k \/ b k = vec ub k) ->
    (forall k, (k < n)%nat -> ~ In k F' -> b' k = vec lb k \/ b' k = vec ub k) ->
    forall i, (i < n)%nat -> (In i F <-> In i F') /\ (~ In i F -> b i = b' i).
  Proof.
    intros F b F' b' E Hb Hb' i Hi. specialize (Hb i Hi). specialize (Hb' i Hi). pose proof (Hstrict i Hi) as Hs.
    assert (En : nth i (code F b) 0%nat = nth i (code F' b') 0%nat) by (rewrite E; reflexivity). unfold code in En.
    assert (Hm : forall f : nat -> nat, nth i (map f (seq 0 n)) 0%nat = f i).
    { intros f. rewrite (nth_indep _ 0%nat (f 0%nat)) by (rewrite map_length, seq_length; exact Hi). rewrite map_nth, seq_nth by exact Hi. reflexivity. }
    rewrite !Hm in En. destruct (in_dec Nat.eq_dec i F) as [H1|H1], (in_dec Nat.eq_dec i F') as [H2|H2].
    - split; [tauto|]. intros Hc. contradiction.
    - destruct (Req_EM_T (b' i) (vec lb i)); discriminate.
    - destruct (Req_EM_T (b i) (vec lb i)); discriminate.
    - split; [tauto|]. intros _. specialize (Hb H1). specialize (Hb' H2).
      destruct (Req_EM_T (b i) (vec lb i)), (Req_EM_T (b' i) (vec lb i)); try discriminate; [congruence|]. destruct Hb, Hb'; congruence.
  Qed.
  Lemma valid_same : forall F b F' b' lam, free_set n F -> free_set n F' -> (forall i, (i < n)%nat -> (In i F <-> In i F') /\ (~ In i F -> b i = b' i)) ->
    valid' F b lam -> valid' F' b' lam.
  Proof.
    intros F b F' b' lam [_ [_ H1]] [_ [_ H2]] H [x [g [[A [B C]] [Hi Hs]]]]. exists x, g. split; [split; [|split; [exact B|]]|split].
    - intros i Hin Hn. destruct (H i Hin) as [E1 E2]. rewrite <- E2 by tauto. apply A; tauto.
    - intros i Hin. apply C. apply (H i (H2 i Hin)). exact Hin.
    - intros i Hin. apply Hi. apply (H i (H2 i Hin)). exact Hin.
    - intros j Hj Hn. destruct (H j Hj) as [E1 E2]. rewrite <- E2 by tauto. apply Hs; tauto.
  Qed.

  (** *** No step fails *)
  Hypotheses (Hcomplete : complete_inverse inv) (Hmoving : moving mean cov).
  Lemma matrices_total : forall f w, free_set n f -> exists P FB mF wB, matrices inv ord mean cov f w = Ok (P, FB, mF, wB).
  Proof.
    intros f w Hf. unfold matrices, size. rewrite (reduce_ff n) by exact Hf. destruct (slice_posdef mean cov Hpd Hsym f Hf) as [Hp Hs].
    destruct (posdef_invertible _ _ (slice_square cov f) Hs Hp) as [P HP]. destruct (Hcomplete _ _ _ (slice_square cov f) HP) as [Q HQ]. rewrite HQ. cbn [rbind].
    eauto.
  Qed.
  Lemma out_total : forall f w i P FB mF wB, free_set n f -> length w = n -> (i < n)%nat -> ~ In i f ->
    matrices inv ord mean cov (f ++ [i]) w = Ok (P, FB, mF, wB) ->
    exists l b, compute_lambda P FB mF wB (length mF - 1) (OneBound (nth i w 0)) = Some (l, b).
  Proof.
    intros f w i P FB mF wB Hf Hw Hi Hn Em. pose proof (free_app n f i Hf Hi Hn) as Hf'. pose proof Hf as [Hne _].
    pose proof (matrices_ok _ _ _ _ _ _ _ _ _ _ Em Hf') as [_ [_ [HmF _]]].
    assert (Hj : nth_error (f ++ [i]) (length mF - 1) = Some i).
    { rewrite HmF, pick_length, app_length. cbn [length]. replace (length f + 1 - 1)%nat with (length f) by lia.
      rewrite nth_error_app2 by lia. rewrite Nat.sub_diag. reflexivity. }
    destruct (weight_line mean cov Hpd Hsym inv ord Hinv Hord _ _ _ _ _ _ _ _ Hf' Hw Em Hj) as [t [c [k [Ht [Hl Hx]]]]]. rewrite Hl.
    destruct (Reqb c 0) eqn:Ec; [exfalso|eauto]. rprop.
    destruct (Hex (f ++ [i]) (vec w) 0 Hf') as [x0 [g0 H0]]. destruct (Hex (f ++ [i]) (vec w) 1 Hf') as [x1 [g1 H1]].
    pose proof (Hx _ _ _ H0) as E0. pose proof (Hx _ _ _ H1) as E1. rewrite Ec in E0, E1.
    pose proof (sol_of_fun mean cov _ _ _ _ _ H0) as L0. pose proof (sol_of_fun mean cov _ _ _ _ _ H1) as L1.
    apply (sol_list mean cov Hpd _ _ _ _ _ (of_fun_length n x0) Hf') in L0. apply (sol_list mean cov Hpd _ _ _ _ _ (of_fun_length n x1) Hf') in L1.
    destruct L0 as [A0 [B0 C0]], L1 as [A1 [B1 C1]].
    assert (E : 0 = 1).
    { apply (Hmoving (f ++ [i]) i 0 g0 (of_fun n x0) 1 g1 (of_fun n x1)); auto.
      - rewrite app_length. cbn. destruct f; [congruence|cbn; lia].
      - apply in_or_app. right; left; reflexivity.
      - apply of_fun_length.
      - split; [rewrite !of_fun_length; reflexivity|]. intros q Hq. destruct (lt_dec q n) as [Hqn|Hqn].
        + rewrite A0, A1 by assumption. reflexivity.
        + rewrite !nth_overflow by (rewrite of_fun_length; lia). reflexivity.
      - change (vec (of_fun n x0) i = vec (of_fun n x1) i). rewrite !vec_of_fun by exact Hi. rewrite E0, E1. f_equal. ring. }
    lra.
  Qed.
  Lemma case_b_total : forall f w last bs best, free_set n f -> length w = n -> (forall i, In i bs -> (i < n)%nat /\ ~ In i f) ->
    exists r, case_b inv ord mean cov f w last bs best = Ok r.
  Proof.
    intros f w last. induction bs as [|a bs IH]; intros best Hf Hw Hbs; [exists best; reflexivity|]. cbn [case_b].
    destruct (Hbs a (or_introl eq_refl)) as [Ha Hna]. destruct (matrices_total (f ++ [a]) w (free_app n f a Hf Ha Hna)) as [P [FB [mF [wB Em]]]].
    rewrite Em. cbn [rbind]. destruct (out_total f w a P FB mF wB Hf Hw Ha Hna Em) as [l [b El]]. change (@n0 R RNum) with 0. rewrite El.
    apply IH; auto. intros i Hi. apply Hbs. right; exact Hi.
  Qed.
  Lemma next_event_total : forall (li : option (R * nat * R)) lo, exists ev, next_event li lo = Ok ev.
  Proof.
    intros li lo. unfold next_event. destruct li as [[[a i] b]|], lo as [[c j]|]; cbn [option_map fst none_or_negative above andb]; runfold.
    - destruct (Rltb a 0 && Rltb c 0); [eauto|]. destruct (Rltb c a); eauto.
    - rewrite andb_true_r. destruct (Rltb a 0); eauto.
    - destruct (Rltb c 0); eauto.
    - eauto.
  Qed.
  Lemma step_total : forall f w last, Inv' f (vec w) last -> length w = n -> exists f' w' p, step inv ord mean cov lb ub false f w w last = Ok (f', w', p).
  Proof.
    intros f w last HI Hw. pose proof HI as [Hf [Hb _]]. pose proof Hf as [Hne [Hnd Hin]]. unfold step.
    assert (H1 : exists li, bound_free inv ord mean cov lb ub f w = Ok li).
    { unfold bound_free. destruct (1 <? length f)%nat; [|eauto]. destruct (matrices_total f w Hf) as [P [FB [mF [wB ->]]]]. cbn [rbind]. eauto. }
    destruct H1 as [li H1]. rewrite H1. cbn [rbind].
    assert (H2 : exists lo, free_bound inv ord mean cov f w last = Ok lo).
    { unfold free_bound, size. destruct (length f <? n)%nat; [|eauto]. apply case_b_total; auto. intros i Hi. apply (others_in ord n f i Hord), Hi. }
    destruct H2 as [lo H2]. rewrite H2. cbn [rbind]. destruct (next_event_total li lo) as [ev H3]. rewrite H3. cbn [rbind].
    destruct (after_event false ev f w) as [[f1 w1] l] eqn:E4.
    assert (Hf1 : free_set n f1).
    { pose proof (next_event_spec li lo ev H3) as Hev. destruct ev as [|l0 i b|l0 j]; cbn [after_event] in E4; injection E4 as <- <- <-; auto.
      - destruct Hev as [Hli _]. destruct (bound_free_spec mean cov lb ub Hpd Hsym inv ord Hinv Hord f w li Hf Hw H1) as [A1 _]. destruct (A1 _ _ _ Hli) as [Hl [Hi _]].
        apply remove_first_free; assumption.
      - destruct Hev as [Hlo _]. destruct (free_bound_spec mean cov Hpd Hsym inv ord Hinv Hord f w last lo Hf Hw H2) as [B1 _]. destruct (B1 _ _ Hlo) as [Hj [Hjf _]].
        apply free_app; assumption. }
    destruct (matrices_total f1 w Hf1) as [P [FB [mF [wB Em]]]]. rewrite Em. cbn [rbind].
    destruct (matrices_ok _ _ _ _ _ _ _ _ _ _ Em Hf1) as [EP [-> [HmF ->]]]. pose proof (Hinv _ _ _ (slice_square cov f1) EP) as HP.
    assert (Hcw : forall mF', length mF' = length f1 -> exists wF g, compute_w P (reduce cov f1 (others ord n f1)) mF' (reduce_col w (others ord n f1)) l = Ok (wF, g)).
    { intros mF' HL. rewrite (compute_w_eq n cov ord f1 w Hf1 Hw P HP) by exact HL. pose proof (a2_pos mean cov Hpd Hsym f1 P Hf1 HP) as H0.
      destruct (Reqb (total (a2 f1 P)) 0) eqn:E0; rprop; [lra|eauto]. }
    match goal with |- context [compute_w P _ ?M _ l] => destruct (Hcw M) as [wF [g Ew]] end.
    - destruct ev; rewrite ?repeat_length, HmF; apply pick_length.
    - rewrite Ew. cbn [rbind]. eauto.
  Qed.

  (** *** The configurations of a run are all different *)
  Definition config : Type := (list nat * (nat -> R) * R)%type.
  Definition bounded (F : list nat) (b : nat -> R) : Prop := forall k, (k < n)%nat -> ~ In k F -> b k = vec lb k \/ b k = vec ub k.
  (** [c] was left at the current value: how its free set differs from the present one *)
  Definition moved (F : list nat) (b : nat -> R) (L : R) (Fc : list nat) : Prop :=
    (length F < length Fc)%nat \/ (length F = length Fc /\ exists i, In i Fc /\ ~ In i F) \/
    (exists j, F = Fc ++ [j] /\ ~ In j Fc /\ forall bi, ~ in_cand' F b j (Some (L, bi))).
  Definition history (seen : list config) (F : list nat) (b : nat -> R) (last : option R) : Prop :=
    NoDup (map (fun c : config => code (fst (fst c)) (snd (fst c))) seen) /\
    forall Fc bc lc, In (Fc, bc, lc) seen -> free_set n Fc /\ bounded Fc bc /\ dead Fc bc lc /\
      match last with None => False | Some L => L <= lc /\ (lc = L -> moved F b L Fc) end.

  Lemma moved_differs : forall F b L Fc, free_set n F -> free_set n Fc -> moved F b L Fc -> exists i, (i < n)%nat /\ ~ (In i F <-> In i Fc).
  Proof.
    intros F b L Fc [_ [N1 I1]] [_ [N2 I2]] [H|[[_ [i [Hi Hn]]]|[j [E [Hn _]]]]].
    - destruct (existsb (fun i => negb (existsb (Nat.eqb i) F)) Fc) eqn:Ee.
      + apply existsb_exists in Ee. destruct Ee as [i [Hi He]]. exists i. split; [auto|]. intros Hc. apply negb_true_iff in He.
        assert (Hx : existsb (Nat.eqb i) F = true) by (apply existsb_exists; exists i; split; [tauto|apply Nat.eqb_refl]). congruence.
      + exfalso. assert (Hincl : incl Fc F).
        { intros i Hi. destruct (in_dec Nat.eq_dec i F) as [|Hn]; [assumption|]. exfalso.
          assert (Hx : existsb (fun i => negb (existsb (Nat.eqb i) F)) Fc = true).
          { apply existsb_exists. exists i. split; [exact Hi|]. apply negb_true_iff. destruct (existsb (Nat.eqb i) F) eqn:E; [|reflexivity].
            apply existsb_exists in E. destruct E as [k [Hk Hik]]. apply Nat.eqb_eq in Hik. subst k. contradiction. }
          congruence. }
        apply NoDup_incl_length in Hincl; [lia|exact N2].
    - exists i. split; [auto|tauto].
    - exists j. split; [apply I1; rewrite E; apply in_or_app; right; left; reflexivity|]. intros Hc. apply Hn, Hc. rewrite E. apply in_or_app. right; left; reflexivity.
  Qed.
  Lemma history_fresh : forall seen F b L, Inv' F b (Some L) -> history seen F b (Some L) ->
    ~ In (code F b) (map (fun c : config => code (fst (fst c)) (snd (fst c))) seen).
  Proof.
    intros seen F b L HI [_ Hh] Hin. pose proof HI as [HF [Hb [_ [x [g [H1 [H2 [H3 _]]]]]]]].
    apply in_map_iff in Hin. destruct Hin as [[[Fc bc] lc] [E Hc]]. cbn [fst snd] in E. destruct (Hh Fc bc lc Hc) as [HFc [Hbc [Hdead [Hle Hmv]]]].
    pose proof (code_eq Fc bc F b E Hbc Hb) as Hsame.
    destruct (Rle_lt_or_eq_dec L lc Hle) as [Hlt|Heq].
    - apply (Hdead L Hlt). apply (valid_same F b Fc bc L HF HFc); [|exists x, g; auto].
      intros i Hi. destruct (Hsame i Hi) as [S1 S2]. split; [tauto|]. intros Hn. symmetry. apply S2. tauto.
    - destruct (moved_differs F b L Fc HF HFc (Hmv (eq_sym Heq))) as [i [Hi Hd]]. apply Hd. destruct (Hsame i Hi) as [S1 _]. tauto.
  Qed.
  Lemma history_next : forall seen f w last f' w' l, Inv' f (vec w) last -> length w = n -> history seen f (vec w) last ->
    (last = None -> seen = []) -> upto last l -> (forall lam, l <= lam -> upto last lam -> valid' f (vec w) lam) ->
    turned' f w last f' w' l -> l <> 0 -> history ((f, vec w, l) :: seen) f' (vec w') (Some l).
  Proof.
    intros seen f w last f' w' l HI Hw Hh Hnone Hup Hv Ht Hl. pose proof HI as [Hf [Hb _]]. pose proof Hf as [_ [Hnd Hin]]. split.
    - cbn [map fst snd]. destruct last as [L|].
      + constructor; [|apply Hh]. apply (history_fresh seen f (vec w) L HI Hh).
      + rewrite (Hnone eq_refl). constructor; [intros []|constructor].
    - intros Fc bc lc Hc. destruct Hc as [Hc|Hc].
      + injection Hc as <- <- <-. split; [exact Hf|]. split; [exact Hb|].
        destruct Ht as [g H1 H2 H3 H4|j g H1 H2 H3 H4 H5 H6 H7 H8|i b H1 H2 H3 H4 H5 H6 H7 H8 H9].
        * contradiction.
        * split; [apply (dead_out f (vec w) j l last); auto|]. split; [lra|]. intros _. right. right. exists j. split; [exact H1|]. split; [exact H3|].
          intros bi Hci. apply (inward f (vec w) j l last Hf Hb H2 H3 H5 H4 Hv bi). rewrite <- H1.
          destruct Hci as [kap [K1 [K2 K3]]]. exists kap. split; [exact K1|]. split; [exact K2|]. intros lam x gx Hx. apply (K3 lam x gx).
          apply (sol_ext mean cov f' (vec w)); [|exact Hx]. intros q Hq Hqf. symmetry. destruct H6 as [_ H6]. apply H6, Hqf.
        * split; [apply (dead_in f (vec w) i l b); auto|]. split; [lra|]. intros _. left. rewrite H3. pose proof (remove_first_length i f H1). lia.
      + destruct Hh as [_ Hh]. destruct (Hh Fc bc lc Hc) as [HFc [Hbc [Hdead Hm]]]. split; [exact HFc|]. split; [exact Hbc|]. split; [exact Hdead|].
        destruct last as [L|]; [|contradiction]. destruct Hm as [Hle Hmv]. cbn [upto] in Hup. split; [lra|]. intros El. assert (EL : L = l) by lra. assert (Elc : lc = L) by lra. specialize (Hmv Elc).
        destruct Ht as [g H1 H2 H3 H4|j g H1 H2 H3 H4 H5 H6 H7 H8|i b H1 H2 H3 H4 H5 H6 H7 H8 H9]; [contradiction|cbn in H4; lra|].
        pose proof (remove_first_length i f H1) as Hlen. destruct Hmv as [Hx|[[Hx _]|[j [Ej [Hj Hin']]]]].
        * left. rewrite H3. lia.
        * left. rewrite H3. lia.
        * right. left. assert (Hij : i <> j) by (intros ->; apply (Hin' b); rewrite EL; exact H4).
          rewrite H3. split; [rewrite Ej, app_length in Hlen; cbn in Hlen; rewrite Ej; lia|]. exists i. split.
          -- rewrite Ej in H1. apply in_app_or in H1. destruct H1 as [H1|[H1|[]]]; [exact H1|congruence].
          -- rewrite remove_first_in by exact Hnd. tauto.
  Qed.

  Theorem loop_total : forall fuel f w last seen pts, Inv' f (vec w) last -> length w = n -> history seen f (vec w) last -> (last = None -> seen = []) ->
    (3 ^ n <= length seen + fuel)%nat -> exists pts', loop inv ord mean cov lb ub false fuel f w last pts = (pts', Ok tt).
  Proof.
    induction fuel as [|fuel IH]; intros f w last seen pts HI Hw Hh Hnone Hfuel.
    - exfalso. assert (Hincl : incl (map (fun c : config => code (fst (fst c)) (snd (fst c))) ((f, vec w, 0) :: seen)) (codes n)).
      { intros c Hc. apply in_map_iff in Hc. destruct Hc as [[[F b] l] [<- _]]. apply code_in. }
      apply NoDup_incl_length in Hincl.
      + rewrite map_length, codes_length in Hincl. cbn [length] in Hincl. lia.
      + cbn [map fst snd]. constructor; [|apply Hh]. destruct last as [L|]; [apply (history_fresh seen f (vec w) L HI Hh)|]. rewrite (Hnone eq_refl). intros [].
    - cbn [loop]. destruct (step_total f w last HI Hw) as [f' [w' [p Es]]]. rewrite Es.
      destruct (step_turned mean cov lb ub Hpd Hsym Hbox inv ord Hinv Hord GP f w last f' w' p HI Hw Es) as [l [E1 [E2 [E3 [Hw' [Hl [Hup [Hv Ht]]]]]]]].
      rewrite E2. runfold. destruct (Reqb l 0) eqn:Er; rprop; [eauto|].
      apply (IH f' w' (Some l) ((f, vec w, l) :: seen)).
      + apply (turned_next _ _ _ _ _ _ Ht Er).
      + exact Hw'.
      + apply (history_next seen f w last f' w' l HI Hw Hh Hnone Hup Hv Ht Er).
      + discriminate.
      + cbn [length]. lia.
  Qed.
End Whole.
