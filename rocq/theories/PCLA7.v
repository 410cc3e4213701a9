(** * Critical line algorithm: one step of the run *)
From Coq Require Import ZArith List Bool Reals Lra Lia Permutation.
From Verif Require Import Num Py MBase MCLA SLin SCLA SBL RBase PyLemmas Sums Mat PBase PCov1 PBL1 PBL2 PCLA1 PCLA2 PCLA3 PCLA4 PCLA5 PCLA6.
Import ListNotations.
Local Open Scope R_scope.

Lemma remove_first_in : forall i f, NoDup f -> forall k, In k (remove_first i f) <-> In k f /\ k <> i.
Proof.
  intros i f. induction f as [|a f IH]; intros Hn k; [cbn; tauto|]. inversion Hn; subst. cbn [remove_first].
  destruct (Nat.eqb_spec a i) as [->|Hne].
  - split; [intros H; split; [right; exact H|intros ->; contradiction]|]. intros [[H|H] Hk]; [congruence|exact H].
  - cbn [In]. rewrite IH by assumption. split; [intros [->|[H Hk]]; auto|]. intros [[H|H] Hk]; auto.
Qed.
Lemma remove_first_nodup : forall i f, NoDup f -> NoDup (remove_first i f).
Proof.
  intros i f. induction f as [|a f IH]; intros Hn; [constructor|]. inversion Hn; subst. cbn [remove_first].
  destruct (Nat.eqb_spec a i); [assumption|]. constructor; [|apply IH; assumption]. rewrite remove_first_in by assumption. tauto.
Qed.
Lemma remove_first_length : forall i f, In i f -> Datatypes.S (length (remove_first i f)) = length f.
Proof.
  intros i f. induction f as [|a f IH]; intros H; [contradiction|]. cbn [remove_first]. destruct (Nat.eqb_spec a i) as [|Hne]; [reflexivity|].
  cbn [length]. f_equal. apply IH. destruct H; [contradiction|assumption].
Qed.
Lemma remove_first_free : forall n i f, free_set n f -> In i f -> (2 <= length f)%nat -> free_set n (remove_first i f).
Proof.
  intros n i f [H1 [H2 H3]] Hi Hl. pose proof (remove_first_length i f Hi). split; [destruct (remove_first i f); [cbn in *; lia|discriminate]|].
  split; [apply remove_first_nodup, H2|]. intros k Hk. apply H3. apply remove_first_in in Hk; tauto.
Qed.

Section Step.
  Variables (mean : list R) (cov : list (list R)) (lb ub : list R).
  Notation n := (length mean).
  Hypotheses (Hpd : pos_def n cov) (Hsym : symmetric n cov) (Hbox : boxes n lb ub).
  Notation S := (entry cov).
  Notation mu := (vec mean).
  Notation sol' := (sol n S mu).
  Notation Inv' := (Inv n S mu (vec lb) (vec ub)).
  Notation valid' := (valid n S mu (vec lb) (vec ub)).
  Notation in_cand' := (in_cand n S mu (vec lb) (vec ub)).
  Notation out_cand' := (out_cand n S mu).
  Let Hsq : square n cov := proj1 Hpd.
  Let Spd : posdef n S := pos_def_posdef n cov Hpd.
  Let Hex := path_exists mean cov Hpd Hsym.
  Let Hlu : forall i, (i < n)%nat -> vec lb i <= vec ub i.
  Proof. intros i Hi. destruct Hbox as [H1 [H2 H3]]. apply Forall2_nth in H3. apply H3. lia. Qed.

  (** ** From multipliers to optimality *)
  Lemma feasible_vec : forall w, feasible lb ub w <-> length w = n /\ sumn n (vec w) = 1 /\ forall i, (i < n)%nat -> vec lb i <= vec w i <= vec ub i.
  Proof.
    intros w. destruct Hbox as [H1 [H2 _]]. unfold feasible. rewrite !Forall2_nth. split.
    - intros [A [[B1 B2] [C1 C2]]]. assert (Hw : length w = n) by congruence. split; [exact Hw|]. split; [rewrite <- (total_vec n w Hw); exact A|].
      intros i Hi. split; [apply B2; lia|apply C2; lia].
    - intros [Hw [A B]]. rewrite (total_vec n w Hw). split; [exact A|]. split; (split; [congruence|]); intros i Hi; apply B; lia.
  Qed.
  Lemma sol_optimal : forall F b lam w g, free_set n F -> length w = n -> sol' F b lam (vec w) g -> inbox (vec lb) (vec ub) F (vec w) ->
    sides n S mu (vec lb) (vec ub) F b lam (vec w) g -> (forall k, (k < n)%nat -> ~ In k F -> b k = vec lb k \/ b k = vec ub k) ->
    optimal_at mean cov lb ub lam w.
  Proof.
    intros F b lam w g HF Hw Hs Hi Hsd Hb.
    destruct (valid_optimal n S mu (vec lb) (vec ub) Hsym Spd Hlu F b lam (vec w) g Hs Hi Hsd Hb) as [A B]. split.
    - apply feasible_vec. split; [exact Hw|]. split; [apply Hs|exact A].
    - intros v Hv. apply feasible_vec in Hv. destruct Hv as [Lv [Sv Bv]]. specialize (B (vec v) Sv Bv).
      rewrite !(qform_bil n) by assumption. rewrite !(inner_vec n) by auto. exact B.
  Qed.
  Lemma valid_sol : forall F b lam w g, free_set n F -> length w = n -> valid' F b lam -> sol' F b lam (vec w) g ->
    inbox (vec lb) (vec ub) F (vec w) /\ sides n S mu (vec lb) (vec ub) F b lam (vec w) g.
  Proof.
    intros F b lam w g HF Hw [x [g' [Hx [Hi Hs]]]] Hw'. pose proof HF as [Hne [_ Hin]].
    destruct (sol_unique n S mu Spd F b lam x g' (vec w) g Hne Hin Hx Hw') as [Hxx ->]. split.
    - intros i Hi'. rewrite Hxx by (apply Hin, Hi'). apply Hi, Hi'.
    - intros j Hj Hn. unfold nu. rewrite (ap_ext n S (vec w) x) by exact Hxx. apply Hs; assumption.
  Qed.

  (** ** The general position hypothesis on functions *)
  Lemma sol_of_fun : forall F b lam x g, sol' F b lam x g -> sol' F b lam (vec (of_fun n x)) g.
  Proof.
    intros F b lam x g [A [B C]]. assert (E : forall i, (i < n)%nat -> vec (of_fun n x) i = x i) by (intros; apply vec_of_fun; assumption).
    split; [|split].
    - intros i Hi Hn. rewrite E by exact Hi. auto.
    - rewrite (sumn_ext n _ x) by exact E. exact B.
    - intros i Hi. rewrite (ap_ext n S _ x) by exact E. auto.
  Qed.
  Lemma untied_gpos : untied mean cov lb ub -> gpos n S mu (vec lb) (vec ub).
  Proof.
    intros U F b lam x g i j HF Hb Hl Hx Hi Hs Hin Hjn Hif Hjf Hzi Hzj. set (w := of_fun n x).
    assert (Lw : length w = n) by apply of_fun_length. pose proof HF as [_ [_ HFin]].
    assert (E : forall i, (i < n)%nat -> vec w i = x i) by (intros; apply vec_of_fun; assumption).
    pose proof (sol_of_fun F b lam x g Hx) as Hw. fold w in Hw.
    assert (Hw2 : inbox (vec lb) (vec ub) F (vec w) /\ sides n S mu (vec lb) (vec ub) F b lam (vec w) g).
    { apply valid_sol; auto. exists x, g. auto. }
    apply (U F lam g w i j); auto.
    - apply (sol_optimal F b lam w g); tauto.
    - intros k Hk Hkn. rewrite Lw in Hk. change (nth k w 0) with (vec w k). rewrite E by exact Hk. destruct Hx as [A _]. rewrite A by assumption. apply Hb; assumption.
    - apply (sol_list mean cov Hpd F b lam w g Lw HF). exact Hw.
    - rewrite <- (ap_inner mean cov Hpd w i Lw Hin). rewrite (ap_ext n S _ x) by exact E. unfold nu in Hzi. unfold vec in *. lra.
    - rewrite <- (ap_inner mean cov Hpd w j Lw Hjn). rewrite (ap_ext n S _ x) by exact E. unfold nu in Hzj. unfold vec in *. lra.
  Qed.

  (** ** One step *)
  Section Oracles.
    Variables (inv : list (list R) -> res (list (list R))) (ord : list nat -> list nat).
    Hypotheses (Hinv : sound_inverse inv) (Hord : set_order ord).
    Hypothesis GP : gpos n S mu (vec lb) (vec ub).

    (** what happens in one turn of the loop *)
    Inductive turned (f : list nat) (w : list R) (last : option R) (f' : list nat) (w' : list R) (l : R) : Prop :=
    | turned_end : forall g, l = 0 -> f' = f -> agrees_off f w' w -> sol' f (vec w) 0 (vec w') g -> turned f w last f' w' l
    | turned_out : forall j g, f' = f ++ [j] -> (j < n)%nat -> ~ In j f -> below last l -> out_cand' f (vec w) j l ->
        agrees_off f' w' w -> sol' f' (vec w) l (vec w') g -> Inv' f' (vec w') (Some l) -> turned f w last f' w' l
    | turned_in : forall i b, In i f -> (2 <= length f)%nat -> f' = remove_first i f -> in_cand' f (vec w) i (Some (l, b)) ->
        nth i w' 0 = b -> (forall k, k <> i -> ~ In k f' -> nth k w' 0 = nth k w 0) -> total w' = 1 - nth i w 0 + b ->
        (b = nth i w 0 -> exists g, sol' f' (vec w') l (vec w') g) -> Inv' f' (vec w') (Some l) -> turned f w last f' w' l.

    Lemma next_event_spec : forall li lo ev, next_event li lo = Ok ev ->
      match ev with
      | EvEnd => (forall l i b, li = Some (l, i, b) -> l < 0) /\ (forall l j, lo = Some (l, j) -> l < 0)
      | EvIn l i b => li = Some (l, i, b) /\ 0 <= l /\ (forall l' j, lo = Some (l', j) -> l' < l)
      | EvOut l j => lo = Some (l, j) /\ 0 <= l /\ (forall l' i b, li = Some (l', i, b) -> l' <= l)
      end.
    Proof.
      intros li lo ev E. unfold next_event in E. destruct li as [[[a i] b]|], lo as [[c j]|]; cbn [option_map fst none_or_negative above andb] in E; runfold.
      - destruct (Rltb a 0 && Rltb c 0) eqn:Eb.
        + injection E as <-. apply andb_prop in Eb. destruct Eb. rprop. split; intros; congruence.
        + apply andb_false_iff in Eb. destruct (Rltb c a) eqn:Er; injection E as <-; rprop.
          * split; [reflexivity|]. split; [destruct Eb; rprop; lra|]. intros l' j' H'. injection H' as <- <-. lra.
          * split; [reflexivity|]. split; [destruct Eb; rprop; lra|]. intros l' i' b' H'. injection H' as <- <- <-. lra.
      - rewrite andb_true_r in E. destruct (Rltb a 0) eqn:Eb; injection E as <-; rprop.
        + split; intros; congruence.
        + split; [reflexivity|]. split; [lra|discriminate].
      - destruct (Rltb c 0) eqn:Eb; injection E as <-; rprop.
        + split; intros; congruence.
        + split; [reflexivity|]. split; [lra|discriminate].
      - injection E as <-. split; discriminate.
    Qed.

    (** bounds on the candidates, as found by the two cases *)
    Lemma bound_free_spec : forall f w r, free_set n f -> length w = n -> bound_free inv ord mean cov lb ub f w = Ok r ->
      (forall l i b, r = Some (l, i, b) -> (2 <= length f)%nat /\ In i f /\ in_cand' f (vec w) i (Some (l, b))) /\
      forall i, In i f -> exists c, in_cand' f (vec w) i c /\ match c with Some (l, _) => exists L I B, r = Some (L, I, B) /\ l <= L | None => True end.
    Proof.
      intros f w r Hf Hw E. unfold bound_free in E. destruct (Nat.ltb_spec 1 (length f)) as [Hl|Hl].
      - destruct (matrices inv ord mean cov f w) as [[[[P FB] mF] wB]|e] eqn:Em; [|discriminate]. cbn [rbind] in E. injection E as E.
        destruct (case_a_spec lb ub P FB mF wB f 0 None r E) as [A1 [A2 _]]. split.
        + intros l i b ->. split; [lia|]. destruct (A1 l i b eq_refl) as [Hx|[q [Hq Hc]]]; [discriminate|]. split; [apply (nth_error_In _ _ Hq)|].
          rewrite <- Hc. apply (in_candidate mean cov lb ub Hpd Hsym inv ord Hinv Hord f w P FB mF wB q i); auto.
        + intros i Hi. destruct (In_nth_error f i Hi) as [q Hq].
          exists (compute_lambda P FB mF wB q (BothBounds (nth i lb 0) (nth i ub 0))). split.
          * apply (in_candidate mean cov lb ub Hpd Hsym inv ord Hinv Hord f w P FB mF wB q i); auto.
          * destruct (compute_lambda P FB mF wB q _) as [[l b]|] eqn:Ec; [|exact I]. apply (A2 q i l b Hq Ec).
      - injection E as <-. split; [discriminate|]. intros i Hi. exists None. split; [|exact I].
        destruct f as [|a [|a' f]]; [contradiction| |cbn in Hl; lia]. destruct Hi as [->|[]].
        intros lam x g lam' x' g' Hx Hx'. assert (Hin : (i < n)%nat) by (apply Hf; left; reflexivity).
        apply (single_const n S mu i (vec w) lam x g lam' x' g' Hin Hx Hx'). exact Hin.
    Qed.
    Lemma free_bound_spec : forall f w last r, free_set n f -> length w = n -> free_bound inv ord mean cov f w last = Ok r ->
      (forall l j, r = Some (l, j) -> (j < n)%nat /\ ~ In j f /\ out_cand' f (vec w) j l /\ below last l) /\
      forall j, (j < n)%nat -> ~ In j f -> exists l, out_cand' f (vec w) j l /\ (below last l -> exists L J, r = Some (L, J) /\ l <= L).
    Proof.
      intros f w last r Hf Hw E. unfold free_bound, size in E. destruct (Nat.ltb_spec (length f) n) as [Hl|Hl].
      - assert (Hbs : forall i, In i (others ord n f) -> (i < n)%nat /\ ~ In i f) by (intros i Hi; apply (others_in ord n f i Hord), Hi).
        destruct (case_b_spec mean cov Hpd Hsym inv ord Hinv Hord f w last _ _ _ Hf Hw Hbs E) as [A1 [A2 _]]. split.
        + intros l j ->. destruct (A1 l j eq_refl) as [Hx|[Hj [Hc Hb]]]; [discriminate|]. destruct (Hbs j Hj). auto.
        + intros j Hj Hn. apply A2, (others_in ord n f j Hord). auto.
      - injection E as <-. split; [discriminate|]. intros j Hj Hn. exfalso. destruct Hf as [_ [Hnd Hin]].
        assert (Hincl : incl (j :: f) (seq 0 n)) by (intros k [<-|Hk]; apply in_seq; [lia|pose proof (Hin k Hk); lia]).
        apply NoDup_incl_length in Hincl; [|constructor; assumption]. rewrite seq_length in Hincl. cbn [length] in Hincl. lia.
    Qed.

    Theorem step_turned : forall f w last f' w' p, Inv' f (vec w) last -> length w = n ->
      step inv ord mean cov lb ub false f w w last = Ok (f', w', p) ->
      exists l, t_w p = w' /\ t_l p = Some l /\ t_f p = f' /\ length w' = n /\ 0 <= l /\ upto last l /\
        (forall lam, l <= lam -> upto last lam -> valid' f (vec w) lam) /\ turned f w last f' w' l.
    Proof.
      intros f w last f' w' p HI Hw E. unfold step in E. pose proof HI as [Hf [Hb HIl]]. pose proof Hf as [Hne [Hnd Hin]].
      destruct (bound_free inv ord mean cov lb ub f w) as [li|e] eqn:E1; [|discriminate]. cbn [rbind] in E.
      destruct (free_bound inv ord mean cov f w last) as [lo|e] eqn:E2; [|discriminate]. cbn [rbind] in E.
      destruct (next_event li lo) as [ev|e] eqn:E3; [|discriminate]. cbn [rbind] in E.
      destruct (after_event false ev f w) as [[f1 w1] l] eqn:E4.
      destruct (matrices inv ord mean cov f1 w) as [[[[P FB] mF] wB]|e] eqn:Em; [|discriminate]. cbn [rbind] in E.
      match type of E with rbind (compute_w P FB ?M wB l) _ = _ => set (mF' := M) in E end.
      destruct (compute_w P FB mF' wB l) as [[wF g]|e] eqn:Ew; [|discriminate]. cbn [rbind] in E. injection E as <- <- <-. cbn [t_w t_l t_f].
      destruct (bound_free_spec f w li Hf Hw E1) as [A1 A2]. destruct (free_bound_spec f w last lo Hf Hw E2) as [B1 B2].
      pose proof (next_event_spec li lo ev E3) as Hev.
      (* the configuration is valid down to l *)
      assert (Hl : 0 <= l /\ upto last l /\ (forall L i b, li = Some (L, i, b) -> L <= l) /\ (forall L j, lo = Some (L, j) -> L <= l)).
      { destruct ev as [|l0 i b|l0 j]; cbn [after_event] in E4; injection E4 as <- <- <-.
        - destruct Hev as [H1 H2]. change (@n0 R RNum) with 0. split; [lra|]. split; [|split].
          + destruct last as [L|]; cbn; [|exact I]. destruct HIl as [HL _]. exact HL.
          + intros L i b HL. specialize (H1 _ _ _ HL). lra.
          + intros L j HL. specialize (H2 _ _ HL). lra.
        - destruct Hev as [H1 [H2 H3]]. split; [exact H2|]. split; [|split].
          + destruct last as [L|]; cbn; [|exact I]. destruct (A1 _ _ _ H1) as [_ [Hi Hc]].
            apply (in_cand_upto n S mu (vec lb) (vec ub) f (vec w) L i l0 b HI Hi Hc).
          + intros L i' b' HL. rewrite H1 in HL. injection HL as <- <- <-. lra.
          + intros L j HL. specialize (H3 _ _ HL). lra.
        - destruct Hev as [H1 [H2 H3]]. split; [exact H2|]. split; [|split].
          + destruct (B1 _ _ H1) as [_ [_ [_ Hbl]]]. destruct last as [L|]; cbn in *; [lra|exact I].
          + intros L i b HL. apply (H3 _ _ _ HL).
          + intros L j' HL. rewrite H1 in HL. injection HL as <- <-. lra. }
      destruct Hl as [Hl0 [Hll [Hli Hlo]]].
      assert (Hvalid : forall lam, l <= lam -> upto last lam -> valid' f (vec w) lam).
      { apply (valid_down n S mu (vec lb) (vec ub) Spd Hex f (vec w) last l HI Hll).
        - intros i Hi. right. destruct (A2 i Hi) as [c [Hc Hle]]. exists c. split; [exact Hc|]. destruct c as [[lc bc]|]; [|exact I].
          destruct Hle as [L [I0 [B [HL Hle]]]]. specialize (Hli _ _ _ HL). lra.
        - intros j Hj Hn. destruct (B2 j Hj Hn) as [lc [Hc Hle]]. exists lc. split; [exact Hc|]. intros Hbl.
          destruct (Hle Hbl) as [L [J [HL Hle']]]. specialize (Hlo _ _ HL). lra. }
      exists l. split; [reflexivity|]. split; [reflexivity|]. split; [reflexivity|].
      assert (Hw1 : length w1 = n).
      { destruct ev as [|l0 i b|l0 j]; cbn [after_event] in E4; injection E4 as <- <- <-; auto. rewrite put_length. exact Hw. }
      split; [rewrite put_all_length; exact Hw1|]. split; [exact Hl0|]. split; [exact Hll|]. split; [exact Hvalid|].
      assert (Hvl : valid' f (vec w) l) by (apply Hvalid; [lra|exact Hll]).
      destruct ev as [|l0 i b|l0 j]; cbn [after_event] in E4; injection E4 as <- <- <-; cbn [n0 RNum] in *.
      - (* the end *)
        destruct (matrices_ok _ _ _ _ _ _ _ _ _ _ Em Hf) as [_ [_ [HmF _]]].
        assert (Lm : length mF' = length f) by (unfold mF'; rewrite repeat_length, HmF; apply pick_length).
        assert (LF : length wF = length f) by (apply (compute_w_length inv ord mean cov f w P FB mF wB mF' 0 wF g); auto).
        destruct (put_all_split f wF w Hnd (eq_sym LF)) as [S1 S2]; [intros k Hk; rewrite Hw; auto|].
        destruct (point_solves inv ord mean cov f w P FB mF wB mF' 0 wF g (put_all false f wF w)) as [T1 T2]; auto; [rewrite put_all_length; exact Hw|].
        apply (turned_end f w last f _ 0 g); auto. apply (sol_list mean cov Hpd f (vec w) 0 _ g); [rewrite put_all_length; exact Hw|exact Hf|].
        split; [intros k _ Hk; destruct S2 as [_ S2]; apply S2, Hk|]. split; [exact T1|]. intros k Hk. destruct (In_nth_error f k Hk) as [q Hq].
        rewrite <- (T2 q k Hq). ring.
      - (* an asset reaches a bound *)
        destruct Hev as [H1 [H2 H3]]. destruct (A1 _ _ _ H1) as [Hlen [Hi Hc]].
        pose proof (remove_first_free n i f Hf Hi Hlen) as Hf1. pose proof Hf1 as [_ [Hnd1 Hin1]].
        destruct (matrices_ok _ _ _ _ _ _ _ _ _ _ Em Hf1) as [_ [_ [HmF _]]].
        assert (Lm : length mF' = length (remove_first i f)) by (unfold mF'; rewrite HmF; apply pick_length).
        assert (LF : length wF = length (remove_first i f)) by (apply (compute_w_length inv ord mean cov _ w P FB mF wB mF' l0 wF g); auto).
        set (f1 := remove_first i f) in *. set (w1 := put false i b w) in *.
        destruct (put_all_split f1 wF w1 Hnd1 (eq_sym LF)) as [S1 [S2 S3]]; [intros k Hk; rewrite Hw1; auto|].
        destruct (put_all_split f1 wF w Hnd1 (eq_sym LF)) as [S1' S2']; [intros k Hk; rewrite Hw; auto|].
        destruct (point_solves inv ord mean cov f1 w P FB mF wB mF' l0 wF g (put_all false f1 wF w)) as [T1 T2]; auto; [rewrite put_all_length; exact Hw|].
        assert (Hif1 : ~ In i f1) by (unfold f1; rewrite remove_first_in by exact Hnd; tauto).
        assert (Hput : forall k, nth k w1 0 = if Nat.eqb k i then b else nth k w 0).
        { intros k. unfold w1, put. cbn [stored]. destruct (Nat.eqb_spec k i) as [->|Hki].
          - rewrite nth_list_set_same; [reflexivity|]. rewrite Hw. auto.
          - apply nth_list_set_other. auto. }
        set (w2 := put_all false f1 wF w1) in *.
        assert (Hw2i : nth i w2 0 = b) by (rewrite S3 by exact Hif1; rewrite Hput, Nat.eqb_refl; reflexivity).
        assert (Hoff : forall k, k <> i -> ~ In k f1 -> nth k w2 0 = nth k w 0).
        { intros k Hki Hk. rewrite S3 by exact Hk. rewrite Hput. destruct (Nat.eqb_spec k i); [contradiction|reflexivity]. }
        assert (Hmix : forall k, k <> i -> nth k w2 0 = nth k (put_all false f1 wF w) 0).
        { intros k Hki. destruct (in_dec Nat.eq_dec k f1) as [Hk|Hk]; [rewrite S1, S1' by exact Hk; reflexivity|].
          rewrite Hoff by assumption. destruct S2' as [_ S2']. rewrite S2' by exact Hk. reflexivity. }
        assert (Hstale : nth i (put_all false f1 wF w) 0 = nth i w 0) by (destruct S2' as [_ S2']; apply S2', Hif1).
        assert (Lw2 : length w2 = n) by (unfold w2; rewrite put_all_length; exact Hw1).
        assert (Htot : total w2 = 1 - nth i w 0 + b).
        { rewrite <- T1. rewrite !(total_vec n) by (auto; rewrite put_all_length; exact Hw).
          assert (E : sumn n (fun k => vec w2 k - vec (put_all false f1 wF w) k) = vec w2 i - vec (put_all false f1 wF w) i).
          { apply (sumn_single n (fun k => vec w2 k - vec (put_all false f1 wF w) k)); [auto|]. intros k Hk Hki. unfold vec. rewrite Hmix by exact Hki. ring. }
          rewrite sumn_minus in E. unfold vec at 3 4 in E. rewrite Hw2i, Hstale in E. lra. }
        apply (turned_in f w last f1 w2 l0 i b); auto.
        + intros Hbi. exists g. assert (Ew2 : w2 = put_all false f1 wF w).
          { apply nth_ext0; [rewrite !put_all_length; congruence|]. intros k _. destruct (Nat.eq_dec k i) as [->|Hki]; [|apply Hmix, Hki]. rewrite Hw2i, Hstale. exact Hbi. }
          apply (sol_list mean cov Hpd f1 (vec w2) l0 w2 g Lw2 Hf1). split; [reflexivity|]. rewrite Ew2. split; [exact T1|].
          intros k Hk. destruct (In_nth_error f1 k Hk) as [q Hq]. rewrite <- (T2 q k Hq). unfold mF'. rewrite HmF, (pick_nth mean f1 q k Hq). reflexivity.
        + apply (Inv_ext mean cov lb ub f1 (upd (vec w) i b)).
          * intros k Hk Hkf. unfold upd. destruct (Nat.eqb_spec k i) as [->|Hki]; [symmetry; exact Hw2i|]. symmetry. apply Hoff; assumption.
          * apply (event_in n S mu (vec lb) (vec ub) Spd Hex GP f f1 (vec w) l0 i b); auto.
            intros k. unfold f1. apply remove_first_in, Hnd.
      - (* an asset becomes free *)
        destruct Hev as [H1 [H2 H3]]. destruct (B1 _ _ H1) as [Hj [Hjf [Hc Hbl]]].
        pose proof (free_app n f j Hf Hj Hjf) as Hf1. pose proof Hf1 as [_ [Hnd1 Hin1]].
        destruct (matrices_ok _ _ _ _ _ _ _ _ _ _ Em Hf1) as [_ [_ [HmF _]]].
        destruct (weights_stationary inv ord mean cov (f ++ [j]) w P FB mF wB l0 wF g) as [S1 [S2 S3]]; auto.
        set (w2 := put_all false (f ++ [j]) wF w) in *. assert (Lw2 : length w2 = n) by (unfold w2; rewrite put_all_length; exact Hw).
        apply (turned_out f w last (f ++ [j]) w2 l0 j g); auto.
        + apply (sol_list mean cov Hpd (f ++ [j]) (vec w) l0 w2 g Lw2 Hf1). split; [intros k _ Hk; destruct S1 as [_ S1]; apply S1, Hk|]. auto.
        + apply (Inv_ext mean cov lb ub (f ++ [j]) (vec w)).
          * intros k _ Hk. symmetry. destruct S1 as [_ S1]. apply S1, Hk.
          * apply (event_out n S mu (vec lb) (vec ub) Spd Hex GP Hlu f (vec w) l0 j); auto.
    Qed.
  End Oracles.
End Step.
