(** * Tickers in another order: the greedy allocation (C128) *)
From Coq Require Import ZArith QArith Qreals List String Bool Reals Lra Lia Permutation Sorted.
From Verif Require Import Num Py RBase PyLemmas MAlloc SAlloc QRBase PAllocQ PAllocW.
Import ListNotations.
Local Open Scope R_scope.

Section Greedy.
  Variable N : Num R.
  Hypothesis HN : @nleb R N = Rleb.

  Let heavier (a b : label * R) : Prop := @nleb R N (snd b) (snd a) = true.

  Lemma heavier_le : forall a b, heavier a b <-> snd b <= snd a.
  Proof. intros a b. unfold heavier. rewrite HN. apply Rleb_true. Qed.
  Lemma heavier_total : forall a b, @nleb R N (snd b) (snd a) = false -> heavier b a.
  Proof. intros a b H. rewrite HN in H. apply heavier_le. destruct (Rle_lt_dec (snd a) (snd b)) as [G|G]; [exact G|]. apply Rlt_le in G. apply Rleb_true in G. congruence. Qed.

  (** two sorted lists with the same entries and no two equal weights *)
  Lemma sorted_unique : forall l l', StronglySorted heavier l -> StronglySorted heavier l' -> Permutation l l' -> NoDup (map snd l) -> l = l'.
  Proof.
    induction l as [|a l IH]; intros l' S S' P D.
    - apply Permutation_nil in P. congruence.
    - destruct l' as [|b l']; [symmetry in P; apply Permutation_nil in P; discriminate|].
      inversion S as [|? ? S1 F1]; subst. inversion S' as [|? ? S2 F2]; subst. inversion D as [|? ? D1 D2]; subst.
      assert (E : a = b).
      { assert (Ib : In b (a :: l)) by (apply (Permutation_in b (Permutation_sym P)); left; reflexivity).
        assert (Ia : In a (b :: l')) by (apply (Permutation_in a P); left; reflexivity).
        destruct Ib as [->|Ib]; [reflexivity|]. destruct Ia as [->|Ia]; [reflexivity|].
        rewrite Forall_forall in F1, F2. apply F1 in Ib as Hb. apply F2 in Ia as Ha. apply heavier_le in Hb. apply heavier_le in Ha.
        exfalso. apply D1. replace (snd a) with (snd b) by lra. apply in_map. exact Ib. }
      subst b. f_equal. apply IH; try assumption. eapply Permutation_cons_inv, P.
  Qed.

  Lemma sort_unique : forall w w', Permutation w w' -> NoDup (map snd w) -> @sort_weights R N w = @sort_weights R N w'.
  Proof.
    intros w w' P D. unfold sort_weights.
    assert (T : Relations_1.Transitive heavier) by (intros a b c Ha Hb; apply heavier_le in Ha; apply heavier_le in Hb; apply heavier_le; lra).
    apply sorted_unique.
    - apply Sorted_StronglySorted; [exact T|]. apply isort_sorted. intros a b H. apply heavier_total. exact H.
    - apply Sorted_StronglySorted; [exact T|]. apply isort_sorted. intros a b H. apply heavier_total. exact H.
    - rewrite !isort_perm. exact P.
    - eapply Permutation_NoDup; [|exact D]. apply Permutation_map. symmetry. apply isort_perm.
  Qed.

  Section Prices.
    Variables ps ps' : dict R.
    Hypothesis Hps : forall t, dget t ps = dget t ps'.

    Lemma dgetE_same : forall t, dgetE t ps = dgetE t ps'.
    Proof. intros t. unfold dgetE. rewrite Hps. reflexivity. Qed.
    Lemma first_same : forall total w av, @first_round R N ps total w av = @first_round R N ps' total w av.
    Proof.
      intros total. induction w as [|[t x] w IH]; intros av; [reflexivity|]. cbn [first_round]. rewrite dgetE_same.
      destruct (dgetE t ps') as [pr|]; [|reflexivity]. cbn [rbind]. destruct (neqb pr n0); [reflexivity|]. destruct (nleb _ av); [|reflexivity]. rewrite IH. reflexivity.
    Qed.
    Lemma inner_same : forall fuel w av d i pr c, @inner R N fuel w ps av d i pr c = @inner R N fuel w ps' av d i pr c.
    Proof.
      induction fuel as [|fuel IH]; intros w av d i pr c; [reflexivity|]. cbn [inner]. destruct (nltb av pr); [|reflexivity].
      destruct (_ || _); [reflexivity|]. destruct (nth_error w _) as [[t x]|]; [|reflexivity]. rewrite dgetE_same. destruct (dgetE t ps'); [|reflexivity]. cbn [rbind]. apply IH.
    Qed.
    Lemma second_same : forall fuel ip w bp ss av, @second_round R N fuel ip w ps bp ss av = @second_round R N fuel ip w ps' bp ss av.
    Proof.
      induction fuel as [|fuel IH]; intros ip w bp ss av; [reflexivity|]. cbn [second_round]. destruct (nltb n0 av); [|reflexivity]. destruct ip; [reflexivity|].
      destruct (deficits w bp ss) as [df|]; [|reflexivity]. cbn [rbind]. destruct (nth_error w _) as [[t x]|]; [|reflexivity]. rewrite dgetE_same.
      destruct (dgetE t ps') as [pr|]; [|reflexivity]. cbn [rbind]. rewrite inner_same. destruct (inner inner_fuel w ps' av df (argmax df) pr 0) as [[[[d' i'] p'] c]|]; [|reflexivity].
      cbn [rbind]. destruct (_ || _); [reflexivity|]. apply IH.
    Qed.
    Lemma select_same : forall ks, select_prices ps ks = select_prices ps' ks.
    Proof. induction ks as [|k ks IH]; [reflexivity|]. unfold select_prices in *. cbn [mapM]. rewrite dgetE_same, IH. reflexivity. Qed.
  End Prices.

  Theorem greedy_reordered : forall fuel d d' r, Permutation (da_weights d) (da_weights d') -> NoDup (map snd (da_weights d)) ->
    (forall t, dget t (da_prices d) = dget t (da_prices d')) -> da_int d = da_int d' -> da_total d = da_total d' -> da_short_ratio d = da_short_ratio d' ->
    snd (@greedy_portfolio R N fuel d r) = snd (@greedy_portfolio R N fuel d' r).
  Proof.
    intros fuel d d' r P D Hps Hi Ht Hr. unfold greedy_portfolio. remember 1%nat as k eqn:Ek. cbn [greedy_at].
    rewrite (sort_unique _ _ P D). cbn [set_weights_da da_weights da_prices da_int da_total da_short_ratio]. set (w := @sort_weights R N (da_weights d')).
    destruct (last_weight w) as [wl|]; [|reflexivity]. destruct (nltb wl n0).
    - rewrite Ht, Hr. unfold sub_da. cbn [set_weights_da da_weights da_prices da_int].
      destruct (normalise (longs_of w)) as [lo|]; [|reflexivity]. destruct (normalise (shorts_of w)) as [sh|]; [|reflexivity]. cbn [rbind].
      rewrite !(select_same _ _ Hps). rewrite Hi. 
      match goal with |- snd (match ?a with Ok _ => _ | Err _ => _ end) = _ => destruct a as [[al x]|]; reflexivity end.
    - unfold greedy_long. cbn [set_weights_da da_weights da_prices da_int da_total]. rewrite (first_same _ _ Hps), Ht, Hi.
      destruct (first_round (da_prices d') (da_total d') w (da_total d')) as [[[av ss] bp]|]; [|reflexivity]. cbn [rbind]. rewrite (second_same _ _ Hps).
      destruct (second_round fuel (da_int d') w (da_prices d') bp ss av) as [[av' ss']|]; reflexivity.
  Qed.
End Greedy.

(** ** Equal weights: the ticker listed first is bought *)
Definition tie_q : @da Q := mkDA [(L "A", 1#2); (L "B", 1#2)] [(L "A", 6#1); (L "B", 6#1)] false (10#1) 0%Q None.
Definition tie_q' : @da Q := mkDA [(L "B", 1#2); (L "A", 1#2)] [(L "A", 6#1); (L "B", 6#1)] false (10#1) 0%Q None.
Definition tie : @da R := qda tie_q.
Definition tie' : @da R := qda tie_q'.
Lemma tie_run : forall r, snd (greedy_portfolio 5 tie r) = Ok ([(L "A", 1%Z)], 4) /\ snd (greedy_portfolio 5 tie' r) = Ok ([(L "B", 1%Z)], 4).
Proof.
  intros r. split.
  - unfold tie. rewrite greedy_QR; [|reflexivity]. assert (E : snd (@greedy_portfolio Q QNum 5 tie_q r) = Ok ([(L "A", 1%Z)], 4#1)) by (destruct r; vm_compute; reflexivity).
    rewrite E. simpl. do 2 f_equal. unfold Q2R; simpl; lra.
  - unfold tie'. rewrite greedy_QR; [|reflexivity]. assert (E : snd (@greedy_portfolio Q QNum 5 tie_q' r) = Ok ([(L "B", 1%Z)], 4#1)) by (destruct r; vm_compute; reflexivity).
    rewrite E. simpl. do 2 f_equal. unfold Q2R; simpl; lra.
Qed.
