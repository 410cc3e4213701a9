(** * Critical line algorithm: the first turning point *)
From Coq Require Import ZArith List Bool Reals Lra Lia Permutation Sorted.
From Verif Require Import Num Py MBase MCLA SLin SCLA RBase PyLemmas Sums Mat PBase.
Import ListNotations.
Local Open Scope R_scope.

Lemma Forall2_nth : forall (P : R -> R -> Prop) x y, Forall2 P x y <->
  length x = length y /\ forall i, (i < length x)%nat -> P (nth i x 0) (nth i y 0).
Proof.
  intros P. induction x as [|a x IH]; intros [|b y]; split; intros H.
  - split; [reflexivity|cbn; lia].
  - constructor.
  - inversion H.
  - destruct H; discriminate.
  - inversion H.
  - destruct H; discriminate.
  - inversion H; subst. apply IH in H5. destruct H5 as [Hl Hi]. split; [cbn; lia|].
    intros [|i] Hi'; cbn; [assumption|apply Hi; cbn in Hi'; lia].
  - destruct H as [Hl Hi]. constructor; [apply (Hi O); cbn; lia|]. apply IH. split; [cbn in Hl; lia|].
    intros i Hi'. apply (Hi (S i)); cbn; lia.
Qed.

Lemma Sorted_by_mean : forall mean l, Sorted (fun i j => by_mean mean i j = true) l ->
  StronglySorted (fun i j => nth i mean 0 <= nth j mean 0) l.
Proof.
  intros mean l H. apply Sorted_StronglySorted; [intros i j k; apply Rle_trans|].
  induction H as [|i l Hs IH Hd]; constructor; [exact IH|].
  destruct Hd as [|j l Hij]; constructor. unfold by_mean in Hij. runfold.
  destruct (Rltb (nth i mean 0) (nth j mean 0)) eqn:E1; [rprop; lra|].
  destruct (Rltb (nth j mean 0) (nth i mean 0)) eqn:E2; [discriminate|]. rprop. lra.
Qed.

Lemma mean_order_spec : forall mean : list R,
  Permutation (mean_order mean) (seq 0 (length mean)) /\
  StronglySorted (fun i j => nth i mean 0 <= nth j mean 0) (mean_order mean).
Proof.
  intros mean. split; [apply isort_perm|]. apply Sorted_by_mean. apply isort_sorted.
  intros i j. unfold by_mean. runfold.
  destruct (Rltb (nth i mean 0) (nth j mean 0)) eqn:E1; [discriminate|].
  destruct (Rltb (nth j mean 0) (nth i mean 0)) eqn:E2; [reflexivity|].
  rewrite Nat.leb_gt, Nat.leb_le. lia.
Qed.

Lemma StronglySorted_app : forall {X} (r : X -> X -> Prop) l1 a l2, StronglySorted r (l1 ++ a :: l2) ->
  (forall x, In x l1 -> r x a) /\ (forall x, In x l2 -> r a x).
Proof.
  intros X r. induction l1 as [|y l1 IH]; cbn; intros a l2 H.
  - apply StronglySorted_inv in H. destruct H as [_ H]. rewrite Forall_forall in H. split; [contradiction|exact H].
  - apply StronglySorted_inv in H. destruct H as [H1 H2]. destruct (IH a l2 H1) as [Ha Hb]. split; [|exact Hb].
    intros x [->|Hx]; [|apply Ha, Hx]. rewrite Forall_forall in H2. apply H2. rewrite in_app_iff. right; left; reflexivity.
Qed.

Lemma item_app : forall {X} (l1 : list X) a l2, item (length l1) (l1 ++ a :: l2) = Ok a.
Proof. intros X l1 a l2. unfold item. rewrite nth_error_app2, Nat.sub_diag by lia. reflexivity. Qed.
Lemma py_index_app : forall {X} (l1 : list X) a l2, py_index (l1 ++ a :: l2) (Z.of_nat (length l1)) = Ok a.
Proof.
  intros X l1 a l2. unfold py_index. rewrite (proj2 (Z.leb_le _ _)) by lia. rewrite Nat2Z.id. apply item_app.
Qed.

(** ** Filling *)
Section Fill.
  Variables (lb ub : list R) (isint : bool).
  Notation n := (length lb).
  Hypothesis Hlen : length ub = n.
  Definition top (j : nat) : R := stored isint (nth j ub 0).
  (** [w] has the assets of [post] at their upper bounds, the others at their lower bounds *)
  Definition represents (post : list nat) (w : list R) : Prop :=
    length w = n /\ forall j, (j < n)%nat -> nth j w 0 = if in_dec Nat.eq_dec j post then top j else nth j lb 0.

  Lemma represents_nil : represents [] lb.
  Proof. split; [reflexivity|]. intros j Hj. destruct (in_dec Nat.eq_dec j []) as [[]|]; reflexivity. Qed.
  Lemma represents_put : forall a post w, (a < n)%nat -> represents post w -> represents (a :: post) (put isint a (nth a ub 0) w).
  Proof.
    intros a post w Ha [Hl H]. split; [unfold put; rewrite list_set_length; exact Hl|]. intros j Hj.
    destruct (Nat.eq_dec a j) as [<-|Hne].
    - unfold put. rewrite nth_list_set_same by lia. destruct (in_dec Nat.eq_dec a (a :: post)) as [|Hc]; [reflexivity|destruct Hc; left; reflexivity].
    - unfold put. rewrite nth_list_set_other by exact Hne. rewrite H by exact Hj.
      destruct (in_dec Nat.eq_dec j post) as [Hi|Hi], (in_dec Nat.eq_dec j (a :: post)) as [Hi'|Hi']; try reflexivity.
      + destruct Hi'; right; exact Hi.
      + destruct Hi' as [He|Hi']; [congruence|contradiction].
  Qed.

  (** every vector met on the way down *)
  Lemma fill_ok : forall order, (forall j, In j order -> (j < n)%nat) ->
    (forall w, represents order w -> 1 <= total w) ->
    forall fuel pre post w, order = pre ++ post -> (length pre < fuel)%nat -> represents post w -> total w < 1 ->
    exists pre' a post' w0 w1, order = pre' ++ a :: post' /\
      fill fuel isint order ub (Z.of_nat (length pre)) w = Ok (Z.of_nat (length pre'), w1) /\
      represents post' w0 /\ total w0 < 1 /\ w1 = put isint a (nth a ub 0) w0 /\ 1 <= total w1.
  Proof.
    intros order Hin Hfull. induction fuel as [|fuel IH]; intros pre post w Ho Hf Hr Ht; [lia|].
    cbn [fill]. rewrite vsum_total. runfold. rewrite (proj2 (Rltb_true _ _) Ht).
    destruct (exists_last (l:=pre)) as [pre' [a Ha]].
    { intros ->. cbn in Ho. subst. specialize (Hfull w Hr). lra. }
    subst pre. rewrite app_length in *. cbn [length] in *.
    replace (Z.of_nat (length pre' + 1) - 1)%Z with (Z.of_nat (length pre')) by lia.
    rewrite <- app_assoc in Ho. cbn [app] in Ho. assert (Epi : py_index order (Z.of_nat (length pre')) = Ok a) by (rewrite Ho; apply py_index_app).
    rewrite Epi. cbn [rbind].
    assert (Han : (a < n)%nat) by (apply Hin; rewrite Ho, in_app_iff; right; left; reflexivity).
    pose proof (represents_put a post w Han Hr) as Hr'.
    destruct (Rlt_le_dec (total (put isint a (nth a ub 0) w)) 1) as [Hlt|Hge].
    - apply (IH pre' (a :: post)); auto. lia.
    - exists pre', a, post, w, (put isint a (nth a ub 0) w). destruct fuel as [|fuel]; [lia|].
      cbn [fill]. rewrite vsum_total. runfold. rewrite (proj2 (Rltb_false _ _) Hge). auto 10.
  Qed.

  (** the loop never finds enough *)
  Lemma fill_wrap : forall order w, (forall j, In j order -> (j < n)%nat) -> total w < 1 -> represents order w ->
    forall k fuel, (k <= length order)%nat -> (length order - k < fuel)%nat ->
    fill fuel isint order ub (- Z.of_nat k) w = Err IndexError.
  Proof.
    intros order w Hin Ht Hr k fuel Hk. remember (length order - k)%nat as m eqn:Hm. revert k fuel Hk Hm.
    induction m as [|m IH]; intros k fuel Hk Hm Hf; (destruct fuel as [|fuel]; [lia|]); cbn [fill]; rewrite vsum_total; runfold;
      rewrite (proj2 (Rltb_true _ _) Ht); unfold py_index; rewrite (proj2 (Z.leb_gt _ _)) by lia.
    - rewrite (proj2 (Z.leb_gt _ _)) by lia. reflexivity.
    - rewrite (proj2 (Z.leb_le _ _)) by lia. unfold item.
      destruct (nth_error order (Z.to_nat (Z.of_nat (length order) + (- Z.of_nat k - 1)))) as [a|] eqn:Ea.
      2:{ apply nth_error_None in Ea. lia. }
      cbn [rbind]. replace (- Z.of_nat k - 1)%Z with (- Z.of_nat (S k))%Z by lia.
      assert (Hput : put isint a (nth a ub 0) w = w).
      { apply nth_error_In in Ea. pose proof (Hin a Ea) as Ha. destruct Hr as [Hl Hr]. apply nth_ext0.
        - unfold put; rewrite list_set_length; reflexivity.
        - intros j Hj. unfold put in *. rewrite list_set_length in Hj. destruct (Nat.eq_dec a j) as [<-|Hne].
          + rewrite nth_list_set_same by lia. rewrite (Hr a Ha). destruct (in_dec Nat.eq_dec a order); [reflexivity|contradiction].
          + apply nth_list_set_other, Hne. }
      rewrite Hput. apply IH; lia.
  Qed.
  Lemma fill_short : forall order, (forall j, In j order -> (j < n)%nat) ->
    (forall post w, (exists pre, order = pre ++ post) -> represents post w -> total w < 1) ->
    forall fuel pre post w, order = pre ++ post -> (length order + length pre < fuel)%nat -> represents post w ->
    fill fuel isint order ub (Z.of_nat (length pre)) w = Err IndexError.
  Proof.
    intros order Hin Hsum. induction fuel as [|fuel IH]; intros pre post w Ho Hf Hr; [lia|].
    destruct pre as [|a0 pre0] eqn:Ep.
    { cbn in Ho. subst post. cbn [length]. change (Z.of_nat 0) with (- Z.of_nat 0)%Z. apply fill_wrap; auto; try lia.
      apply (Hsum order); [exists []; reflexivity|exact Hr]. }
    rewrite <- Ep in *. assert (Hne : pre <> []) by (rewrite Ep; discriminate). clear Ep a0 pre0.
    cbn [fill]. rewrite vsum_total. runfold.
    rewrite (proj2 (Rltb_true _ _) (Hsum post w (ex_intro _ pre Ho) Hr)).
    destruct (exists_last Hne) as [pre' [a Ha]]. subst pre. rewrite app_length in *. cbn [length] in *.
    replace (Z.of_nat (length pre' + 1) - 1)%Z with (Z.of_nat (length pre')) by lia.
    rewrite <- app_assoc in Ho. cbn [app] in Ho. assert (Epi : py_index order (Z.of_nat (length pre')) = Ok a) by (rewrite Ho; apply py_index_app).
    rewrite Epi. cbn [rbind].
    assert (Han : (a < n)%nat) by (apply Hin; rewrite Ho, in_app_iff; right; left; reflexivity).
    apply (IH pre' (a :: post)); auto; [lia|]. apply represents_put; assumption.
  Qed.
End Fill.

Lemma order_in : forall mean : list R, forall j, In j (mean_order mean) <-> (j < length mean)%nat.
Proof.
  intros mean j. destruct (mean_order_spec mean) as [Hp _].
  rewrite (Permutation_in' (eq_refl j) Hp), in_seq. lia.
Qed.
Lemma order_length : forall mean : list R, length (mean_order mean) = length mean.
Proof. intros mean. destruct (mean_order_spec mean) as [Hp _]. rewrite (Permutation_length Hp). apply seq_length. Qed.
Lemma order_nodup : forall mean : list R, NoDup (mean_order mean).
Proof.
  intros mean. destruct (mean_order_spec mean) as [Hp _]. apply (Permutation_NoDup (Permutation_sym Hp)), seq_NoDup.
Qed.

(** ** C47 *)
Lemma total_put : forall isint a v w, (a < length w)%nat ->
  total (put isint a v w) = total w + (stored isint v - nth a w 0).
Proof.
  intros isint a v w Ha. unfold put. generalize (stored isint v). clear v. intros v. revert a Ha.
  induction w as [|x w IH]; intros [|a] Ha; cbn in *; try lia; [lra|]. rewrite (IH a) by lia. lra.
Qed.

Theorem init_algo_ok : forall o : cla R, c_int o = false -> boxes (c_n o) (c_lb o) (c_ub o) ->
  total (c_lb o) < 1 -> 1 <= total (c_ub o) ->
  exists a w, init_algo o = Ok ([a], w) /\ (a < c_n o)%nat /\ length w = c_n o /\
    max_return (c_mean o) (c_lb o) (c_ub o) w /\ at_bounds_except a (c_lb o) (c_ub o) w /\
    (forall j, (j < c_n o)%nat -> j <> a ->
       (nth j w 0 = nth j (c_lb o) 0 /\ nth j (c_mean o) 0 <= nth a (c_mean o) 0) \/
       (nth j w 0 = nth j (c_ub o) 0 /\ nth a (c_mean o) 0 <= nth j (c_mean o) 0)).
Proof.
  intros o Hint [Hlb [Hub Hle]] H1 H2. unfold c_n in *. set (mean := c_mean o) in *. set (lb := c_lb o) in *. set (ub := c_ub o) in *.
  apply Forall2_nth in Hle. destruct Hle as [_ Hle].
  destruct (fill_ok lb ub false (eq_trans Hub (eq_sym Hlb)) (mean_order mean)) with (fuel := (2 * length mean + 2)%nat) (pre := mean_order mean) (post := @nil nat) (w := lb)
    as [pre [a [post [w0 [w1 [Ho [Hfill [Hr0 [Ht0 [Hw1 Ht1]]]]]]]]]].
  - intros j Hj. apply order_in in Hj. lia.
  - intros w [Hl Hw]. replace w with ub; [exact H2|]. apply nth_ext0; [lia|]. intros j Hj. rewrite Hw by lia.
    destruct (in_dec Nat.eq_dec j (mean_order mean)) as [|Hc]; [reflexivity|]. destruct Hc. apply order_in. lia.
  - symmetry. apply app_nil_r.
  - rewrite order_length. lia.
  - apply represents_nil.
  - exact H1.
  - assert (Ha : (a < length mean)%nat) by (apply order_in; rewrite Ho, in_app_iff; right; left; reflexivity).
    assert (Hnd := order_nodup mean). rewrite Ho in Hnd. apply NoDup_remove in Hnd. destruct Hnd as [_ Hna]. rewrite in_app_iff in Hna.
    destruct Hr0 as [Hl0 Hr0]. unfold top, stored in Hr0.
    assert (Hw0a : nth a w0 0 = nth a lb 0).
    { rewrite Hr0 by lia. destruct (in_dec Nat.eq_dec a post); [tauto|reflexivity]. }
    assert (Ht : total w1 = total w0 + (nth a ub 0 - nth a lb 0)).
    { rewrite Hw1, total_put by lia. cbn [stored]. lra. }
    assert (Hl1 : length w1 = length mean) by (rewrite Hw1; unfold put; rewrite list_set_length; lia).
    assert (Hw1a : nth a w1 0 = nth a ub 0).
    { rewrite Hw1. unfold put. rewrite nth_list_set_same by lia. reflexivity. }
    set (w := put false a (nth a w1 0 + (1 - total w1)) w1).
    assert (Hlw : length w = length mean) by (unfold w, put; rewrite list_set_length; exact Hl1).
    assert (Hwa : nth a w 0 = nth a ub 0 + (1 - total w1)).
    { unfold w, put. rewrite nth_list_set_same by lia. cbn [stored]. lra. }
    assert (Hwj : forall j, (j < length mean)%nat -> j <> a ->
      nth j w 0 = if in_dec Nat.eq_dec j post then nth j ub 0 else nth j lb 0).
    { intros j Hj Hne. unfold w, put. rewrite nth_list_set_other by auto. rewrite Hw1. unfold put. rewrite nth_list_set_other by auto.
      apply Hr0. lia. }
    destruct (mean_order_spec mean) as [_ Hs]. rewrite Ho in Hs. apply StronglySorted_app in Hs. destruct Hs as [Hpre Hpost].
    assert (Hfeas : feasible lb ub w).
    { split; [|split].
      - unfold w. rewrite total_put by lia. cbn [stored]. lra.
      - apply Forall2_nth. split; [lia|]. intros j Hj. destruct (Nat.eq_dec j a) as [->|Hne]; [lra|].
        rewrite Hwj by (auto; lia). specialize (Hle j Hj). destruct (in_dec Nat.eq_dec j post); lra.
      - apply Forall2_nth. split; [lia|]. intros j Hj. destruct (Nat.eq_dec j a) as [->|Hne]; [lra|].
        rewrite Hwj by (auto; lia). assert (nth j lb 0 <= nth j ub 0) by (apply Hle; lia). destruct (in_dec Nat.eq_dec j post); lra. }
    assert (Hin : forall j, (j < length mean)%nat -> j <> a -> In j pre \/ In j post).
    { intros j Hj Hne. apply (order_in mean) in Hj. rewrite Ho, in_app_iff in Hj. destruct Hj as [Hj|[Hj|Hj]]; [tauto|congruence|tauto]. }
    exists a, w. split; [|split; [exact Ha|split; [exact Hlw|split; [split; [exact Hfeas|]|]]]].
    + unfold init_algo, c_n. fold mean lb ub. rewrite Hint. rewrite <- (order_length mean) at 2. rewrite Hfill. cbn [rbind].
      assert (Epi : py_index (mean_order mean) (Z.of_nat (length pre)) = Ok a) by (rewrite Ho; apply py_index_app).
      rewrite Epi. cbn [rbind]. rewrite vsum_total. reflexivity.
    + intros v [Hv1 [Hv2 Hv3]]. apply Forall2_nth in Hv2. destruct Hv2 as [Hvl Hv2]. apply Forall2_nth in Hv3. destruct Hv3 as [Hvl3 Hv3].
      rewrite (inner_sumn v mean), (inner_sumn w mean) by lia. destruct Hfeas as [Hw _].
      rewrite total_sumn in Hv1, Hw. replace (length v) with (length mean) in * by lia. rewrite Hlw in *.
      apply Rminus_le.
      replace (sumn (length mean) (fun i => nth i v 0 * nth i mean 0) - sumn (length mean) (fun i => nth i w 0 * nth i mean 0))
        with (sumn (length mean) (fun i => (nth i v 0 - nth i w 0) * (nth i mean 0 - nth a mean 0))).
      2:{ rewrite <- sumn_minus. rewrite (sumn_ext _ _ (fun i => (nth i v 0 * nth i mean 0 - nth i w 0 * nth i mean 0) - (nth i v 0 - nth i w 0) * nth a mean 0)) by (intros; ring).
          rewrite sumn_minus, sumn_scal_r, (sumn_minus _ (fun i => nth i v 0)), Hv1, Hw. ring. }
      apply Ropp_le_cancel. rewrite Ropp_0, <- sumn_opp. apply sumn_nonneg. intros j Hj.
      destruct (Nat.eq_dec j a) as [->|Hne]; [lra|]. rewrite Hwj by assumption.
      assert (E : - ((nth j v 0 - (if in_dec Nat.eq_dec j post then nth j ub 0 else nth j lb 0)) * (nth j mean 0 - nth a mean 0)) =
        (if in_dec Nat.eq_dec j post then (nth j ub 0 - nth j v 0) * (nth j mean 0 - nth a mean 0)
         else (nth j v 0 - nth j lb 0) * (nth a mean 0 - nth j mean 0))) by (destruct (in_dec Nat.eq_dec j post); ring).
      rewrite E. destruct (in_dec Nat.eq_dec j post) as [Hp|Hp].
      * specialize (Hpost j Hp). assert (nth j v 0 <= nth j ub 0) by (apply Hv3; lia). apply Rmult_le_pos; lra.
      * destruct (Hin j Hj Hne) as [Hq|Hq]; [|contradiction]. specialize (Hpre j Hq).
        assert (nth j lb 0 <= nth j v 0) by (apply Hv2; lia). apply Rmult_le_pos; lra.
    + split.
      * intros j Hj Hne. rewrite Hwj by (auto; lia). destruct (in_dec Nat.eq_dec j post); auto.
      * intros j Hj Hne. rewrite Hwj by assumption. destruct (Hin j Hj Hne) as [Hq|Hq].
        -- left. destruct (in_dec Nat.eq_dec j post) as [Hp|Hp]; [|split; [reflexivity|apply Hpre, Hq]].
           exfalso. assert (Hnd := order_nodup mean). rewrite Ho in Hnd. apply NoDup_remove_1 in Hnd.
           revert Hnd. clear - Hq Hp. induction pre as [|p pre IH]; [contradiction|]. cbn. intros Hnd. inversion Hnd; subst.
           destruct Hq as [->|Hq]; [match goal with H : ~ In _ _ |- _ => apply H; rewrite in_app_iff; auto end|auto].
        -- right. destruct (in_dec Nat.eq_dec j post); [split; [reflexivity|apply Hpost, Hq]|contradiction].
Qed.

(** ** C48 *)
Theorem init_algo_low : forall o : cla R, 1 <= total (c_lb o) -> init_algo o = Err IndexError.
Proof.
  intros o H. unfold init_algo. replace (2 * c_n o + 2)%nat with (S (2 * c_n o + 1)) by lia. cbn [fill].
  rewrite vsum_total. runfold. rewrite (proj2 (Rltb_false _ _) H). cbn [rbind].
  unfold py_index. rewrite (proj2 (Z.leb_le _ _)) by lia. unfold item. rewrite Nat2Z.id.
  rewrite (proj2 (nth_error_None _ _)); [reflexivity|]. rewrite order_length. unfold c_n. lia.
Qed.

Lemma Rtrunc_le : forall x, 0 <= x -> 0 <= IZR (Rtrunc x) <= x.
Proof. intros x Hx. destruct (Rtrunc_nonneg x Hx) as [Hz Hb]. apply IZR_le in Hz. lra. Qed.

Theorem init_algo_short : forall o : cla R, boxes (c_n o) (c_lb o) (c_ub o) ->
  c_int o = false \/ Forall (fun x => 0 <= x) (c_ub o) -> total (c_ub o) < 1 -> init_algo o = Err IndexError.
Proof.
  intros o [Hlb [Hub Hle]] Hi H. unfold c_n in *. apply Forall2_nth in Hle. destruct Hle as [_ Hle].
  unfold init_algo, c_n. rewrite <- (order_length (c_mean o)) at 2.
  rewrite (fill_short (c_lb o) (c_ub o) (c_int o) (eq_trans Hub (eq_sym Hlb)) (mean_order (c_mean o))) with (post := @nil nat).
  - reflexivity.
  - intros j Hj. apply order_in in Hj. lia.
  - intros post w _ [Hl Hw]. eapply Rle_lt_trans; [|exact H]. rewrite !total_sumn, Hl, Hub, <- Hlb. apply sumn_le.
    intros j Hj. rewrite Hw by exact Hj. specialize (Hle j Hj). destruct (in_dec Nat.eq_dec j post); [|exact Hle].
    unfold top, stored. destruct (c_int o); [|apply Rle_refl]. runfold. destruct Hi as [|Hi]; [discriminate|].
    rewrite Forall_forall in Hi. apply Rtrunc_le, Hi, nth_In. lia.
  - symmetry. apply app_nil_r.
  - rewrite order_length. lia.
  - apply represents_nil.
Qed.

(** integer bounds: a fractional upper bound below one can never be reached *)
Theorem init_algo_int_short : forall o : cla R, boxes (c_n o) (c_lb o) (c_ub o) ->
  c_int o = true -> Forall (fun x => x = 0) (c_lb o) -> Forall (fun x => 0 <= x < 1) (c_ub o) -> init_algo o = Err IndexError.
Proof.
  intros o [Hlb [Hub Hle]] Hi H0 Hu. unfold c_n in *.
  unfold init_algo, c_n. rewrite <- (order_length (c_mean o)) at 2.
  rewrite (fill_short (c_lb o) (c_ub o) (c_int o) (eq_trans Hub (eq_sym Hlb)) (mean_order (c_mean o))) with (post := @nil nat).
  - reflexivity.
  - intros j Hj. apply order_in in Hj. lia.
  - intros post w _ [Hl Hw]. replace (total w) with 0; [lra|]. symmetry. rewrite total_sumn, Hl. apply sumn_zero.
    intros j Hj. rewrite Hw by exact Hj. rewrite Forall_forall in H0, Hu. unfold top, stored. rewrite Hi. runfold.
    destruct (in_dec Nat.eq_dec j post); [|apply H0, nth_In, Hj].
    assert (Hb : 0 <= nth j (c_ub o) 0 < 1) by (apply Hu, nth_In; lia).
    destruct (Rtrunc_nonneg _ (proj1 Hb)) as [Hz [Hz1 Hz2]].
    set (x := nth j (c_ub o) 0) in *. clearbody x.
    assert (Hlt : (Rtrunc x < 1)%Z) by (apply lt_IZR; lra).
    assert (E : Rtrunc x = 0%Z) by lia. rewrite E. reflexivity.
  - symmetry. apply app_nil_r.
  - rewrite order_length. lia.
  - apply represents_nil.
Qed.

Lemma solve_init_err : forall fuel inv ord (o : cla R) e, init_algo o = Err e -> solve fuel inv ord o = (o, Err e).
Proof. intros fuel inv ord o e H. unfold solve. rewrite H. reflexivity. Qed.
