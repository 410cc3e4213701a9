(** * Covariance shrinkage *)
From Coq Require Import ZArith List String Bool Reals Lra Lia Arith.
From Verif Require Import Num Py RBase PyLemmas MFrame MHRP MReturns MRisk SLin SHRP SReturns SRisk Sums Mat PBase PHRP2 PHRP3 PFrame PReturns PReturns3 PCov1 PCov2.
Import ListNotations.
Local Open Scope R_scope.

Definition seen (T : nat) (dates names : list label) (x : label -> list R) (fr : R) : shrinkage :=
  mkShrink (history T dates names x) (map (fun t => map (fun u => Some (sample_covariance (x t) (x u))) names) names) fr.
Lemma dropna_history : forall T dates names x, names <> [] -> len dates = T -> dropna_all (history T dates names x) = history T dates names x.
Proof.
  intros T dates names x Hn Hd. unfold dropna_all, history. cbn [f_index f_rows f_cols]. rewrite filter_all.
  - rewrite combine_map_fst, combine_snd by (rewrite map_length, seq_length; exact Hd). reflexivity.
  - intros [i row] H. apply in_combine_r in H. apply in_map_iff in H. destruct H as (k & <- & _). cbn [snd]. destruct names as [|t names]; [congruence|]. reflexivity.
Qed.
Lemma init_history : forall T dates names x fr log, names <> [] -> len dates = T -> (2 <= T)%nat -> (forall t, In t names -> len (x t) = T) ->
  shrinkage_init (history T dates names x) true fr log = Ok (seen T dates names x fr).
Proof.
  intros T dates names x fr log Hn Hd HT Hx. unfold shrinkage_init, get_returns. cbn [rbind]. rewrite dropna_history by assumption.
  rewrite frame_cov_history by assumption. reflexivity.
Qed.
Lemma sample_matrix_labelled : forall names x, sample_matrix names x = f_rows (labelled names (fun t u => sample_covariance (x t) (x u))).
Proof. reflexivity. Qed.
Lemma sample_matrix_good : forall T names x, (2 <= T)%nat -> (forall t, In t names -> len (x t) = T) -> psd (len names) (sample_matrix names x) /\ symmetric (len names) (sample_matrix names x).
Proof.
  intros T names x HT Hx. pose proof (sample_good T names x 1 HT Rle_0_1 Hx) as H. cbn zeta in H.
  replace (f_rows (labelled names (fun t u => sample_covariance (x t) (x u) * 1))) with (sample_matrix names x) in H; [exact H|].
  unfold sample_matrix, labelled. cbn [f_rows]. apply map_ext. intros t. apply map_ext. intros u. ring.
Qed.
Lemma scale_array : forall k n g, scale_rows k (array n n g) = array n n (fun i j => g i j * k).
Proof. intros. unfold scale_rows, array. rewrite map_map. apply map_ext. intros i. rewrite map_map. reflexivity. Qed.
Lemma array_good : forall n g, (forall x, 0 <= bil n g x x) -> (forall i j, (i < n)%nat -> (j < n)%nat -> g i j = g j i) ->
  psd n (array n n g) /\ symmetric n (array n n g).
Proof.
  intros n g Hp Hs. split.
  - apply psd_from_bil; [apply array_square|]. intros x. rewrite (bil_ext_M n _ g) by (intros; apply array_entry; assumption). apply Hp.
  - intros i j Hi Hj. rewrite !array_entry by assumption. auto.
Qed.
Lemma bil_scal_M : forall n c A x y, bil n (fun i j => A i j * c) x y = bil n A x y * c.
Proof.
  intros. unfold bil. rewrite <- sumn_scal_r. apply sumn_ext. intros i Hi. rewrite Rmult_assoc. f_equal. rewrite <- sumn_scal_r. apply sumn_ext. intros; ring.
Qed.
Lemma bil_scal_Ml : forall n c A x y, bil n (fun i j => c * A i j) x y = c * bil n A x y.
Proof. intros. rewrite (bil_ext_M n _ (fun i j => A i j * c)) by (intros; ring). rewrite bil_scal_M. ring. Qed.
(** annualising a good matrix: nothing is fixed *)
Lemma annualize_good : forall eigh T dates names x fr n g, n = len names -> 0 <= fr -> (forall x, 0 <= bil n g x x) -> (forall i j, (i < n)%nat -> (j < n)%nat -> g i j = g j i) ->
  let rows := array n n (fun i j => g i j * fr) in
  format_annualize eigh (seen T dates names x fr) (array n n g) = Ok (mkFrame names names rows) /\ psd n rows /\ symmetric n rows.
Proof.
  intros eigh T dates names x fr n g -> Hfr Hp Hs rows.
  assert (G : psd (len names) rows /\ symmetric (len names) rows).
  { apply array_good; [|intros; rewrite Hs by assumption; reflexivity]. intros v. rewrite bil_scal_M. apply Rmult_le_pos; auto. }
  split; [|exact G]. unfold format_annualize, seen. cbn [sh_X sh_frequency]. rewrite scale_array. change (f_cols (history T dates names x)) with names. apply fixed_good; apply G.
Qed.

(** C74 *)
Lemma trace_array : forall n g, trace n (array n n g) = sumn n (fun i => g i i).
Proof. intros. unfold trace. rewrite total_seq. apply sumn_ext. intros i Hi. apply array_entry; exact Hi. Qed.
Theorem shrunk_good : forall eigh T dates names x fr d, (2 <= T)%nat -> names <> [] -> (forall t, In t names -> len (x t) = T) -> 0 <= fr -> 0 <= d <= 1 ->
  let n := len names in let V := sample_matrix names x in
  exists rows, shrunk_covariance eigh (seen T dates names x fr) d = Ok (mkFrame names names rows) /\ square n rows /\
    (forall i j, (i < n)%nat -> (j < n)%nat -> entry rows i j = fr * (d * (if Nat.eqb i j then trace n V / INR n else 0) + (1 - d) * entry V i j)) /\
    trace n rows = fr * trace n V /\ psd n rows /\ symmetric n rows.
Proof.
  intros eigh T dates names x fr d HT Hn Hx Hfr Hd n V. destruct (sample_matrix_good T names x HT Hx) as [P1 P2]. fold V n in P1, P2.
  assert (Hn1 : (0 < n)%nat) by (unfold n; destruct names; [congruence|cbn; lia]). assert (HN : 0 < INR n) by (apply lt_0_INR; exact Hn1).
  assert (Ht : sumn n (fun i => entry V i i) = trace n V) by (unfold trace; rewrite total_seq; reflexivity).
  assert (Ht0 : 0 <= trace n V).
  { rewrite <- Ht. apply sumn_nonneg. intros i Hi. rewrite <- (bil_basis n (entry V) i i Hi Hi). apply psd_bil. exact P1. }
  set (g := fun i j => d * (delta i j * (trace n V / INR n)) + (1 - d) * entry V i j).
  destruct (annualize_good eigh T dates names x fr n g eq_refl Hfr) as (E & Q1 & Q2).
  { intros v. unfold g. rewrite bil_plus_M. rewrite (bil_ext_M n (fun i j => d * (delta i j * (trace n V / INR n))) (fun i j => (d * (trace n V / INR n)) * delta i j)) by (intros; ring).
    rewrite bil_delta, bil_scal_Ml. assert (0 <= trace n V / INR n) by (apply Rmult_le_pos; [exact Ht0|left; apply Rinv_0_lt_compat; exact HN]).
    pose proof (psd_bil n V v P1). pose proof (sumn_sq_nonneg n v). assert (0 <= d * (trace n V / INR n)) by (apply Rmult_le_pos; lra).
    apply Rplus_le_le_0_compat; apply Rmult_le_pos; lra. }
  { intros i j Hi Hj. unfold g. rewrite delta_sym, (P2 i j Hi Hj). reflexivity. }
  exists (array n n (fun i j => g i j * fr)). split; [|split; [apply array_square|split; [|split]]].
  - unfold shrunk_covariance. unfold seen at 1. cbn [sh_S]. rewrite whole_table. cbn [rbind]. fold (sample_matrix names x). fold V.
    assert (HL : len V = n) by (apply P1). rewrite HL. replace (n =? 0)%nat with false by (symmetry; apply Nat.eqb_neq; lia). rewrite Ht. exact E.
  - intros i j Hi Hj. rewrite array_entry by assumption. unfold g, delta. destruct (Nat.eqb i j); ring.
  - rewrite trace_array, sumn_scal_r. unfold g. rewrite sumn_plus, !sumn_scal, Ht.
    rewrite (sumn_ext n (fun i => delta i i * (trace n V / INR n)) (fun _ => trace n V / INR n)) by (intros; unfold delta; rewrite Nat.eqb_refl; ring).
    rewrite sumn_const. field. lra.
  - split; assumption.
Qed.
Theorem shrunk_zero : forall eigh T dates names x fr log fm, (2 <= T)%nat -> names <> [] -> (forall t, In t names -> len (x t) = T) -> 0 <= fr ->
  shrunk_covariance eigh (seen T dates names x fr) 0 = sample_cov eigh (history T dates names x) true fr log fm.
Proof.
  intros eigh T dates names x fr log fm HT Hn Hx Hfr. destruct (shrunk_good eigh T dates names x fr 0 HT Hn Hx Hfr ltac:(lra)) as (rows & E & H1 & H2 & _).
  rewrite E, sample_cov_complete by assumption. unfold labelled. f_equal. f_equal. rewrite <- (array_self (len names) rows H1), table_array. unfold array. apply map_ext_in. intros i Hi. apply in_seq in Hi. apply map_ext_in. intros j Hj. apply in_seq in Hj.
  rewrite H2 by lia. rewrite sample_matrix_labelled, labelled_entry by lia. ring.
Qed.
Theorem shrunk_one : forall eigh T dates names x fr, (2 <= T)%nat -> names <> [] -> (forall t, In t names -> len (x t) = T) -> 0 <= fr ->
  exists c rows, shrunk_covariance eigh (seen T dates names x fr) 1 = Ok (mkFrame names names rows) /\ square (len names) rows /\
  forall i j, (i < len names)%nat -> (j < len names)%nat -> entry rows i j = if Nat.eqb i j then c else 0.
Proof.
  intros eigh T dates names x fr HT Hn Hx Hfr. destruct (shrunk_good eigh T dates names x fr 1 HT Hn Hx Hfr ltac:(lra)) as (rows & E & H1 & H2 & _).
  exists (fr * (trace (len names) (sample_matrix names x) / INR (len names))), rows. split; [exact E|]. split; [exact H1|]. intros i j Hi Hj. rewrite H2 by assumption. destruct (Nat.eqb i j); ring.
Qed.

(** C75 *)
Lemma clamp_range : forall k, 0 <= clamp01 k <= 1.
Proof.
  intros [x| | |]; cbn [clamp01]; try lra. split; [apply Rmax_l|]. apply Rmax_lub; [lra|apply Rmin_l].
Qed.
Theorem intensity_range : forall sh r, single_factor sh = Ok r \/ constant_correlation sh = Ok r -> 0 <= snd r <= 1.
Proof.
  intros sh r [H|H].
  - unfold single_factor in H. destruct (len (nan_to_num (sh_X sh)) <=? 1)%nat; [discriminate H|]. destruct (Reqb _ _); [discriminate H|]. injection H as <-. cbn [snd]. apply clamp_range.
  - unfold constant_correlation in H. destruct (whole (sh_S sh)) as [C|]; [|discriminate H]. cbn [rbind] in H. destruct (_ || _); [discriminate H|]. injection H as <-. cbn [snd]. apply clamp_range.
Qed.

(** a convex combination of two positive semidefinite matrices *)
Lemma mix_good : forall n d F s, 0 <= d <= 1 -> (forall x, 0 <= bil n F x x) -> (forall x, 0 <= bil n s x x) -> forall x, 0 <= bil n (fun i j => d * F i j + (1 - d) * s i j) x x.
Proof.
  intros n d F s Hd HF Hs x. rewrite bil_plus_M, !bil_scal_Ml. specialize (HF x). specialize (Hs x). apply Rplus_le_le_0_compat; apply Rmult_le_pos; lra.
Qed.
(** rank one plus a diagonal *)
Lemma rank_one_diag : forall n (b D : nat -> R) c x,
  bil n (fun i j => if Nat.eqb i j then D i else c * (b i * b j)) x x =
  c * (sumn n (fun i => b i * x i) * sumn n (fun i => b i * x i)) + sumn n (fun i => (D i - c * (b i * b i)) * (x i * x i)).
Proof.
  intros n b D c x. rewrite (bil_ext_M n _ (fun i j => sumn 1 (fun k => c * (b i * b j)) + (D i - c * (b i * b i)) * delta i j)).
  2:{ intros i j Hi Hj. unfold delta. destruct (Nat.eqb_spec i j) as [->|Hne]; cbn [sumn]; ring. }
  rewrite bil_plus_M. f_equal.
  - rewrite (gram_bil n 1 (fun _ => c) (fun _ i => b i)). cbn [sumn]. ring.
  - unfold bil. apply sumn_ext. intros i Hi. rewrite (sumn_ext n _ (fun j => delta i j * ((D i - c * (b i * b i)) * x j))) by (intros; ring). rewrite sumn_delta_r by exact Hi. ring.
Qed.

Section SingleFactor.
  Variables (T : nat) (dates names : list label) (x : label -> list R).
  Hypothesis (HT : (2 <= T)%nat) (Hn : names <> []) (Hx : forall t, In t names -> len (x t) = T).
  Let n := len names.
  Lemma nan_history : nan_to_num (history T dates names x) = map (fun k => map (fun t => nth k (x t) 0) names) (seq 0 T).
  Proof. unfold nan_to_num, history. cbn [f_rows]. rewrite map_map. apply map_ext. intros k. rewrite map_map. reflexivity. Qed.
  Lemma nan_entry : forall k i, (k < T)%nat -> (i < n)%nat -> entry (nan_to_num (history T dates names x)) k i = nth k (x (name names i)) 0.
  Proof.
    intros k i Hk Hi. rewrite nan_history. unfold entry.
    rewrite (nth_indep _ [] (map (fun t => nth 0 (x t) 0) names)) by (rewrite map_length, seq_length; exact Hk).
    rewrite (map_nth (fun k => map (fun t => nth k (x t) 0) names)), seq_nth by exact Hk. cbn [Nat.add].
    rewrite (nth_indep _ 0 (nth k (x (LInt 0)) 0)) by (rewrite map_length; exact Hi). apply (map_nth (fun t => nth k (x t) 0)).
  Qed.
  Lemma nan_length : len (nan_to_num (history T dates names x)) = T.
  Proof. rewrite nan_history, map_length, seq_length. reflexivity. Qed.
  Lemma average_sumn : forall y, len y = T -> average y = sumn T (fun k => nth k y 0) / INR T.
  Proof. intros y H. unfold average. rewrite total_sumn, H. reflexivity. Qed.
  Definition y (i : nat) : list R := if (i <? n)%nat then x (name names i) else market T names x.
  Lemma y_length : forall i, len (y i) = T.
  Proof.
    intros i. unfold y. destruct (Nat.ltb_spec i n); [apply Hx, name_in; assumption|apply market_length].
  Qed.
  Lemma market_nth : forall k, (k < T)%nat -> nth k (market T names x) 0 = sumn n (fun i => nth k (x (name names i)) 0) / INR n.
  Proof.
    intros k Hk. unfold market. rewrite nth_of_seq by exact Hk. unfold average. rewrite map_length. fold n. f_equal. rewrite map_by_index, total_seq. reflexivity.
  Qed.
  Definition pcov (i j : nat) : R := sumn T (fun k => (nth k (y i) 0 - average (y i)) * (nth k (y j) 0 - average (y j))) / INR T.
  Lemma pcov_sample : forall i j, pcov i j = (INR T - 1) / INR T * sample_covariance (y i) (y j).
  Proof. intros. unfold pcov. rewrite sample_cov_sumn, y_length. pose proof (INR_ge2 T HT). field. split; lra. Qed.
  Lemma pcov_sym : forall i j, pcov i j = pcov j i.
  Proof. intros. unfold pcov. f_equal. apply sumn_ext. intros; ring. Qed.
  Lemma pcov_cauchy : forall i j, pcov i j * pcov i j <= pcov i i * pcov j j.
  Proof.
    intros i j. unfold pcov. pose proof (sumn_cauchy T (fun k => nth k (y i) 0 - average (y i)) (fun k => nth k (y j) 0 - average (y j))) as H.
    set (A := sumn T _) in *. set (B := sumn T (fun k => (nth k (y i) 0 - average (y i)) * (nth k (y i) 0 - average (y i)))) in *. set (C := sumn T (fun k => (nth k (y j) 0 - average (y j)) * (nth k (y j) 0 - average (y j)))) in *.
    pose proof (INR_ge2 T HT). assert (0 < / INR T) by (apply Rinv_0_lt_compat; lra). unfold Rdiv. 
    replace (A * / INR T * (A * / INR T)) with (A * A * (/ INR T * / INR T)) by ring. replace (B * / INR T * (C * / INR T)) with (B * C * (/ INR T * / INR T)) by ring.
    apply Rmult_le_compat_r; [|exact H]. apply Rmult_le_pos; lra.
  Qed.
  Lemma pcov_nonneg : forall i, 0 <= pcov i i.
  Proof. intros i. unfold pcov. apply Rmult_le_pos; [apply sumn_sq_nonneg|]. left. apply Rinv_0_lt_compat. pose proof (INR_ge2 T HT). lra. Qed.
  Lemma pcov_bil : forall v, 0 <= bil n pcov v v.
  Proof.
    intros v. rewrite (bil_ext_M n pcov (fun i j => sumn T (fun k => / INR T * ((nth k (y i) 0 - average (y i)) * (nth k (y j) 0 - average (y j)))))).
    2:{ intros. unfold pcov. rewrite sumn_scal. unfold Rdiv. ring. }
    rewrite (gram_bil n T (fun _ => / INR T) (fun k i => nth k (y i) 0 - average (y i))). apply sumn_nonneg. intros. apply Rmult_le_pos; [|apply Rle_0_sqr]. left. apply Rinv_0_lt_compat. pose proof (INR_ge2 T HT). lra.
  Qed.
  Lemma y_asset : forall i, (i < n)%nat -> y i = x (name names i).
  Proof. intros i Hi. unfold y. apply Nat.ltb_lt in Hi. rewrite Hi. reflexivity. Qed.
  Lemma y_market : y n = market T names x.
  Proof. unfold y. rewrite Nat.ltb_irrefl. reflexivity. Qed.
  Lemma market_average : average (market T names x) = sumn n (fun i => average (x (name names i))) / INR n.
  Proof.
    rewrite average_sumn by apply market_length. rewrite (sumn_ext T _ (fun k => sumn n (fun i => nth k (x (name names i)) 0) * / INR n)) by (intros; rewrite market_nth by assumption; reflexivity).
    rewrite sumn_scal_r, sumn_swap. unfold Rdiv. rewrite (sumn_ext n (fun i => average (x (name names i))) (fun i => sumn T (fun k => nth k (x (name names i)) 0) * / INR T)).
    - rewrite sumn_scal_r. ring.
    - intros i Hi. apply average_sumn. apply Hx, name_in. exact Hi.
  Qed.
  (** the columns the code works with are deviations from the averages *)
  Lemma sf_entry : forall k i, (k < T)%nat -> (i < n)%nat -> entry (nan_to_num (history T dates names x)) k i - sumn T (fun l => entry (nan_to_num (history T dates names x)) l i) / INR T = nth k (y i) 0 - average (y i).
  Proof.
    intros k i Hk Hi. rewrite nan_entry by assumption. rewrite (sumn_ext T _ (fun l => nth l (x (name names i)) 0)) by (intros; apply nan_entry; assumption).
    rewrite y_asset by exact Hi. rewrite average_sumn by (apply Hx, name_in; exact Hi). reflexivity.
  Qed.
  Lemma dev_zero : forall i, sumn T (fun k => nth k (y i) 0 - average (y i)) = 0.
  Proof.
    intros i. rewrite sumn_minus, sumn_const. rewrite average_sumn by apply y_length. pose proof (INR_ge2 T HT). field. lra.
  Qed.
End SingleFactor.

(** the code's data: Xm k i, and its market column *)
Theorem single_factor_form : forall T dates names x fr, (2 <= T)%nat -> names <> [] -> (forall t, In t names -> len (x t) = T) ->
  let n := len names in let c := pcov T names x in
  c n n <> 0 -> exists d, 0 <= d <= 1 /\
  single_factor (seen T dates names x fr) = Ok (array n n (fun i j => d * (if Nat.eqb i j then c i i else c i n * c j n / c n n) + (1 - d) * c i j), d).
Proof.
  intros T dates names x fr HT Hn Hx n c Hv. unfold single_factor. unfold seen. cbn [sh_X]. change (f_cols (history T dates names x)) with names. fold n.
  set (Xn := nan_to_num (history T dates names x)). rewrite (nan_length T dates names x : len Xn = T).
  assert (E1 : (T <=? 1)%nat = false) by (apply Nat.leb_gt; lia). rewrite E1.
  set (Xm := fun k i => entry Xn k i - sumn T (fun l => entry Xn l i) / INR T).
  set (xmkt := fun k => sumn n (fun i => Xm k i) / INR n).
  set (col := fun i k => if (i <? n)%nat then Xm k i else xmkt k).
  assert (HX : forall k i, (k < T)%nat -> (i < n)%nat -> Xm k i = nth k (y T names x i) 0 - average (y T names x i)) by (intros; apply sf_entry; assumption).
  assert (HM : forall k, (k < T)%nat -> xmkt k = nth k (y T names x n) 0 - average (y T names x n)).
  { intros k Hk. unfold xmkt. unfold n at 3 4. rewrite y_market. rewrite market_nth by exact Hk. rewrite market_average by assumption. fold n.
    rewrite (sumn_ext n _ (fun i => nth k (x (name names i)) 0 - average (x (name names i)))).
    - rewrite sumn_minus. unfold Rdiv. ring.
    - intros i Hi. rewrite HX by assumption. rewrite y_asset by exact Hi. reflexivity. }
  assert (HC : forall i k, (i <= n)%nat -> (k < T)%nat -> col i k = nth k (y T names x i) 0 - average (y T names x i)).
  { intros i k Hi Hk. unfold col. destruct (Nat.ltb_spec i n); [apply HX; assumption|]. replace i with n by lia. apply HM. exact Hk. }
  set (cm := fun i => sumn T (fun l => col i l) / INR T).
  assert (HZ : forall i, (i <= n)%nat -> cm i = 0).
  { intros i Hi. unfold cm. rewrite (sumn_ext T _ (fun k => nth k (y T names x i) 0 - average (y T names x i))) by (intros; apply HC; assumption). rewrite dev_zero by assumption. unfold Rdiv. ring. }
  set (cov := fun i j => sumn T (fun k => (col i k - cm i) * (col j k - cm j)) / (INR T - 1) * (INR T - 1) / INR T).
  assert (HV : forall i j, (i <= n)%nat -> (j <= n)%nat -> cov i j = c i j).
  { intros i j Hi Hj. unfold cov, c, pcov. rewrite !HZ by assumption. pose proof (INR_ge2 T HT).
    rewrite (sumn_ext T _ (fun k => (nth k (y T names x i) 0 - average (y T names x i)) * (nth k (y T names x j) 0 - average (y T names x j)))) by (intros; rewrite !HC by assumption; ring).
    field. split; lra. }
  cbv zeta. match goal with |- context [if Reqb ?a 0 then _ else _] => change a with (cov n n) end.
  rewrite (proj2 (Reqb_false (cov n n) 0)) by (rewrite HV by lia; exact Hv).
  match goal with |- context [clamp01 ?k] => set (d := clamp01 k) end. exists d. split; [apply clamp_range|]. f_equal. f_equal.
  unfold array. apply map_ext_in. intros i Hi. apply in_seq in Hi. apply map_ext_in. intros j Hj. apply in_seq in Hj.
  change (d * (if Nat.eqb i j then cov i i else cov i n * cov j n / cov n n) + (1 - d) * cov i j = d * (if Nat.eqb i j then c i i else c i n * c j n / c n n) + (1 - d) * c i j).
  rewrite !HV by lia. reflexivity.
Qed.
Theorem single_factor_good : forall eigh sk T dates names x fr, (2 <= T)%nat -> names <> [] -> (forall t, In t names -> len (x t) = T) -> 0 <= fr ->
  let n := len names in let V := sample_matrix names x in let m := market T names x in let k := fr * ((INR T - 1) / INR T) in
  sample_covariance m m <> 0 ->
  exists rows d, ledoit_wolf eigh sk (seen T dates names x fr) "single_factor" = Ok (mkFrame names names rows, d) /\ 0 <= d <= 1 /\
    psd n rows /\ symmetric n rows /\
    (forall i, (i < n)%nat -> entry rows i i = k * entry V i i) /\
    (forall i j, (i < n)%nat -> (j < n)%nat -> i <> j -> entry rows i j =
       k * (d * (sample_covariance (x (name names i)) m * sample_covariance (x (name names j)) m / sample_covariance m m) + (1 - d) * entry V i j)).
Proof.
  intros eigh sk T dates names x fr HT Hn Hx Hfr n V m k Hm. pose proof (INR_ge2 T HT) as HI. set (c := pcov T names x).
  assert (HV : forall i j, (i < n)%nat -> (j < n)%nat -> c i j = (INR T - 1) / INR T * entry V i j).
  { intros i j Hi Hj. unfold c. rewrite pcov_sample by assumption. rewrite !y_asset by assumption. unfold V. rewrite sample_matrix_labelled, labelled_entry by assumption. reflexivity. }
  assert (HB : forall i, (i < n)%nat -> c i n = (INR T - 1) / INR T * sample_covariance (x (name names i)) m).
  { intros i Hi. unfold c. rewrite pcov_sample by assumption. rewrite y_asset by assumption. unfold n. rewrite y_market. reflexivity. }
  assert (HM : c n n = (INR T - 1) / INR T * sample_covariance m m).
  { unfold c. rewrite pcov_sample by assumption. unfold n. rewrite !y_market. reflexivity. }
  assert (Hk : 0 < (INR T - 1) / INR T) by (apply Rdiv_lt_0_compat; lra).
  assert (Hnz : c n n <> 0) by (rewrite HM; apply Rmult_integral_contrapositive; split; lra).
  assert (Hpos : 0 < c n n) by (pose proof (pcov_nonneg T names x HT n) as P; fold c in P; lra).
  destruct (single_factor_form T dates names x fr HT Hn Hx Hnz) as (d & Hd & E). fold n c in E.
  set (g := fun i j => d * (if Nat.eqb i j then c i i else c i n * c j n / c n n) + (1 - d) * c i j) in E.
  destruct (annualize_good eigh T dates names x fr n g eq_refl Hfr) as (EA & Q1 & Q2).
  { apply mix_good; [exact Hd| |apply pcov_bil; assumption]. intros v.
    rewrite (bil_ext_M n _ (fun i j => if Nat.eqb i j then c i i else / c n n * (c i n * c j n))) by (intros i j Hi Hj; destruct (Nat.eqb i j); [reflexivity|unfold Rdiv; ring]).
    rewrite (rank_one_diag n (fun i => c i n) (fun i => c i i)). assert (Hi : 0 < / c n n) by (apply Rinv_0_lt_compat; exact Hpos).
    apply Rplus_le_le_0_compat; [apply Rmult_le_pos; [lra|apply Rle_0_sqr]|]. apply sumn_nonneg. intros i Hi'. apply Rmult_le_pos; [|apply Rle_0_sqr].
    pose proof (pcov_cauchy T names x HT i n) as C. fold c in C. assert (H1 : c i n * c i n * / c n n <= c i i * c n n * / c n n) by (apply Rmult_le_compat_r; lra). rewrite Rmult_assoc in H1 by lra.
    assert (H2 : c i i * c n n * / c n n = c i i) by (field; lra). lra. }
  { intros i j Hi Hj. unfold g. rewrite (Nat.eqb_sym j i). pose proof (pcov_sym T names x i j) as S1. fold c in S1. rewrite S1. destruct (Nat.eqb_spec i j) as [->|]; [reflexivity|]. unfold Rdiv. ring. }
  exists (array n n (fun i j => g i j * fr)), d. split; [|split; [exact Hd|split; [exact Q1|split; [exact Q2|split]]]].
  - unfold ledoit_wolf. cbn [String.eqb Ascii.eqb Bool.eqb]. rewrite E. cbn [rbind fst snd]. rewrite EA. reflexivity.
  - intros i Hi. rewrite array_entry by assumption. unfold g. rewrite Nat.eqb_refl. rewrite HV by assumption. unfold k. ring.
  - intros i j Hi Hj Hne. rewrite array_entry by assumption. unfold g. rewrite (proj2 (Nat.eqb_neq i j) Hne). rewrite HM, (HB i Hi), (HB j Hj), (HV i j Hi Hj). unfold k. field. repeat split; try lra; exact Hm.
Qed.

(** ** constant correlation *)
Lemma mean_correlation_range : forall n V, (2 <= n)%nat -> psd n V -> symmetric n V -> (forall i, (i < n)%nat -> 0 < entry V i i) ->
  let r := mean_correlation n V in
  r = (sumn n (fun i => sumn n (fun j => entry V i j / (sqrt (entry V i i) * sqrt (entry V j j)))) - INR n) / (INR n * (INR n - 1)) /\
  0 <= 1 + (INR n - 1) * r /\ r <= 1.
Proof.
  intros n V Hn Hp Hs Hd r. pose proof (INR_ge2 n Hn) as HN. set (sd := fun i => sqrt (entry V i i)).
  assert (Hsd : forall i, (i < n)%nat -> 0 < sd i) by (intros; apply sqrt_lt_R0; auto).
  assert (Hsq : forall i, (i < n)%nat -> sd i * sd i = entry V i i) by (intros; apply sqrt_sqrt; left; auto).
  set (A := sumn n (fun i => sumn n (fun j => entry V i j / (sd i * sd j)))).
  assert (E : r = (A - INR n) / (INR n * (INR n - 1))).
  { unfold r, mean_correlation. rewrite total_seq. f_equal. rewrite <- (Rmult_1_r (INR n)), <- (sumn_const n 1). unfold A. rewrite <- sumn_minus. apply sumn_ext. intros i Hi.
    rewrite total_seq. change (sqrt (entry V i i)) with (sd i).
    assert (E1 : sumn n (fun j => if Nat.eqb i j then 0 else entry V i j / (sd i * sd j)) = sumn n (fun j => entry V i j / (sd i * sd j)) - sumn n (fun j => delta i j * (entry V i j / (sd i * sd j)))).
    { rewrite <- sumn_minus. apply sumn_ext. intros j Hj. unfold delta. destruct (Nat.eqb i j); ring. }
    transitivity (sumn n (fun j => if Nat.eqb i j then 0 else entry V i j / (sd i * sd j))); [reflexivity|]. rewrite E1, sumn_delta_r by exact Hi. rewrite Hsq by exact Hi. pose proof (Hd i Hi). f_equal. field. lra. }
  split; [exact E|].
  assert (HA0 : 0 <= A).
  { pose proof (psd_bil n V (fun i => / sd i) Hp) as P. assert (EA : A = bil n (entry V) (fun i => / sd i) (fun i => / sd i)); [|rewrite EA; exact P].
    unfold A, bil. apply sumn_ext. intros i Hi. rewrite <- sumn_scal. apply sumn_ext. intros j Hj. pose proof (Hsd i Hi). pose proof (Hsd j Hj). field. split; lra. }
  assert (HA1 : A <= INR n * INR n).
  { rewrite <- (Rmult_1_r (INR n)) at 2. rewrite <- (sumn_const n 1), <- sumn_const. unfold A. apply sumn_le. intros i Hi. apply sumn_le. intros j Hj.
    pose proof (psd_cauchy n V (delta i) (delta j) Hp Hs) as C. rewrite !bil_basis in C by assumption. rewrite <- !Hsq in C by assumption.
    pose proof (Hsd i Hi). pose proof (Hsd j Hj). assert (0 < sd i * sd j) by (apply Rmult_lt_0_compat; assumption).
    assert (entry V i j <= sd i * sd j) by nra. apply Rmult_le_reg_r with (sd i * sd j); [assumption|]. unfold Rdiv. rewrite Rmult_assoc, Rinv_l by lra. lra. }
  rewrite E. split.
  - replace (1 + (INR n - 1) * ((A - INR n) / (INR n * (INR n - 1)))) with (A / INR n) by (field; split; lra). apply Rmult_le_pos; [exact HA0|left; apply Rinv_0_lt_compat; lra].
  - apply Rmult_le_reg_r with (INR n * (INR n - 1)); [apply Rmult_lt_0_compat; lra|]. unfold Rdiv. rewrite Rmult_assoc, Rinv_l by (apply Rmult_integral_contrapositive; split; lra). nra.
Qed.
Lemma constant_target_psd : forall n (sd : nat -> R) r, (2 <= n)%nat -> 0 <= 1 + (INR n - 1) * r -> r <= 1 ->
  forall v, 0 <= bil n (fun i j => if Nat.eqb i j then sd i * sd i else r * (sd i * sd j)) v v.
Proof.
  intros n sd r Hn H1 H2 v. rewrite (rank_one_diag n sd (fun i => sd i * sd i)). pose proof (INR_ge2 n Hn).
  set (A := sumn n (fun i => sd i * v i)). set (Q := sumn n (fun i => (sd i * v i) * (sd i * v i))).
  assert (EQ : sumn n (fun i => (sd i * sd i - r * (sd i * sd i)) * (v i * v i)) = (1 - r) * Q).
  { unfold Q. rewrite <- sumn_scal. apply sumn_ext. intros; ring. }
  rewrite EQ. assert (HQ : 0 <= Q) by apply sumn_sq_nonneg.
  assert (HC : A * A <= INR n * Q).
  { pose proof (sumn_cauchy n (fun _ => 1) (fun i => sd i * v i)) as C. cbv beta in C. rewrite (sumn_ext n (fun i => 1 * (sd i * v i)) (fun i => sd i * v i)) in C by (intros; ring).
    rewrite (sumn_const n (1 * 1)) in C. fold A Q in C. lra. }
  assert (0 <= A * A) by apply Rle_0_sqr. destruct (Rle_dec 0 r).
  - apply Rplus_le_le_0_compat; apply Rmult_le_pos; lra.
  - assert (r * (INR n * Q) <= r * (A * A)) by nra. nra.
Qed.
Theorem constant_correlation_good : forall eigh sk T dates names x fr, (2 <= T)%nat -> (2 <= len names)%nat -> (forall t, In t names -> len (x t) = T) -> 0 <= fr ->
  let n := len names in let V := sample_matrix names x in
  (forall t, In t names -> 0 < sample_covariance (x t) (x t)) ->
  exists rows d, ledoit_wolf eigh sk (seen T dates names x fr) "constant_correlation" = Ok (mkFrame names names rows, d) /\ 0 <= d <= 1 /\
    psd n rows /\ symmetric n rows /\
    (forall i, (i < n)%nat -> entry rows i i = fr * entry V i i) /\
    (forall i j, (i < n)%nat -> (j < n)%nat -> i <> j -> entry rows i j =
       fr * (d * (mean_correlation n V * (sqrt (entry V i i) * sqrt (entry V j j))) + (1 - d) * entry V i j)).
Proof.
  intros eigh sk T dates names x fr HT Hn2 Hx Hfr n V Hpos. destruct (sample_matrix_good T names x HT Hx) as [P1 P2]. fold V n in P1, P2.
  assert (HD : forall i, (i < n)%nat -> 0 < entry V i i).
  { intros i Hi. unfold V. rewrite sample_matrix_labelled, labelled_entry by assumption. apply Hpos, name_in, Hi. }
  destruct (mean_correlation_range n V Hn2 P1 P2 HD) as (Er & R1 & R2).
  assert (EF : exists d, 0 <= d <= 1 /\ constant_correlation (seen T dates names x fr) =
    Ok (array n n (fun i j => d * (if Nat.eqb i j then entry V i i else mean_correlation n V * (sqrt (entry V i i) * sqrt (entry V j j))) + (1 - d) * entry V i j), d)).
  { unfold constant_correlation, seen. cbn [sh_S sh_X]. rewrite whole_table. cbn [rbind]. fold (sample_matrix names x). fold V.
    change (f_cols (history T dates names x)) with names. fold n.
    replace (n <=? 1)%nat with false by (symmetry; apply Nat.leb_gt; unfold n; lia). cbn [orb].
    assert (HF : forallb (fun i => Rltb 0 (entry V i i)) (seq 0 n) = true).
    { apply forallb_forall. intros i Hi. apply in_seq in Hi. apply Rltb_true. apply HD. lia. }
    rewrite HF. cbn [negb]. cbv zeta beta. rewrite <- Er.
    match goal with |- context [clamp01 ?k] => exists (clamp01 k) end. split; [apply clamp_range|reflexivity]. }
  destruct EF as (d & Hd & EF). unfold ledoit_wolf. cbn [String.eqb Ascii.eqb Bool.eqb]. rewrite EF. cbn [rbind fst snd].
  set (g := fun i j => d * (if Nat.eqb i j then entry V i i else mean_correlation n V * (sqrt (entry V i i) * sqrt (entry V j j))) + (1 - d) * entry V i j).
  destruct (annualize_good eigh T dates names x fr n g eq_refl Hfr) as (EA & Q1 & Q2).
  { apply mix_good; [exact Hd| |intros v; apply psd_bil; exact P1]. intros v.
    rewrite (bil_ext_M n _ (fun i j => if Nat.eqb i j then sqrt (entry V i i) * sqrt (entry V i i) else mean_correlation n V * (sqrt (entry V i i) * sqrt (entry V j j)))).
    - apply (constant_target_psd n (fun i => sqrt (entry V i i))); assumption.
    - intros i j Hi Hj. destruct (Nat.eqb i j); [|reflexivity]. symmetry. apply sqrt_sqrt. left. auto. }
  { intros i j Hi Hj. unfold g. rewrite (Nat.eqb_sym j i), (P2 j i Hj Hi). destruct (Nat.eqb_spec i j) as [->|]; [reflexivity|]. ring. }
  exists (array n n (fun i j => g i j * fr)), d. split; [|split; [exact Hd|split; [exact Q1|split; [exact Q2|split]]]].
  - rewrite EA. reflexivity.
  - intros i Hi. rewrite array_entry by assumption. unfold g. rewrite Nat.eqb_refl. ring.
  - intros i j Hi Hj Hne. rewrite array_entry by assumption. unfold g. rewrite (proj2 (Nat.eqb_neq i j) Hne). ring.
Qed.
(** with two assets the target is the sample covariance itself *)
Theorem constant_correlation_two : forall eigh sk T dates names x fr log fm, (2 <= T)%nat -> len names = 2%nat -> (forall t, In t names -> len (x t) = T) -> 0 <= fr ->
  (forall t, In t names -> 0 < sample_covariance (x t) (x t)) ->
  exists d, (do F <- sample_cov eigh (history T dates names x) true fr log fm ; Ok (F, d)) = ledoit_wolf eigh sk (seen T dates names x fr) "constant_correlation".
Proof.
  intros eigh sk T dates names x fr log fm HT H2 Hx Hfr Hpos.
  destruct (constant_correlation_good eigh sk T dates names x fr HT ltac:(lia) Hx Hfr Hpos) as (rows & d & E & _ & [HS _] & _ & D & O).
  exists d. rewrite E, sample_cov_complete by assumption. cbn [rbind]. unfold labelled. do 3 f_equal.
  rewrite <- (array_self (len names) rows HS), table_array. unfold array. apply map_ext_in. intros i Hi. apply in_seq in Hi. apply map_ext_in. intros j Hj. apply in_seq in Hj.
  set (V := sample_matrix names x) in *.
  assert (HV : forall i j, (i < 2)%nat -> (j < 2)%nat -> sample_covariance (x (name names i)) (x (name names j)) = entry V i j).
  { intros a b Ha Hb. unfold V. rewrite sample_matrix_labelled, labelled_entry by lia. reflexivity. }
  destruct (Nat.eq_dec i j) as [->|Hne]; [rewrite D by lia; rewrite HV by lia; ring|].
  destruct (sample_matrix_good T names x HT Hx) as [P1 P2]. fold V in P1, P2. rewrite H2 in *.
  rewrite O by lia. rewrite HV by lia. assert (HD : forall a, (a < 2)%nat -> 0 < entry V a a).
  { intros a Ha. rewrite <- HV by assumption. apply Hpos, name_in. lia. }
  assert (E2 : mean_correlation 2 V * (sqrt (entry V i i) * sqrt (entry V j j)) = entry V i j).
  { unfold mean_correlation. cbn [seq map total Nat.eqb INR]. rewrite (P2 1%nat 0%nat) by lia.
    assert (S0 : 0 < sqrt (entry V 0 0)) by (apply sqrt_lt_R0; apply HD; lia). assert (S1 : 0 < sqrt (entry V 1 1)) by (apply sqrt_lt_R0; apply HD; lia).
    assert (C : (i = 0 /\ j = 1 \/ i = 1 /\ j = 0)%nat) by lia. destruct C as [[-> ->]|[-> ->]]; [|rewrite (P2 1%nat 0%nat) by lia]; field; split; lra. }
  rewrite E2. ring.
Qed.
