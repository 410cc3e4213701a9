(** * Sample covariance, semicovariance, exponential covariance, correlation *)
From Coq Require Import ZArith List String Bool Reals Lra Lia Arith.
From Verif Require Import Num Py RBase PyLemmas MFrame MHRP MReturns MRisk SLin SHRP SReturns SRisk Sums Mat PBase PHRP2 PHRP3 PFrame PReturns PReturns3 PCov1.
Import ListNotations.
Local Open Scope R_scope.
Notation len := List.length (only parsing).

Lemma total_seq : forall n f, total (map f (seq 0 n)) = sumn n f.
Proof.
  intros n f. change (map f (seq 0 n)) with (of_fun n f). rewrite (total_vec n) by apply of_fun_length. apply sumn_ext. intros i Hi. apply of_fun_nth. exact Hi.
Qed.
Lemma gram_bil : forall n T a g x,
  bil n (fun i j => sumn T (fun k => a k * (g k i * g k j))) x x =
  sumn T (fun k => a k * (sumn n (fun i => g k i * x i) * sumn n (fun i => g k i * x i))).
Proof.
  intros n T a g x. unfold bil.
  transitivity (sumn n (fun i => sumn T (fun k => a k * ((g k i * x i) * sumn n (fun j => g k j * x j))))).
  - apply sumn_ext. intros i Hi.
    rewrite (sumn_ext n (fun j => sumn T (fun k => a k * (g k i * g k j)) * x j) (fun j => sumn T (fun k => a k * g k i * (g k j * x j)))).
    2:{ intros j Hj. rewrite <- sumn_scal_r. apply sumn_ext. intros; ring. }
    rewrite sumn_swap, <- sumn_scal. apply sumn_ext. intros k Hk. rewrite sumn_scal. ring.
  - rewrite sumn_swap. apply sumn_ext. intros k Hk. rewrite sumn_scal, sumn_scal_r. reflexivity.
Qed.
Lemma gram_psd : forall n T a g M, square n M -> (forall k, (k < T)%nat -> 0 <= a k) ->
  (forall i j, (i < n)%nat -> (j < n)%nat -> entry M i j = sumn T (fun k => a k * (g k i * g k j))) -> psd n M /\ symmetric n M.
Proof.
  intros n T a g M HM Ha HE. split.
  - apply psd_from_bil; [exact HM|]. intros x. rewrite (bil_ext_M n _ _ x x HE), gram_bil. apply sumn_nonneg. intros k Hk. apply Rmult_le_pos; [auto|apply Rle_0_sqr].
  - intros i j Hi Hj. rewrite !HE by assumption. apply sumn_ext. intros; ring.
Qed.

(** tables *)
Definition name (names : list label) (i : nat) : label := nth i names (LInt 0).
Lemma name_in : forall names i, (i < len names)%nat -> In (name names i) names.
Proof. intros. apply nth_In. assumption. Qed.
Lemma map_by_index : forall {X} (f : label -> X) names, map f names = map (fun i => f (name names i)) (seq 0 (len names)).
Proof. intros X f names. rewrite <- (map_map (name names) f). unfold name. rewrite (nth_seq_map names (LInt 0)). reflexivity. Qed.
Lemma table_array : forall (names : list label) (c : label -> label -> R),
  map (fun t => map (c t) names) names = array (len names) (len names) (fun i j => c (name names i) (name names j)).
Proof.
  intros names c. unfold array. rewrite map_by_index. apply map_ext. intros i. apply (map_by_index (c (name names i))).
Qed.
Lemma labelled_rows : forall names c, f_rows (labelled names c) = array (len names) (len names) (fun i j => c (name names i) (name names j)).
Proof. intros. unfold labelled. cbn [f_rows]. apply table_array. Qed.
Lemma labelled_square : forall names c, square (len names) (f_rows (labelled names c)).
Proof. intros. rewrite labelled_rows. apply array_square. Qed.
Lemma labelled_entry : forall names c i j, (i < len names)%nat -> (j < len names)%nat -> entry (f_rows (labelled names c)) i j = c (name names i) (name names j).
Proof. intros. rewrite labelled_rows, array_entry by assumption. reflexivity. Qed.
Lemma fixed_good : forall eigh names rows fm, psd (len names) rows -> symmetric (len names) rows ->
  fixed_frame eigh names rows fm = Ok (mkFrame names names rows).
Proof. intros eigh names rows fm Hp Hs. unfold fixed_frame. rewrite fix_passing by (apply (psd_passes (len names)); assumption). reflexivity. Qed.
Lemma scale_table : forall k (names : list label) (c : label -> label -> R), scale_rows k (map (fun t => map (c t) names) names) = map (fun t => map (fun u => c t u * k) names) names.
Proof. intros. unfold scale_rows. rewrite map_map. apply map_ext. intros t. rewrite map_map. reflexivity. Qed.
Lemma whole_table : forall {X} (g : X -> X -> R) (l : list X), whole (map (fun t => map (fun u => Some (g t u)) l) l) = Ok (map (fun t => map (g t) l) l).
Proof. intros. unfold whole. rewrite all_some_table. reflexivity. Qed.

Lemma sample_cov_sumn : forall x y, sample_covariance x y = sumn (len x) (fun k => (nth k x 0 - average x) * (nth k y 0 - average y)) / (INR (len x) - 1).
Proof. intros. unfold sample_covariance. rewrite total_seq. reflexivity. Qed.
(** the sample covariance table is a Gram matrix *)
Lemma sample_gram : forall T (names : list label) (x : label -> list R) fr t u, (2 <= T)%nat -> In t names -> In u names -> (forall t, In t names -> len (x t) = T) ->
  sample_covariance (x t) (x u) * fr = sumn T (fun k => fr / (INR T - 1) * ((nth k (x t) 0 - average (x t)) * (nth k (x u) 0 - average (x u)))).
Proof.
  intros T names x fr t u HT Ht Hu Hx. rewrite sample_cov_sumn, (Hx t Ht), sumn_scal. pose proof (INR_ge2 T HT). field. lra.
Qed.
Lemma sample_good : forall T (names : list label) (x : label -> list R) fr, (2 <= T)%nat -> 0 <= fr -> (forall t, In t names -> len (x t) = T) ->
  let M := f_rows (labelled names (fun t u => sample_covariance (x t) (x u) * fr)) in psd (len names) M /\ symmetric (len names) M.
Proof.
  intros T names x fr HT Hfr Hx M. apply (gram_psd _ T (fun _ => fr / (INR T - 1)) (fun k i => nth k (x (name names i)) 0 - average (x (name names i)))).
  - apply labelled_square.
  - intros k Hk. pose proof (INR_ge2 T HT). apply Rmult_le_pos; [exact Hfr|]. left. apply Rinv_0_lt_compat. lra.
  - intros i j Hi Hj. unfold M. rewrite labelled_entry by assumption. apply (sample_gram T names); auto using name_in.
Qed.
Lemma inner_names : forall w names (g : label -> R), len w = len names -> inner w (map g names) = sumn (len names) (fun i => nth i w 0 * g (name names i)).
Proof.
  intros w names g H. rewrite (inner_vec (len names)); [|exact H|apply map_length]. apply sumn_ext. intros i Hi. unfold vec. f_equal.
  rewrite (nth_indep _ 0 (g (LInt 0))) by (rewrite map_length; exact Hi). apply map_nth.
Qed.
Lemma nth_of_seq : forall T (f : nat -> R) k, (k < T)%nat -> nth k (map f (seq 0 T)) 0 = f k.
Proof. intros. apply (of_fun_nth T f k). assumption. Qed.
Lemma average_portfolio : forall T names x w, (1 <= T)%nat -> len w = len names -> (forall t, In t names -> len (x t) = T) ->
  average (portfolio_series T names x w) = sumn (len names) (fun i => nth i w 0 * average (x (name names i))).
Proof.
  intros T names x w HT Hw Hx. unfold average at 1, portfolio_series. rewrite total_seq, map_length, seq_length.
  rewrite (sumn_ext T _ (fun k => sumn (len names) (fun i => nth i w 0 * nth k (x (name names i)) 0))) by (intros; apply inner_names; exact Hw).
  rewrite sumn_swap. unfold Rdiv. rewrite <- sumn_scal_r. apply sumn_ext. intros i Hi. rewrite sumn_scal. unfold average.
  rewrite (total_sumn (x (name names i))), (Hx _ (name_in names i Hi)). unfold Rdiv. ring.
Qed.
Theorem sample_variance : forall T names x fr w, (2 <= T)%nat -> (forall t, In t names -> len (x t) = T) -> len w = len names ->
  qform (f_rows (labelled names (fun t u => sample_covariance (x t) (x u) * fr))) w =
  fr * sample_covariance (portfolio_series T names x w) (portfolio_series T names x w).
Proof.
  intros T names x fr w HT Hx Hw. rewrite (qform_bil (len names)) by (auto using labelled_square).
  rewrite (bil_ext_M _ _ (fun i j => sumn T (fun k => fr / (INR T - 1) * ((nth k (x (name names i)) 0 - average (x (name names i))) * (nth k (x (name names j)) 0 - average (x (name names j))))))).
  2:{ intros i j Hi Hj. rewrite labelled_entry by assumption. apply (sample_gram T names); auto using name_in. }
  rewrite (gram_bil (len names) T (fun _ => fr / (INR T - 1)) (fun k i => nth k (x (name names i)) 0 - average (x (name names i)))).
  assert (HL : len (portfolio_series T names x w) = T) by (unfold portfolio_series; rewrite map_length, seq_length; reflexivity).
  rewrite sample_cov_sumn, HL, sumn_scal.
  rewrite (sumn_ext T _ (fun k => (nth k (portfolio_series T names x w) 0 - average (portfolio_series T names x w)) * (nth k (portfolio_series T names x w) 0 - average (portfolio_series T names x w)))).
  - unfold Rdiv. ring.
  - intros k Hk. assert (E : sumn (len names) (fun i => (nth k (x (name names i)) 0 - average (x (name names i))) * vec w i) = nth k (portfolio_series T names x w) 0 - average (portfolio_series T names x w)).
    { rewrite average_portfolio by (auto; lia). unfold portfolio_series. rewrite nth_of_seq by exact Hk. rewrite inner_names by exact Hw. rewrite <- sumn_minus. apply sumn_ext. intros; unfold vec; ring. }
    rewrite E. reflexivity.
Qed.

(** C70 *)
Theorem sample_cov_complete : forall eigh T dates names x fr log fm, (2 <= T)%nat -> 0 <= fr -> (forall t, In t names -> len (x t) = T) ->
  sample_cov eigh (history T dates names x) true fr log fm = Ok (labelled names (fun t u => sample_covariance (x t) (x u) * fr)).
Proof.
  intros eigh T dates names x fr log fm HT Hfr Hx. unfold sample_cov, get_returns. cbn [rbind]. rewrite frame_cov_history by assumption. cbn [f_rows].
  rewrite whole_table. cbn [rbind]. rewrite scale_table. change (f_cols (history T dates names x)) with names.
  destruct (sample_good T names x fr HT Hfr Hx) as [P1 P2]. apply fixed_good; assumption.
Qed.
Theorem sample_cov_prices : forall eigh T dates names p fr fm, (2 <= T)%nat -> 0 <= fr -> names <> [] -> len dates = S T ->
  (forall t, In t names -> len (p t) = S T) -> (forall t, In t names -> Forall (fun v => 0 < v) (p t)) -> forall log : bool,
  sample_cov eigh (history (S T) dates names p) false fr log fm =
  Ok (labelled names (fun t u => (if log then sample_covariance (logarithmic_returns (p t)) (logarithmic_returns (p u))
                                  else sample_covariance (simple_returns (p t)) (simple_returns (p u))) * fr)).
Proof.
  intros eigh T dates names p fr fm HT Hfr Hn Hd Hl Hp log. destruct log.
  - unfold sample_cov, get_returns. rewrite log_returns_history by assumption. cbn [rbind].
    pose proof (sample_cov_complete eigh T (tl dates) names (fun t => logarithmic_returns (p t)) fr true fm HT Hfr) as E. unfold sample_cov, get_returns in E. cbn [rbind] in E. apply E.
    intros t Ht. rewrite logarithmic_returns_length, (Hl t Ht). lia.
  - unfold sample_cov, get_returns. rewrite returns_history by (auto; intros; apply pos_nonzero; auto). cbn [rbind].
    pose proof (sample_cov_complete eigh T (tl dates) names (fun t => simple_returns (p t)) fr false fm HT Hfr) as E. unfold sample_cov, get_returns in E. cbn [rbind] in E. apply E.
    intros t Ht. rewrite simple_returns_length, (Hl t Ht). lia.
Qed.

(** C71: semicovariance *)
Lemma partial_cell : forall T dates names x k i, (k < T)%nat -> (i < len names)%nat ->
  nth i (nth k (f_rows (partial_history T dates names x)) []) None = nth k (x (name names i)) None.
Proof.
  intros T dates names x k i Hk Hi. unfold partial_history. cbn [f_rows].
  rewrite (nth_indep _ [] (map (fun t => nth 0 (x t) None) names)) by (rewrite map_length, seq_length; exact Hk).
  rewrite (map_nth (fun k => map (fun t => nth k (x t) None) names)), seq_nth by exact Hk. cbn [Nat.add].
  rewrite (nth_indep _ None (nth k (x (LInt 0)) None)) by (rewrite map_length; exact Hi). rewrite (map_nth (fun t => nth k (x t) None)). reflexivity.
Qed.
Theorem semicovariance_any : forall eigh T dates names x b fr log fm, (1 <= T)%nat -> 0 <= fr ->
  let C := labelled names (fun t u => semi_partial T b (x t) (x u) * fr) in
  semicovariance eigh (partial_history T dates names x) true b fr log fm = Ok C /\ psd (len names) (f_rows C) /\ symmetric (len names) (f_rows C).
Proof.
  intros eigh T dates names x b fr log fm HT Hfr C. assert (HI : 0 < INR T) by (apply lt_0_INR; lia).
  assert (G : psd (len names) (f_rows C) /\ symmetric (len names) (f_rows C)).
  { apply (gram_psd _ T (fun _ => fr / INR T) (fun k i => shortfall b (nth k (x (name names i)) None))).
    - apply labelled_square.
    - intros. apply Rmult_le_pos; [exact Hfr|left; apply Rinv_0_lt_compat; exact HI].
    - intros i j Hi Hj. unfold C. rewrite labelled_entry by assumption. unfold semi_partial. rewrite total_seq, sumn_scal. field. lra. }
  split; [|exact G]. unfold semicovariance, get_returns. cbn [rbind].
  assert (HL : len (f_rows (partial_history T dates names x)) = T) by (unfold partial_history; cbn [f_rows]; rewrite map_length, seq_length; reflexivity).
  rewrite HL. replace (T =? 0)%nat with false by (symmetry; apply Nat.eqb_neq; lia). change (f_cols (partial_history T dates names x)) with names.
  assert (E : array (len names) (len names) (fun i j => sumn T (fun k => drop_cell b (nth i (nth k (f_rows (partial_history T dates names x)) []) None) * drop_cell b (nth j (nth k (f_rows (partial_history T dates names x)) []) None)) / INR T * fr) = f_rows C).
  { unfold C. rewrite labelled_rows. unfold array. apply map_ext_in. intros i Hi. apply in_seq in Hi. apply map_ext_in. intros j Hj. apply in_seq in Hj.
    unfold semi_partial. rewrite total_seq. f_equal. f_equal. apply sumn_ext. intros k Hk. rewrite !partial_cell by lia. reflexivity. }
  rewrite E. rewrite fixed_good by apply G. reflexivity.
Qed.
Lemma history_partial : forall T dates names x, (forall t, In t names -> len (x t) = T) -> history T dates names x = partial_history T dates names (fun t => map Some (x t)).
Proof.
  intros T dates names x Hx. unfold history, partial_history. f_equal. apply map_ext_in. intros k Hk. apply in_seq in Hk. apply map_ext_in. intros t Ht.
  rewrite (nth_indep _ None (Some 0)) by (rewrite map_length, (Hx t Ht); lia). rewrite map_nth. reflexivity.
Qed.
Theorem semicovariance_complete : forall eigh T dates names x b fr log fm, (1 <= T)%nat -> 0 <= fr -> (forall t, In t names -> len (x t) = T) ->
  let C := labelled names (fun t u => semi b (x t) (x u) * fr) in
  semicovariance eigh (history T dates names x) true b fr log fm = Ok C /\ psd (len names) (f_rows C) /\ symmetric (len names) (f_rows C).
Proof.
  intros eigh T dates names x b fr log fm HT Hfr Hx C. rewrite history_partial by exact Hx.
  pose proof (semicovariance_any eigh T dates names (fun t => map Some (x t)) b fr log fm HT Hfr) as H.
  assert (E : C = labelled names (fun t u => semi_partial T b (map Some (x t)) (map Some (x u)) * fr)).
  { unfold C, labelled. f_equal. apply map_ext_in. intros t Ht. apply map_ext_in. intros u Hu. unfold semi, semi_partial. rewrite (Hx t Ht). f_equal. f_equal. f_equal.
    apply map_ext_in. intros k Hk. apply in_seq in Hk.
    rewrite !(nth_indep _ None (Some 0)) by (rewrite map_length, Hx by assumption; lia). rewrite !map_nth. reflexivity. }
  rewrite E. exact H.
Qed.
(** a missing return counts as a return at the benchmark or above *)
Lemma semi_partial_present : forall b (x : list (option R)), total (map (fun k => shortfall b (nth k x None) * shortfall b (nth k x None)) (seq 0 (len x))) =
  total (map (fun v => Rmin (v - b) 0 * Rmin (v - b) 0) (present x)).
Proof.
  intros b x. induction x as [|a x IH]; [reflexivity|]. cbn [List.length seq map total nth]. rewrite <- seq_shift, map_map. cbn [nth]. rewrite IH.
  destruct a as [v|]; unfold present; cbn [flat_map app map total shortfall]; [reflexivity|ring].
Qed.
Theorem semicovariance_missing : forall T b x, len x = T -> present x <> [] ->
  semi_partial T b x x = INR (len (present x)) / INR T * semi b (present x) (present x).
Proof.
  intros T b x HT Hp. unfold semi_partial, semi. rewrite <- HT, semi_partial_present.
  rewrite <- (nth_seq_map (present x) 0) at 1. rewrite map_map. assert (0 < INR (len (present x))) by (apply lt_0_INR; destruct (present x); [congruence|cbn; lia]).
  assert (0 < INR (len x)). { apply lt_0_INR. destruct x; [contradiction Hp; reflexivity|cbn; lia]. }
  field. split; lra.
Qed.

(** C71: exponential covariance *)
Lemma covariation_some : forall mx my x y, len x = len y -> covariation mx my (map Some x) (map Some y) = map Some (map (fun k => (nth k x 0 - mx) * (nth k y 0 - my)) (seq 0 (len x))).
Proof.
  intros mx my. induction x as [|a x IH]; intros [|b y] H; try discriminate H; [reflexivity|]. cbn [map covariation List.length seq nth]. f_equal.
  rewrite IH by (injection H; auto). rewrite <- seq_shift, !map_map. reflexivity.
Qed.
Lemma pair_exp_cov_some : forall x y span, 1 <= span -> (1 <= len x)%nat -> len x = len y -> pair_exp_cov (map Some x) (map Some y) span = Ok (Some (ema_covariance span x y)).
Proof.
  intros x y span Hs Hx H. unfold pair_exp_cov. rewrite (proj2 (Rltb_false span 1)) by exact Hs.
  assert (x <> []) by (intros ->; cbn in Hx; lia). assert (y <> []) by (intros ->; cbn in H; lia).
  rewrite !mean_some by assumption. rewrite covariation_some by exact H.
  assert (L : len (map (fun k => (nth k x 0 - average x) * (nth k y 0 - average y)) (seq 0 (len x))) = len x) by (rewrite map_length, seq_length; reflexivity).
  assert (E : ewm_last (1 - 2 / (span + 1)) (map Some (map (fun k => (nth k x 0 - average x) * (nth k y 0 - average y)) (seq 0 (len x)))) = Some (ema_covariance span x y)).
  { rewrite ewm_complete by (auto; rewrite L; exact Hx). f_equal. unfold ema_value, ema_covariance. rewrite L. f_equal. apply map_ext_in. intros k Hk. apply in_seq in Hk. f_equal. apply nth_of_seq. lia. }
  rewrite <- E. destruct x as [|a x]; [cbn in Hx; lia|]. reflexivity.
Qed.
Lemma ema_covariance_sym : forall span x y, len x = len y -> ema_covariance span x y = ema_covariance span y x.
Proof. intros span x y H. unfold ema_covariance. rewrite H. f_equal. apply map_ext. intros; ring. Qed.
Theorem exp_cov_complete : forall eigh T dates names x span fr log fm, (1 <= T)%nat -> 1 <= span -> 0 <= fr -> (forall t, In t names -> len (x t) = T) ->
  let C := labelled names (fun t u => ema_covariance span (x t) (x u) * fr) in
  exp_cov eigh (history T dates names x) true span fr log fm = Ok C /\ psd (len names) (f_rows C) /\ symmetric (len names) (f_rows C).
Proof.
  intros eigh T dates names x span fr log fm HT Hs Hfr Hx C.
  destruct (decay_range span Hs) as (_ & [D0 _] & _). destruct (decay_weights _ T D0 HT) as (_ & W & _).
  assert (G : psd (len names) (f_rows C) /\ symmetric (len names) (f_rows C)).
  { apply (gram_psd _ T (fun k => decay_weight ((span - 1) / (span + 1)) T k * fr) (fun k i => nth k (x (name names i)) 0 - average (x (name names i)))).
    - apply labelled_square.
    - intros. apply Rmult_le_pos; auto.
    - intros i j Hi Hj. unfold C. rewrite labelled_entry by assumption. unfold ema_covariance. rewrite total_seq, (Hx _ (name_in names i Hi)), <- sumn_scal_r. apply sumn_ext. intros; ring. }
  split; [|exact G]. unfold exp_cov, get_returns. cbn [rbind]. change (f_cols (history T dates names x)) with names.
  set (c := fun i j => ema_covariance span (x (name names i)) (x (name names j))).
  assert (EC : forall i, (i < len names)%nat -> column (f_rows (history T dates names x)) i = map Some (x (name names i))).
  { intros i Hi. pose proof (columns_history T dates names x Hx) as H. unfold columns in H. change (f_cols (history T dates names x)) with names in H.
    assert (H1 : nth_error (map (column (f_rows (history T dates names x))) (seq 0 (len names))) i = nth_error (map (fun t => map Some (x t)) names) i) by (rewrite H; reflexivity).
    rewrite !nth_error_map in H1. rewrite (nth_error_nth' names (LInt 0) Hi), (nth_error_nth' (seq 0 (len names)) O) in H1 by (rewrite seq_length; exact Hi). rewrite seq_nth in H1 by exact Hi. cbn [option_map Nat.add] in H1. injection H1 as H1. exact H1. }
  rewrite (mapM_ok _ (fun i => map (fun j => Some (c i j)) (seq 0 (len names)))).
  - cbn [rbind]. rewrite (whole_table c). cbn [rbind].
    assert (E : scale_rows fr (map (fun t => map (c t) (seq 0 (len names))) (seq 0 (len names))) = f_rows C).
    { unfold C. rewrite labelled_rows. unfold scale_rows, array. rewrite map_map. apply map_ext. intros i. rewrite map_map. reflexivity. }
    rewrite E. rewrite fixed_good by apply G. reflexivity.
  - intros i Hi. apply in_seq in Hi. apply mapM_ok. intros j Hj. apply in_seq in Hj.
    rewrite !EC by lia. unfold c. destruct (le_dec i j).
    + rewrite Nat.min_l, Nat.max_r by lia. apply pair_exp_cov_some; [exact Hs| |]; rewrite !Hx by (apply name_in; lia); lia.
    + rewrite Nat.min_r, Nat.max_l by lia. rewrite pair_exp_cov_some; [|exact Hs| |]; try (rewrite !Hx by (apply name_in; lia); lia).
      rewrite ema_covariance_sym by (rewrite !Hx by (apply name_in; lia); reflexivity). reflexivity.
Qed.

(** C73 *)
Lemma map2_names : forall (names : list label) (f : label -> R) (g : label -> R) (h : R -> R -> R), map2 h (map f names) (map g names) = map (fun t => h (f t) (g t)) names.
Proof. intros. induction names as [|a l IH]; [reflexivity|]. cbn [map map2]. rewrite IH. reflexivity. Qed.
Lemma map2_rows : forall (names : list label) (f : label -> R) (g : label -> list R) (h : R -> list R -> list R), map2 h (map f names) (map g names) = map (fun t => h (f t) (g t)) names.
Proof. intros. induction names as [|a l IH]; [reflexivity|]. cbn [map map2]. rewrite IH. reflexivity. Qed.
Lemma corr_to_cov_labelled : forall names c s, corr_to_cov (labelled names c) (map s names) = Ok (labelled names (fun t u => c t u * (s t * s u))).
Proof.
  intros names c s. unfold corr_to_cov, labelled. cbn [f_rows f_index f_cols]. rewrite !map_length, Nat.eqb_refl.
  assert (H1 : forallb (fun row : list R => (len row =? len names)%nat) (map (fun t => map (c t) names) names) = true).
  { apply forallb_forall. intros row Hr. apply in_map_iff in Hr. destruct Hr as [t [<- _]]. rewrite map_length. apply Nat.eqb_refl. }
  rewrite H1. cbn [andb]. rewrite map2_rows. do 2 f_equal. apply map_ext. intros t. rewrite map2_names. reflexivity.
Qed.
Theorem correlation_round_trip : forall names c, (forall t, In t names -> 0 < c t t) ->
  exists r, cov_to_corr (labelled names c) = Ok (labelled names r) /\
    (forall t u, In t names -> In u names -> r t u = c t u / (sqrt (c t t) * sqrt (c u u))) /\
    (forall t, In t names -> r t t = 1) /\
    corr_to_cov (labelled names r) (map (fun t => sqrt (c t t)) names) = Ok (labelled names c).
Proof.
  intros names c Hp. exists (fun t u => 1 / sqrt (c t t) * (c t u * (1 / sqrt (c u u)))).
  split; [apply cov_to_corr_labelled; exact Hp|]. 
  assert (Hs : forall t, In t names -> 0 < sqrt (c t t)) by (intros; apply sqrt_lt_R0; auto).
  split; [|split].
  - intros t u Ht Hu.
    pose proof (Hs t Ht). pose proof (Hs u Hu). field. split; lra.
  - intros t Ht. pose proof (Hs t Ht). assert (E : sqrt (c t t) * sqrt (c t t) = c t t) by (apply sqrt_sqrt; left; auto). rewrite <- E at 2. field. lra.
  - rewrite corr_to_cov_labelled. unfold labelled. f_equal. f_equal. apply map_ext_in. intros t Ht. apply map_ext_in. intros u Hu. pose proof (Hs t Ht). pose proof (Hs u Hu). field. split; lra.
Qed.
Lemma bil_basis : forall n M i j, (i < n)%nat -> (j < n)%nat -> bil n M (delta i) (delta j) = M i j.
Proof.
  intros n M i j Hi Hj. unfold bil. rewrite sumn_delta_r by exact Hi. rewrite (sumn_ext n _ (fun k => delta j k * M i k)) by (intros; ring). apply sumn_delta_r. exact Hj.
Qed.
Theorem correlation_range : forall names c, (forall t, In t names -> 0 < c t t) -> psd (len names) (f_rows (labelled names c)) -> symmetric (len names) (f_rows (labelled names c)) ->
  forall t u, In t names -> In u names -> -1 <= c t u / (sqrt (c t t) * sqrt (c u u)) <= 1.
Proof.
  intros names c Hp Hpsd Hsym t u Ht Hu. destruct (In_nth names t (LInt 0) Ht) as (i & Hi & Ei). destruct (In_nth names u (LInt 0) Hu) as (j & Hj & Ej).
  pose proof (psd_cauchy (len names) (f_rows (labelled names c)) (delta i) (delta j) Hpsd Hsym) as H. rewrite !bil_basis, !labelled_entry in H by assumption. unfold name in H. rewrite Ei, Ej in H.
  pose proof (Hp t Ht). pose proof (Hp u Hu). assert (S1 : 0 < sqrt (c t t)) by (apply sqrt_lt_R0; lra). assert (S2 : 0 < sqrt (c u u)) by (apply sqrt_lt_R0; lra).
  assert (Q1 : sqrt (c t t) * sqrt (c t t) = c t t) by (apply sqrt_sqrt; lra). assert (Q2 : sqrt (c u u) * sqrt (c u u) = c u u) by (apply sqrt_sqrt; lra).
  set (s := sqrt (c t t) * sqrt (c u u)) in *. assert (Hs : 0 < s) by (apply Rmult_lt_0_compat; assumption).
  assert (HH : c t u * c t u <= s * s) by (unfold s; rewrite <- Q1, <- Q2 in H; rewrite Q1, Q2 in H; nra).
  assert (-s <= c t u <= s) by (split; nra). split; apply Rmult_le_reg_r with s; auto; unfold Rdiv; rewrite Rmult_assoc, Rinv_l by lra; lra.
Qed.
