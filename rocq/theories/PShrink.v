(** * The shrinkage intensities of the Ledoit-Wolf estimators *)
From Coq Require Import ZArith List String Bool Reals Lra Lia Arith.
From Verif Require Import Num Py RBase PyLemmas MFrame MHRP MReturns MRisk SLin SHRP SReturns SRisk SShrink Sums Mat PBase PHRP2 PHRP3 PFrame PReturns PReturns3 PCov1 PCov2 PCov3.
Import ListNotations.
Local Open Scope R_scope.

Lemma mean_over_sumn : forall T f, mean_over T f = sumn T f / INR T.
Proof. intros. unfold mean_over. rewrite total_seq. reflexivity. Qed.
Lemma over_pairs_sumn : forall n g, over_pairs n g = sumn n (fun i => sumn n (fun j => g i j)).
Proof. intros. unfold over_pairs. rewrite total_seq. apply sumn_ext. intros. apply total_seq. Qed.
Lemma over_different_sumn : forall n g, over_different n g = sumn n (fun i => sumn n (fun j => g i j)) - sumn n (fun i => g i i).
Proof.
  intros. unfold over_different. rewrite over_pairs_sumn, <- sumn_minus. apply sumn_ext. intros i Hi.
  assert (E : forall j, (j < n)%nat -> (if Nat.eqb i j then 0 else g i j) = g i j - delta i j * g i j) by (intros; unfold delta; destruct (Nat.eqb i j); ring).
  rewrite (sumn_ext n _ _ E), sumn_minus, sumn_delta_r by exact Hi. reflexivity.
Qed.
Lemma over_different_ext : forall n g h, (forall i j, (i < n)%nat -> (j < n)%nat -> i <> j -> g i j = h i j) -> over_different n g = over_different n h.
Proof.
  intros n g h H. unfold over_different. rewrite !over_pairs_sumn. apply sumn_ext. intros i Hi. apply sumn_ext. intros j Hj. destruct (Nat.eqb_spec i j); [reflexivity|]. apply H; assumption.
Qed.
Lemma over_different_swap : forall n g, over_different n g = over_different n (fun i j => g j i).
Proof. intros. rewrite !over_different_sumn. f_equal. apply sumn_swap. Qed.
Lemma over_different_plus : forall n g h, over_different n (fun i j => g i j + h i j) = over_different n g + over_different n h.
Proof.
  intros. rewrite !over_different_sumn. rewrite (sumn_ext n _ (fun i => sumn n (fun j => g i j) + sumn n (fun j => h i j))) by (intros; apply sumn_plus).
  rewrite (sumn_plus n (fun i => g i i)), (sumn_plus n (fun i => sumn n (fun j => g i j))). ring.
Qed.
Lemma over_different_scal : forall n c g, over_different n (fun i j => c * g i j) = c * over_different n g.
Proof.
  intros. rewrite !over_different_sumn. rewrite (sumn_ext n _ (fun i => c * sumn n (fun j => g i j))) by (intros; apply sumn_scal).
  rewrite (sumn_scal n c (fun i => g i i)), (sumn_scal n c (fun i => sumn n (fun j => g i j))). ring.
Qed.
(** the asymptotic covariance, expanded *)
Lemma asymptotic_expand : forall T a b s c d s', (0 < T)%nat -> asymptotic T a b s c d s' =
  sumn T (fun k => deviation a k * deviation b k * (deviation c k * deviation d k)) / INR T - s' * (sumn T (fun k => deviation a k * deviation b k) / INR T)
  - s * (sumn T (fun k => deviation c k * deviation d k) / INR T) + s * s'.
Proof.
  intros T a b s c d s' HT. assert (0 < INR T) by (apply lt_0_INR; exact HT). unfold asymptotic. rewrite mean_over_sumn.
  rewrite (sumn_ext T _ (fun k => (deviation a k * deviation b k * (deviation c k * deviation d k) - s' * (deviation a k * deviation b k)) - (s * (deviation c k * deviation d k) - s * s'))) by (intros; ring).
  rewrite !sumn_minus, !sumn_scal, sumn_const. field. lra.
Qed.
Lemma asymptotic_comm : forall T a b s c d s', asymptotic T a b s c d s' = asymptotic T a b s d c s'.
Proof. intros. unfold asymptotic. rewrite !mean_over_sumn. f_equal. apply sumn_ext. intros; ring. Qed.
(** around the plain covariances only the first and the last term remain *)
Lemma asymptotic_plain : forall T a b c d, (0 < T)%nat ->
  asymptotic T a b (plain_covariance T a b) c d (plain_covariance T c d) =
  1 / INR T * sumn T (fun k => deviation a k * deviation b k * (deviation c k * deviation d k)) - plain_covariance T a b * plain_covariance T c d.
Proof.
  intros T a b c d HT. assert (0 < INR T) by (apply lt_0_INR; exact HT). rewrite asymptotic_expand by exact HT. unfold plain_covariance. rewrite !mean_over_sumn. field. lra.
Qed.
Lemma clamp_fin : forall x c T, c <> 0 -> clamp01 (xscale T (xdiv x c)) = Rmax 0 (Rmin 1 (x / c / T)).
Proof. intros x c T H. unfold xdiv. rewrite (proj2 (Reqb_false c 0) H). reflexivity. Qed.

Section Data.
  Variables (T : nat) (dates names : list label) (x : label -> list R).
  Hypothesis (HT : (2 <= T)%nat) (Hn : names <> []) (Hx : forall t, In t names -> len (x t) = T).
  Let n := len names.
  Let xs i := x (name names i).
  Let Xn := nan_to_num (history T dates names x).
  Let Xm := fun k i => entry Xn k i - sumn T (fun l => entry Xn l i) / INR T.
  Lemma Xm_deviation : forall k i, (k < T)%nat -> (i < n)%nat -> Xm k i = deviation (xs i) k.
  Proof. intros k i Hk Hi. unfold Xm, Xn. rewrite sf_entry by assumption. rewrite y_asset by exact Hi. reflexivity. Qed.
End Data.

Theorem constant_intensity : forall eigh sk T dates names x fr, (2 <= T)%nat -> (2 <= len names)%nat -> (forall t, In t names -> len (x t) = T) -> 0 <= fr ->
  (forall t, In t names -> 0 < sample_covariance (x t) (x t)) ->
  let n := len names in let xs i := x (name names i) in let s i j := sample_covariance (xs i) (xs j) in
  let r := mean_correlation n (sample_matrix names x) in
  let g := lw_gamma n s (fun i j => r * sqrt (s i i * s j j)) in
  g <> 0 ->
  exists F, ledoit_wolf eigh sk (seen T dates names x fr) "constant_correlation" = Ok (F, lw_intensity T (lw_pi T n xs s) (rho_constant T n xs s r) g).
Proof.
  intros eigh sk T dates names x fr HT Hn2 Hx Hfr Hpos n xs s r g Hg.
  destruct (constant_correlation_good eigh sk T dates names x fr HT Hn2 Hx Hfr Hpos) as (rows & d0 & E & _).
  assert (Hne : names <> []) by (intros ->; cbn in Hn2; lia).
  unfold ledoit_wolf in *. cbn [String.eqb Ascii.eqb Bool.eqb] in *.
  destruct (constant_correlation (seen T dates names x fr)) as [[M d]|e] eqn:EC; [|discriminate E]. cbn [rbind fst snd] in *.
  destruct (format_annualize eigh (seen T dates names x fr) M) as [F|e] eqn:EF; [|discriminate E]. cbn [rbind]. exists F. do 2 f_equal. clear E EF rows d0.
  set (V := sample_matrix names x) in *.
  assert (HV : forall i j, (i < n)%nat -> (j < n)%nat -> entry V i j = s i j) by (intros; unfold V; rewrite sample_matrix_labelled, labelled_entry by assumption; reflexivity).
  destruct (sample_matrix_good T names x HT Hx) as [P1 P2]. fold V n in P1, P2.
  assert (HD : forall i, (i < n)%nat -> 0 < s i i) by (intros i Hi; apply Hpos, name_in, Hi).
  assert (HD' : forall i, (i < n)%nat -> 0 < entry V i i) by (intros i Hi; rewrite HV by assumption; auto).
  destruct (mean_correlation_range n V Hn2 P1 P2 HD') as (Er & _).
  unfold constant_correlation, seen in EC. cbn [sh_S sh_X] in EC. rewrite whole_table in EC. cbn [rbind] in EC. fold (sample_matrix names x) in EC. fold V in EC.
  change (f_cols (history T dates names x)) with names in EC. fold n in EC. set (Xn := nan_to_num (history T dates names x)) in EC. rewrite (nan_length T dates names x : len Xn = T) in EC.
  replace (n <=? 1)%nat with false in EC by (symmetry; apply Nat.leb_gt; unfold n; lia). cbn [orb] in EC.
  assert (HF : forallb (fun i => Rltb 0 (entry V i i)) (seq 0 n) = true).
  { apply forallb_forall. intros i Hi. apply in_seq in Hi. apply Rltb_true. apply HD'. lia. }
  rewrite HF in EC. cbn [negb] in EC. cbv zeta beta in EC. rewrite <- Er in EC. fold r in EC. injection EC as _ <-.
  set (Xm := fun k i => entry Xn k i - sumn T (fun l => entry Xn l i) / INR T) in *.
  assert (HX : forall k i, (k < T)%nat -> (i < n)%nat -> Xm k i = deviation (xs i) k) by (intros; apply Xm_deviation; assumption).
  assert (HI : 0 < INR T) by (apply lt_0_INR; lia).
  match goal with |- clamp01 (xscale _ (xdiv (?p - ?q) ?c)) = _ => set (cp := p); set (cq := q); set (cg := c) end.
  assert (Eg : cg = g).
  { unfold cg, g, lw_gamma, over_different. rewrite over_pairs_sumn. apply sumn_ext. intros i Hi. apply sumn_ext. intros j Hj. destruct (Nat.eqb_spec i j) as [<-|Hij]; [ring|].
    rewrite !HV by assumption. rewrite sqrt_mult by (left; auto). ring. }
  assert (Epi : forall i j, (i < n)%nat -> (j < n)%nat -> sumn T (fun k => Xm k i * Xm k i * (Xm k j * Xm k j)) / INR T - 2 * sumn T (fun k => Xm k i * Xm k j) * entry V i j / INR T + entry V i j * entry V i j
      = asymptotic T (xs i) (xs j) (s i j) (xs i) (xs j) (s i j)).
  { intros i j Hi Hj. rewrite asymptotic_expand by lia. rewrite HV by assumption.
    rewrite (sumn_ext T (fun k => Xm k i * Xm k i * (Xm k j * Xm k j)) (fun k => deviation (xs i) k * deviation (xs j) k * (deviation (xs i) k * deviation (xs j) k))) by (intros; rewrite !HX by assumption; ring).
    rewrite (sumn_ext T (fun k => Xm k i * Xm k j) (fun k => deviation (xs i) k * deviation (xs j) k)) by (intros; rewrite !HX by assumption; ring).
    field. lra. }
  assert (Ep : cp = lw_pi T n xs s).
  { unfold cp, lw_pi. rewrite over_pairs_sumn. apply sumn_ext. intros i Hi. apply sumn_ext. intros j Hj. apply Epi; assumption. }
  assert (Eq : cq = rho_constant T n xs s r).
  { unfold cq, rho_constant. f_equal.
    - unfold lw_diagonal. rewrite total_seq. apply sumn_ext. intros i Hi. apply Epi; assumption.
    - set (A := fun i j => sqrt (s j j / s i i) * asymptotic T (xs i) (xs i) (s i i) (xs i) (xs j) (s i j)).
      transitivity (r * over_different n A).
      + f_equal. unfold over_different. rewrite over_pairs_sumn. apply sumn_ext. intros i Hi. apply sumn_ext. intros j Hj. destruct (Nat.eqb_spec i j) as [<-|Hij]; [ring|].
        change (1 / sqrt (entry V i i) * sqrt (entry V j j) * (sumn T (fun k => Xm k i * Xm k i * Xm k i * Xm k j) / INR T - sumn T (fun k => Xm k i * Xm k i) / INR T * entry V i j
          - sumn T (fun k => Xm k i * Xm k j) / INR T * entry V i i + entry V i i * entry V i j) = A i j).
        unfold A. rewrite asymptotic_expand by lia. rewrite !HV by assumption. pose proof (HD i Hi). pose proof (HD j Hj). rewrite sqrt_div by lra. pose proof (sqrt_lt_R0 _ (HD i Hi)).
        rewrite (sumn_ext T (fun k => Xm k i * Xm k i * Xm k i * Xm k j) (fun k => deviation (xs i) k * deviation (xs i) k * (deviation (xs i) k * deviation (xs j) k))) by (intros; rewrite !HX by assumption; ring).
        rewrite (sumn_ext T (fun k => Xm k i * Xm k j) (fun k => deviation (xs i) k * deviation (xs j) k)) by (intros; rewrite !HX by assumption; ring).
        rewrite (sumn_ext T (fun k => Xm k i * Xm k i) (fun k => deviation (xs i) k * deviation (xs i) k)) by (intros; rewrite !HX by assumption; ring).
        field. split; lra.
      + transitivity (over_different n (fun i j => r / 2 * (A i j + A j i))).
        * rewrite over_different_scal, (over_different_plus n A (fun i j => A j i)), <- (over_different_swap n A). field.
        * apply over_different_ext. intros i j Hi Hj Hij. unfold A. rewrite (asymptotic_comm T (xs j) (xs j) (s j j) (xs j) (xs i)).
          replace (s j i) with (s i j) by (rewrite <- !HV by assumption; apply P2; assumption). reflexivity. }
  rewrite Eg, Ep, Eq. apply clamp_fin. exact Hg.
Qed.

Theorem market_intensity : forall eigh sk T dates names x fr, (2 <= T)%nat -> names <> [] -> (forall t, In t names -> len (x t) = T) -> 0 <= fr ->
  let n := len names in let xs i := x (name names i) in let m := market T names x in
  let s i j := plain_covariance T (xs i) (xs j) in let b i := plain_covariance T (xs i) m in let v := plain_covariance T m m in
  let g := lw_gamma n s (fun i j => b i * b j / v) in
  v <> 0 -> g <> 0 ->
  exists F, ledoit_wolf eigh sk (seen T dates names x fr) "single_factor" = Ok (F, lw_intensity T (lw_pi T n xs s) (rho_market T n xs m s) g).
Proof.
  intros eigh sk T dates names x fr HT Hn Hx Hfr n xs m s b v g Hv Hg. pose proof (INR_ge2 T HT) as HI. set (c := pcov T names x).
  assert (HP : forall i j, c i j = plain_covariance T (y T names x i) (y T names x j)) by (intros; unfold c, pcov, plain_covariance; rewrite mean_over_sumn; reflexivity).
  assert (Hs : forall i j, (i < n)%nat -> (j < n)%nat -> c i j = s i j) by (intros; rewrite HP, !y_asset by assumption; reflexivity).
  assert (Hb : forall i, (i < n)%nat -> c i n = b i) by (intros; rewrite HP, y_asset by assumption; unfold n; rewrite y_market; reflexivity).
  assert (Hvv : c n n = v) by (rewrite HP; unfold n; rewrite y_market; reflexivity).
  assert (Hm : sample_covariance m m <> 0).
  { intros H. apply Hv. rewrite <- Hvv. unfold c. rewrite pcov_sample by assumption. unfold n. rewrite y_market. fold m. rewrite H. ring. }
  destruct (single_factor_good eigh sk T dates names x fr HT Hn Hx Hfr Hm) as (rows & d0 & E & _).
  unfold ledoit_wolf in *. cbn [String.eqb Ascii.eqb Bool.eqb] in *.
  destruct (single_factor (seen T dates names x fr)) as [[M d]|e] eqn:EC; [|discriminate E]. cbn [rbind fst snd] in *.
  destruct (format_annualize eigh (seen T dates names x fr) M) as [F|e] eqn:EF; [|discriminate E]. cbn [rbind]. exists F. do 2 f_equal. clear E EF rows d0.
  unfold single_factor, seen in EC. cbn [sh_X] in EC. change (f_cols (history T dates names x)) with names in EC. fold n in EC.
  set (Xn := nan_to_num (history T dates names x)) in EC. rewrite (nan_length T dates names x : len Xn = T) in EC.
  assert (E1 : (T <=? 1)%nat = false) by (apply Nat.leb_gt; lia). rewrite E1 in EC.
  set (Xm := fun k i => entry Xn k i - sumn T (fun l => entry Xn l i) / INR T) in EC.
  set (xmkt := fun k => sumn n (fun i => Xm k i) / INR n) in EC.
  assert (HX : forall k i, (k < T)%nat -> (i < n)%nat -> Xm k i = deviation (xs i) k) by (intros; apply Xm_deviation; assumption).
  assert (HM : forall k, (k < T)%nat -> xmkt k = deviation m k).
  { intros k Hk. unfold xmkt, deviation, m. rewrite market_nth by exact Hk. rewrite market_average by assumption. fold n.
    rewrite (sumn_ext n _ (fun i => nth k (x (name names i)) 0 - average (x (name names i)))).
    - rewrite sumn_minus. unfold Rdiv. ring.
    - intros i Hi. rewrite HX by assumption. reflexivity. }
  set (col := fun i k => if (i <? n)%nat then Xm k i else xmkt k) in EC.
  assert (HC : forall i k, (i <= n)%nat -> (k < T)%nat -> col i k = nth k (y T names x i) 0 - average (y T names x i)).
  { intros i k Hi Hk. unfold col. destruct (Nat.ltb_spec i n); [rewrite y_asset by assumption; apply HX; assumption|]. replace i with n by lia. unfold n. rewrite y_market. apply HM. exact Hk. }
  set (cm := fun i => sumn T (fun l => col i l) / INR T) in EC.
  assert (HZ : forall i, (i <= n)%nat -> cm i = 0).
  { intros i Hi. unfold cm. rewrite (sumn_ext T _ (fun k => nth k (y T names x i) 0 - average (y T names x i))) by (intros; apply HC; assumption). rewrite dev_zero by assumption. unfold Rdiv. ring. }
  set (cov := fun i j => sumn T (fun k => (col i k - cm i) * (col j k - cm j)) / (INR T - 1) * (INR T - 1) / INR T) in EC.
  assert (HV : forall i j, (i <= n)%nat -> (j <= n)%nat -> cov i j = c i j).
  { intros i j Hi Hj. unfold cov, c, pcov. rewrite !HZ by assumption.
    rewrite (sumn_ext T _ (fun k => (nth k (y T names x i) 0 - average (y T names x i)) * (nth k (y T names x j) 0 - average (y T names x j)))) by (intros; rewrite !HC by assumption; ring).
    field. split; lra. }
  assert (VS : forall i j, (i < n)%nat -> (j < n)%nat -> cov i j = s i j) by (intros; rewrite HV by lia; apply Hs; assumption).
  assert (VB : forall i, (i < n)%nat -> cov i n = b i) by (intros; rewrite HV by lia; apply Hb; assumption).
  assert (VV : cov n n = v) by (rewrite HV by lia; exact Hvv).
  cbv zeta in EC. match type of EC with context [if Reqb ?a 0 then _ else _] => change a with (cov n n) in EC end.
  rewrite (proj2 (Reqb_false (cov n n) 0)) in EC by (rewrite VV; exact Hv). injection EC as _ <-.
  match goal with |- clamp01 (xscale _ (xdiv (?p - ?q) ?c)) = _ => set (cp := p); set (cq := q); set (cg := c) end.
  assert (Eg : cg = g).
  { unfold cg, g, lw_gamma, over_different. rewrite over_pairs_sumn. apply sumn_ext. intros i Hi. apply sumn_ext. intros j Hj.
    change ((cov i j - (if Nat.eqb i j then cov i i else cov i n * cov j n / cov n n)) * (cov i j - (if Nat.eqb i j then cov i i else cov i n * cov j n / cov n n)) = if Nat.eqb i j then 0 else (b i * b j / v - s i j) * (b i * b j / v - s i j)).
    destruct (Nat.eqb_spec i j) as [<-|Hij]; [ring|]. rewrite (VS i j Hi Hj), (VB i Hi), (VB j Hj), VV. ring. }
  assert (Epi : forall i j, (i < n)%nat -> (j < n)%nat -> asymptotic T (xs i) (xs j) (s i j) (xs i) (xs j) (s i j) = 1 / INR T * sumn T (fun k => Xm k i * Xm k i * (Xm k j * Xm k j)) - cov i j * cov i j).
  { intros i j Hi Hj. unfold s at 1 2. rewrite asymptotic_plain by lia. rewrite (VS i j Hi Hj). unfold s. do 2 f_equal. apply sumn_ext. intros k Hk. rewrite !HX by assumption. ring. }
  assert (Ep : cp = lw_pi T n xs s).
  { unfold lw_pi. rewrite over_pairs_sumn.
    rewrite (sumn_ext n _ (fun i => 1 / INR T * sumn n (fun j => sumn T (fun k => Xm k i * Xm k i * (Xm k j * Xm k j))) - sumn n (fun j => cov i j * cov i j))).
    - rewrite sumn_minus, sumn_scal. reflexivity.
    - intros i Hi. rewrite <- sumn_scal, <- sumn_minus. apply sumn_ext. intros j Hj. apply Epi; assumption. }
  assert (Eq : cq = rho_market T n xs m s).
  { unfold rho_market. cbv zeta. fold v. set (A := fun i j => b j / v * asymptotic T (xs i) m (b i) (xs i) (xs j) (s i j)). set (B := fun i j => b i * b j / (v * v) * asymptotic T m m v (xs i) (xs j) (s i j)).
    transitivity (lw_diagonal T n xs s + (2 * over_different n A - over_different n B)).
    2:{ f_equal. transitivity (over_different n (fun i j => (A i j + A j i) + -1 * B i j)).
      - rewrite (over_different_plus n (fun i j => A i j + A j i) (fun i j => -1 * B i j)), (over_different_plus n A (fun i j => A j i)), <- (over_different_swap n A), over_different_scal. ring.
      - apply over_different_ext. intros i j Hi Hj Hij. unfold A, B. rewrite (asymptotic_comm T (xs j) m (b j) (xs j) (xs i)). unfold b.
        replace (s j i) with (s i j) by (rewrite <- !Hs by assumption; apply pcov_sym). ring. }
    set (v1 := fun i j => 1 / INR T * sumn T (fun k => Xm k i * Xm k i * (Xm k j * xmkt k)) - cov i n * cov i j).
    set (v3 := fun i j => 1 / INR T * sumn T (fun k => Xm k i * xmkt k * (Xm k j * xmkt k)) - cov n n * cov i j).
    assert (E3 : forall i j, (i < n)%nat -> (j < n)%nat -> A i j = v1 i j * cov j n / cov n n).
    { intros i j Hi Hj. unfold A, v1. pose proof (asymptotic_plain T (xs i) m (xs i) (xs j) ltac:(lia)) as EA. change (plain_covariance T (xs i) m) with (b i) in EA. change (plain_covariance T (xs i) (xs j)) with (s i j) in EA. rewrite EA, (VS i j Hi Hj), (VB i Hi), (VB j Hj), VV.
      rewrite (sumn_ext T (fun k => Xm k i * Xm k i * (Xm k j * xmkt k)) (fun k => deviation (xs i) k * deviation m k * (deviation (xs i) k * deviation (xs j) k))) by (intros; rewrite !HX, HM by assumption; ring). field. split; first [exact Hv|lra]. }
    assert (E4 : forall i j, (i < n)%nat -> (j < n)%nat -> B i j = v3 i j * (cov i n * cov j n) / (cov n n * cov n n)).
    { intros i j Hi Hj. unfold B, v3. pose proof (asymptotic_plain T m m (xs i) (xs j) ltac:(lia)) as EA. change (plain_covariance T m m) with v in EA. change (plain_covariance T (xs i) (xs j)) with (s i j) in EA. rewrite EA, (VS i j Hi Hj), (VB i Hi), (VB j Hj), VV.
      rewrite (sumn_ext T (fun k => Xm k i * xmkt k * (Xm k j * xmkt k)) (fun k => deviation m k * deviation m k * (deviation (xs i) k * deviation (xs j) k))) by (intros; rewrite !HX, HM by assumption; ring). field. split; first [exact Hv|lra]. }
    change cq with (1 / INR T * sumn T (fun k => sumn n (fun i => Xm k i * Xm k i * (Xm k i * Xm k i))) - sumn n (fun i => cov i i * cov i i) +
      (2 * (sumn n (fun i => sumn n (fun j => v1 i j * cov j n)) / cov n n - sumn n (fun i => v1 i i * cov i n) / cov n n) -
        (sumn n (fun i => sumn n (fun j => v3 i j * (cov i n * cov j n))) / (cov n n * cov n n) - sumn n (fun i => v3 i i * (cov i n * cov i n)) / (cov n n * cov n n)))).
    f_equal; [|f_equal; [f_equal|]].
    - unfold lw_diagonal. rewrite total_seq. rewrite (sumn_ext n _ _ (fun i Hi => Epi i i Hi Hi)). rewrite sumn_minus, sumn_scal, sumn_swap. reflexivity.
    - rewrite over_different_sumn. rewrite (sumn_ext n (fun i => A i i) (fun i => v1 i i * cov i n * / cov n n)) by (intros; apply E3; assumption).
      rewrite (sumn_ext n (fun i => sumn n (fun j => A i j)) (fun i => sumn n (fun j => v1 i j * cov j n) * / cov n n)); [rewrite !sumn_scal_r; reflexivity|].
      intros i Hi. rewrite <- sumn_scal_r. apply sumn_ext. intros j Hj. apply E3; assumption.
    - rewrite over_different_sumn. rewrite (sumn_ext n (fun i => B i i) (fun i => v3 i i * (cov i n * cov i n) * / (cov n n * cov n n))) by (intros; apply E4; assumption).
      rewrite (sumn_ext n (fun i => sumn n (fun j => B i j)) (fun i => sumn n (fun j => v3 i j * (cov i n * cov j n)) * / (cov n n * cov n n))); [rewrite !sumn_scal_r; reflexivity|].
      intros i Hi. rewrite <- sumn_scal_r. apply sumn_ext. intros j Hj. apply E4; assumption. }
  rewrite Eg, Ep, Eq. apply clamp_fin. exact Hg.
Qed.
(** with the constructor *)
Theorem constant_intensity_init : forall eigh sk T dates names x fr log, (2 <= T)%nat -> (2 <= len names)%nat -> len dates = T -> (forall t, In t names -> len (x t) = T) -> 0 <= fr ->
  (forall t, In t names -> 0 < sample_covariance (x t) (x t)) ->
  let n := len names in let xs i := x (name names i) in let s i j := sample_covariance (xs i) (xs j) in
  let r := mean_correlation n (sample_matrix names x) in
  let g := lw_gamma n s (fun i j => r * sqrt (s i i * s j j)) in
  g <> 0 ->
  exists sh F, shrinkage_init (history T dates names x) true fr log = Ok sh /\
    ledoit_wolf eigh sk sh "constant_correlation" = Ok (F, lw_intensity T (lw_pi T n xs s) (rho_constant T n xs s r) g).
Proof.
  intros eigh sk T dates names x fr log HT Hn Hd Hx Hfr Hp n xs s r g Hg. destruct (constant_intensity eigh sk T dates names x fr HT Hn Hx Hfr Hp Hg) as (F & E).
  exists (seen T dates names x fr), F. split; [apply init_history; try assumption; intros ->; cbn in Hn; lia|exact E].
Qed.
Theorem market_intensity_init : forall eigh sk T dates names x fr log, (2 <= T)%nat -> names <> [] -> len dates = T -> (forall t, In t names -> len (x t) = T) -> 0 <= fr ->
  let n := len names in let xs i := x (name names i) in let m := market T names x in
  let s i j := plain_covariance T (xs i) (xs j) in let b i := plain_covariance T (xs i) m in let v := plain_covariance T m m in
  let g := lw_gamma n s (fun i j => b i * b j / v) in
  v <> 0 -> g <> 0 ->
  exists sh F, shrinkage_init (history T dates names x) true fr log = Ok sh /\
    ledoit_wolf eigh sk sh "single_factor" = Ok (F, lw_intensity T (lw_pi T n xs s) (rho_market T n xs m s) g).
Proof.
  intros eigh sk T dates names x fr log HT Hn Hd Hx Hfr n xs m s b v g Hv Hg. destruct (market_intensity eigh sk T dates names x fr HT Hn Hx Hfr Hv Hg) as (F & E).
  exists (seen T dates names x fr), F. split; [apply init_history; assumption|exact E].
Qed.
