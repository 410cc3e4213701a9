(** * The estimators do not look at the order of the days (C131) *)
From Coq Require Import ZArith List String Bool Reals Lra Lia Permutation FunctionalExtensionality.
From Verif Require Import Num Py RBase PBase MFrame MHRP MReturns MRisk SLin Sums SDayOrder.
Import ListNotations.
Local Open Scope R_scope.

Local Transparent vsum.
Lemma vsum_perm : forall a b : list R, Permutation a b -> vsum a = vsum b.
Proof.
  intros a b H. rewrite !vsum_total. induction H; cbn; try lra.
Qed.

Lemma same_days_rows : forall X (f g : frame X), same_days f g -> Permutation (f_rows f) (f_rows g).
Proof.
  intros X f g [_ H1 H2 H].
  assert (E : forall (a : list label) (b : list (list X)), List.length a = List.length b -> map snd (combine a b) = b).
  { induction a as [|x a IH]; intros [|y b] L; cbn in *; try discriminate; [reflexivity|]. f_equal. apply IH. lia. }
  rewrite <- (E _ _ H1), <- (E _ _ H2). apply Permutation_map, H.
Qed.

Lemma column_perm : forall (rows rows' : list (list (option R))) j, Permutation rows rows' -> Permutation (column rows j) (column rows' j).
Proof. intros. apply Permutation_map, H. Qed.

Lemma present_perm : forall a b : list (option R), Permutation a b -> Permutation (present a) (present b).
Proof. intros a b H. unfold present. apply Permutation_flat_map, H. Qed.

Lemma mean_of_perm : forall a b : list R, Permutation a b -> mean_of a = mean_of b.
Proof. intros a b H. unfold mean_of. rewrite (vsum_perm _ _ H), (Permutation_length H). reflexivity. Qed.

Lemma mean_perm : forall a b : list (option R), Permutation a b -> mean a = mean b.
Proof.
  intros a b H. apply present_perm in H. unfold mean.
  pose proof (Permutation_length H) as L. pose proof (mean_of_perm _ _ H) as M.
  destruct (present a), (present b); cbn in L; try discriminate; [reflexivity|]. now rewrite M.
Qed.

Lemma product_perm : forall a b : list R, Permutation a b -> product a = product b.
Proof. intros a b H. induction H; cbn; try lra; try (rewrite IHPermutation; lra). Qed.

Lemma cagr_perm : forall fr a b, Permutation a b -> cagr fr a = cagr fr b.
Proof.
  intros fr a b H. apply present_perm in H. unfold cagr, count.
  pose proof (Permutation_length H) as L.
  pose proof (product_perm _ _ (Permutation_map (fun x => 1 + x) H)) as M. rewrite L.
  destruct (present a), (present b); cbn [List.length] in L; try discriminate; [reflexivity|]. now rewrite M.
Qed.

Lemma arithmetic_perm : forall fr a b, Permutation a b -> arithmetic fr a = arithmetic fr b.
Proof. intros fr a b H. unfold arithmetic. now rewrite (mean_perm _ _ H). Qed.

Lemma both_column : forall (rows : list (list (option R))) i j,
  both (column rows i) (column rows j)
  = flat_map (fun row => match nth i row None, nth j row None with Some a, Some b => [(a, b)] | _, _ => [] end) rows.
Proof.
  induction rows as [|r rows IH]; intros i j; [reflexivity|]. cbn [column map both flat_map].
  unfold column in IH. rewrite <- IH.
  destruct (nth i r None), (nth j r None); reflexivity.
Qed.

Lemma codev_perm : forall a b : list (R * R), Permutation a b -> codev a = codev b.
Proof.
  intros a b H. unfold codev.
  rewrite (mean_of_perm _ _ (Permutation_map fst H)), (mean_of_perm _ _ (Permutation_map snd H)).
  apply vsum_perm, Permutation_map, H.
Qed.

Lemma pair_cov_perm : forall (rows rows' : list (list (option R))) i j, Permutation rows rows' ->
  pair_cov (column rows i) (column rows j) = pair_cov (column rows' i) (column rows' j).
Proof.
  intros rows rows' i j H. unfold pair_cov. rewrite !both_column.
  set (g := fun row : list (option R) => _). pose proof (Permutation_flat_map g H) as P.
  rewrite (Permutation_length P), (codev_perm _ _ P). reflexivity.
Qed.

Lemma pair_corr_perm : forall (rows rows' : list (list (option R))) i j, Permutation rows rows' ->
  pair_corr (column rows i) (column rows j) = pair_corr (column rows' i) (column rows' j).
Proof.
  intros rows rows' i j H. unfold pair_corr. rewrite !both_column.
  set (g := fun row : list (option R) => _). pose proof (Permutation_flat_map g H) as P.
  rewrite (codev_perm _ _ P), (codev_perm _ _ (Permutation_map (fun ab => (fst ab, fst ab)) P)),
    (codev_perm _ _ (Permutation_map (fun ab => (snd ab, snd ab)) P)). reflexivity.
Qed.

Lemma pairwise_perm : forall h (f g : frame (option R)),
  (forall rows rows' i j, Permutation rows rows' -> h (column rows i) (column rows j) = h (column rows' i) (column rows' j)) ->
  f_cols f = f_cols g -> Permutation (f_rows f) (f_rows g) -> pairwise h f = pairwise h g.
Proof.
  intros h f g Hh C P. unfold pairwise, columns. rewrite C. f_equal.
  rewrite !map_map. apply map_ext. intros i. rewrite !map_map. apply map_ext. intros j. apply Hh, P.
Qed.

Lemma frame_cov_perm : forall f g : frame (option R), f_cols f = f_cols g -> Permutation (f_rows f) (f_rows g) -> frame_cov f = frame_cov g.
Proof. intros. apply pairwise_perm; auto. intros. apply pair_cov_perm; auto. Qed.
Lemma frame_corr_perm : forall f g : frame (option R), f_cols f = f_cols g -> Permutation (f_rows f) (f_rows g) -> frame_corr f = frame_corr g.
Proof. intros. apply pairwise_perm; auto. intros. apply pair_corr_perm; auto. Qed.

Lemma mapM_ext : forall A B (f g : A -> res B) l, (forall x, f x = g x) -> mapM f l = mapM g l.
Proof. intros A B f g l H. induction l as [|x l IH]; cbn; [reflexivity|]. now rewrite H, IH. Qed.
Lemma mapM_map_in : forall A B C (f : B -> res C) (g : A -> B) l, mapM f (map g l) = mapM (fun x => f (g x)) l.
Proof. intros A B C f g l. induction l as [|x l IH]; cbn; [reflexivity|]. now rewrite IH. Qed.

(** the same rows in another order, with the same columns *)
Lemma mean_rows : forall f g : frame (option R), f_cols f = f_cols g -> Permutation (f_rows f) (f_rows g) ->
  forall compounding fr lg, same_estimates (mean_historical_return f true compounding fr lg) (mean_historical_return g true compounding fr lg).
Proof.
  intros f g C P compounding fr lg. unfold mean_historical_return. cbn [rbind].
  assert (E : (if compounding then mapM (cagr fr) (columns f) else Ok (map (arithmetic fr) (columns f)))
            = (if compounding then mapM (cagr fr) (columns g) else Ok (map (arithmetic fr) (columns g)))).
  { unfold columns. rewrite C. destruct compounding.
    - rewrite !mapM_map_in. apply mapM_ext. intros j. apply cagr_perm, column_perm, P.
    - f_equal. rewrite !map_map. apply map_ext. intros j. apply arithmetic_perm, column_perm, P. }
  rewrite E. destruct (if compounding then mapM (cagr fr) (columns g) else _) as [v|e]; unfold same_estimates; cbn [rbind snd]; [now rewrite C|reflexivity].
Qed.

Lemma capm_rows : forall f g : frame (option R), f_cols f = f_cols g -> Permutation (f_rows f) (f_rows g) ->
  forall rf compounding fr, same_estimates (capm_estimate f rf compounding fr) (capm_estimate g rf compounding fr).
Proof.
  intros f g C P rf compounding fr. unfold capm_estimate.
  rewrite (frame_cov_perm f g C P). cbv zeta. rewrite C.
  destruct (loc (frame_cov g) mkt mkt) as [v|]; cbn [rbind]; [|unfold same_estimates; reflexivity].
  destruct (mapM _ _) as [bs|]; cbn [rbind]; [|unfold same_estimates; reflexivity].
  destruct (position mkt (f_cols g)) as [j|]; [|unfold same_estimates; reflexivity].
  pose proof (column_perm _ _ j P) as Q.
  rewrite (cagr_perm fr _ _ Q), (arithmetic_perm fr _ _ Q).
  destruct (if compounding then cagr fr (column (f_rows g) j) else _) as [m|]; unfold same_estimates; cbn [rbind snd]; reflexivity.
Qed.

Lemma map2_map_l : forall A B (F : option A -> B -> B) (h : B -> option A) l, map2 F (map h l) l = map (fun r => F (h r) r) l.
Proof. intros A B F h l. induction l as [|x l IH]; cbn; [reflexivity|]. now rewrite IH. Qed.

Lemma set_mkt_cols : forall (f g : frame (option R)) v v', f_cols f = f_cols g -> f_cols (set_column mkt v f) = f_cols (set_column mkt v' g).
Proof. intros f g v v' C. unfold set_column. rewrite C. destruct (position mkt (f_cols g)); cbn; congruence. Qed.
Lemma set_mkt_rows : forall f g : frame (option R), f_cols f = f_cols g -> Permutation (f_rows f) (f_rows g) ->
  Permutation (f_rows (set_column mkt (map mean (f_rows f)) f)) (f_rows (set_column mkt (map mean (f_rows g)) g)).
Proof.
  intros f g C P. unfold set_column. rewrite C. destruct (position mkt (f_cols g)) as [j|]; cbn [f_rows];
    rewrite !map2_map_l; apply Permutation_map, P.
Qed.

(** the market table *)
Lemma filter_perm : forall A (h : A -> bool) a b, Permutation a b -> Permutation (filter h a) (filter h b).
Proof.
  intros A h a b H. induction H; cbn.
  - constructor.
  - destruct (h x); [constructor|]; assumption.
  - destruct (h x), (h y); try apply perm_swap; apply Permutation_refl.
  - eapply Permutation_trans; eassumption.
Qed.
Lemma flat_map_perm : forall A B (h h' : A -> list B) a b, (forall x, Permutation (h x) (h' x)) -> Permutation a b ->
  Permutation (flat_map h a) (flat_map h' b).
Proof.
  intros A B h h' a b Hh H. apply Permutation_trans with (flat_map h b); [apply Permutation_flat_map, H|].
  clear H. induction b as [|x b IH]; cbn; [constructor|]. apply Permutation_app; auto.
Qed.

Definition matched (m : frame (option R)) (ir : label * list (option R)) : list (label * list (option R)) :=
  match filter (fun mr => label_eqb (fst ir) (fst mr)) (days m) with
  | [] => [(fst ir, snd ir ++ [None])]
  | ms => map (fun mr => (fst ir, snd ir ++ snd mr)) ms
  end.
Lemma matched_perm : forall m m' ir, Permutation (days m) (days m') -> Permutation (matched m ir) (matched m' ir).
Proof.
  intros m m' ir H. unfold matched.
  pose proof (filter_perm _ (fun mr : label * list (option R) => label_eqb (fst ir) (fst mr)) _ _ H) as P.
  pose proof (Permutation_length P) as L.
  destruct (filter _ (days m)) as [|a l], (filter _ (days m')) as [|b l']; cbn [List.length] in L; try discriminate.
  - apply Permutation_refl.
  - apply Permutation_map, P.
Qed.

Lemma join_days : forall f g m m' : frame (option R), f_cols f = f_cols g -> f_cols m = f_cols m' ->
  Permutation (days f) (days g) -> Permutation (days m) (days m') ->
  match join_left f m, join_left g m' with
  | Ok a, Ok b => f_cols a = f_cols b /\ Permutation (f_rows a) (f_rows b)
  | Err e, Err e' => e = e'
  | _, _ => False
  end.
Proof.
  intros f g m m' C Cm P Q. unfold join_left. rewrite C. destruct (existsb _ _); [reflexivity|].
  cbn [f_cols f_rows]. split; [now rewrite Cm|]. apply Permutation_map.
  apply (flat_map_perm _ _ (matched m) (matched m')); [|exact P]. intros ir. apply matched_perm, Q.
Qed.

Lemma rename_days : forall m m' : frame (option R), f_cols m = f_cols m' -> Permutation (days m) (days m') ->
  match rename_market m, rename_market m' with
  | Ok a, Ok b => f_cols a = f_cols b /\ Permutation (days a) (days b)
  | Err e, Err e' => e = e'
  | _, _ => False
  end.
Proof.
  intros m m' C P. unfold rename_market. rewrite C. destruct (Nat.eqb _ _); [|reflexivity]. split; [reflexivity|exact P].
Qed.

(** ** the matrices *)
(** a permutation of rows is a re-numbering of the days *)
Lemma rows_renumbered : forall A (d : A) l l', Permutation l l' ->
  exists s, (forall k, nth k l' d = nth (s k) l d) /\ (forall h : nat -> R, sumn (List.length l) (fun k => h (s k)) = sumn (List.length l) h).
Proof.
  intros A d l l' H.
  induction H as [|x l l' H IH|x y l|l l' l'' H1 IH1 H2 IH2].
  - exists (fun k => k). split; reflexivity.
  - destruct IH as (s & Hs & Hh). exists (fun k => match k with O => O | S k' => S (s k') end). split.
    + intros [|k]; cbn; auto.
    + intros h. cbn [List.length]. assert (E : forall n (q : nat -> R), sumn (S n) q = q O + sumn n (fun k => q (S k))).
      { clear. induction n as [|n IHn]; intros q; [cbn; lra|]. change (sumn (S (S n)) q) with (sumn (S n) q + q (S n)).
        rewrite IHn. cbn. lra. }
      rewrite !E. f_equal. apply (Hh (fun k => h (S k))).
  - exists (fun k => match k with O => 1%nat | 1%nat => O | _ => k end). split.
    + intros [|[|k]]; reflexivity.
    + intros h. cbn [List.length].
      assert (E : forall n (q : nat -> R), sumn (S n) q = q O + sumn n (fun k => q (S k))).
      { clear. induction n as [|n IHn]; intros q; [cbn; lra|]. change (sumn (S (S n)) q) with (sumn (S n) q + q (S n)).
        rewrite IHn. cbn. lra. }
      rewrite !E. cbv beta iota. lra.
  - destruct IH1 as (s1 & H1s & H1h), IH2 as (s2 & H2s & H2h). exists (fun k => s1 (s2 k)). split.
    + intros k. rewrite H2s. apply H1s.
    + intros h. rewrite <- (Permutation_length H1) in H2h. rewrite (H2h (fun k => h (s1 k))). apply H1h.
Qed.

Lemma semicov_days : forall f g : frame (option R), f_cols f = f_cols g -> Permutation (f_rows f) (f_rows g) ->
  forall eigh b fr lg fm, semicovariance eigh f true b fr lg fm = semicovariance eigh g true b fr lg fm.
Proof.
  intros f g C P eigh b fr lg fm. unfold semicovariance, get_returns. cbn [rbind]. cbv zeta.
  destruct (rows_renumbered _ [] _ _ P) as (s & Hs & Hh).
  rewrite C, <- (Permutation_length P). destruct (Nat.eqb _ 0); [reflexivity|]. f_equal.
  unfold array. apply map_ext. intros i. apply map_ext. intros j. f_equal. f_equal.
  rewrite <- Hh. apply sumn_ext. intros k _. rewrite Hs. reflexivity.
Qed.

(** the sums over the days that [single_factor] takes, and what it makes of them *)
Definition sf_rest (n t : nat) (cov yy yz zz : nat -> nat -> R) (y4 : R) : res (list (list R) * R) :=
  let T := INR t in
  let betas i := cov i n in
  let varmkt := cov n n in
  if Reqb varmkt 0 then Err FloatSpecial else
  let F i j := if Nat.eqb i j then cov i i else betas i * betas j / varmkt in
  let c := sumn n (fun i => sumn n (fun j => (cov i j - F i j) * (cov i j - F i j))) in
  let p := 1 / T * sumn n (fun i => sumn n (fun j => yy i j))
           - sumn n (fun i => sumn n (fun j => cov i j * cov i j)) in
  let rdiag := 1 / T * y4 - sumn n (fun i => cov i i * cov i i) in
  let v1 i j := 1 / T * yz i j - betas i * cov i j in
  let roff1 := sumn n (fun i => sumn n (fun j => v1 i j * betas j)) / varmkt - sumn n (fun i => v1 i i * betas i) / varmkt in
  let v3 i j := 1 / T * zz i j - varmkt * cov i j in
  let roff3 := sumn n (fun i => sumn n (fun j => v3 i j * (betas i * betas j))) / (varmkt * varmkt)
               - sumn n (fun i => v3 i i * (betas i * betas i)) / (varmkt * varmkt) in
  let r := rdiag + (2 * roff1 - roff3) in
  let d := clamp01 (xscale T (xdiv (p - r) c)) in
  Ok (array n n (fun i j => d * F i j + (1 - d) * cov i j), d).

Section Sums.
  Variables (n t : nat) (E : nat -> nat -> R).
  Definition xm k i := E k i - sumn t (fun l => E l i) / INR t.
  Definition xmk k := sumn n (fun i => xm k i) / INR n.
  Definition cl i k := if (i <? n)%nat then xm k i else xmk k.
  Definition cme i := sumn t (fun l => cl i l) / INR t.
  Definition cv i j := sumn t (fun k => (cl i k - cme i) * (cl j k - cme j)) / (INR t - 1) * (INR t - 1) / INR t.
  Definition s_yy i j := sumn t (fun k => (xm k i * xm k i) * (xm k j * xm k j)).
  Definition s_yz i j := sumn t (fun k => (xm k i * xm k i) * (xm k j * xmk k)).
  Definition s_zz i j := sumn t (fun k => (xm k i * xmk k) * (xm k j * xmk k)).
  Definition s_y4 := sumn t (fun k => sumn n (fun i => (xm k i * xm k i) * (xm k i * xm k i))).
  Definition s_xx i j := sumn t (fun k => xm k i * xm k j).
  Definition s_x3 i j := sumn t (fun k => xm k i * xm k i * xm k i * xm k j).
End Sums.

Lemma single_factor_sums : forall sh,
  single_factor sh =
  (let X := nan_to_num (sh_X sh) in let t := List.length X in let n := List.length (f_cols (sh_X sh)) in let E := entry X in
   if (t <=? 1)%nat then Err FloatSpecial else sf_rest n t (cv n t E) (s_yy t E) (s_yz n t E) (s_zz n t E) (s_y4 n t E)).
Proof. reflexivity. Qed.

Definition cc_rest (n t : nat) (C : list (list R)) (help pp x3 : nat -> nat -> R) : res (list (list R) * R) :=
  let T := INR t in let N := INR n in
  let s i j := entry C i j in
  if (n <=? 1)%nat || negb (forallb (fun i => Rltb 0 (s i i)) (seq 0 n)) then Err FloatSpecial else
  let std i := sqrt (s i i) in
  let r_bar := (sumn n (fun i => sumn n (fun j => s i j / (std i * std j))) - N) / (N * (N - 1)) in
  let F i j := if Nat.eqb i j then s i i else r_bar * (std i * std j) in
  let pi_mat i j := pp i j / T - 2 * help i j * s i j / T + s i j * s i j in
  let pi_hat := sumn n (fun i => sumn n (fun j => pi_mat i j)) in
  let theta i j := if Nat.eqb i j then 0 else
      x3 i j / T - help i i / T * s i j - help i j / T * s i i + s i i * s i j in
  let rho_hat := sumn n (fun i => pi_mat i i) + r_bar * sumn n (fun i => sumn n (fun j => (1 / std i * std j) * theta i j)) in
  let gamma := sumn n (fun i => sumn n (fun j => (s i j - F i j) * (s i j - F i j))) in
  let d := clamp01 (xscale T (xdiv (pi_hat - rho_hat) gamma)) in
  Ok (array n n (fun i j => d * F i j + (1 - d) * s i j), d).
Lemma constant_correlation_sums : forall sh,
  constant_correlation sh =
  (do C <- whole (sh_S sh) ;
   let X := nan_to_num (sh_X sh) in let t := List.length X in let n := List.length (f_cols (sh_X sh)) in let E := entry X in
   cc_rest n t C (s_xx t E) (s_yy t E) (s_x3 t E)).
Proof. reflexivity. Qed.

Section Renumber.
  Variables (n t : nat) (E E' : nat -> nat -> R) (s : nat -> nat).
  Hypothesis HE : forall k i, E' k i = E (s k) i.
  Hypothesis Hh : forall h : nat -> R, sumn t (fun k => h (s k)) = sumn t h.
  Lemma xm_renum : forall k i, xm t E' k i = xm t E (s k) i.
  Proof.
    intros k i. unfold xm. rewrite HE. f_equal. f_equal. rewrite <- (Hh (fun l => E l i)).
    apply sumn_ext. intros l _. apply HE.
  Qed.
  Lemma xmk_renum : forall k, xmk n t E' k = xmk n t E (s k).
  Proof. intros k. unfold xmk. f_equal. apply sumn_ext. intros i _. apply xm_renum. Qed.
  Lemma cl_renum : forall i k, cl n t E' i k = cl n t E i (s k).
  Proof. intros i k. unfold cl. destruct (i <? n)%nat; [apply xm_renum|apply xmk_renum]. Qed.
  Ltac over h := rewrite <- (Hh h); apply sumn_ext; intros k _.
  Lemma cme_renum : forall i, cme n t E' i = cme n t E i.
  Proof. intros i. unfold cme. f_equal. over (fun l => cl n t E i l). apply cl_renum. Qed.
  Lemma cv_renum : cv n t E' = cv n t E.
  Proof.
    apply functional_extensionality; intros i. apply functional_extensionality; intros j.
    unfold cv. f_equal. f_equal. f_equal. over (fun k => (cl n t E i k - cme n t E i) * (cl n t E j k - cme n t E j)).
    now rewrite !cl_renum, !cme_renum.
  Qed.
  Lemma yy_renum : s_yy t E' = s_yy t E.
  Proof.
    apply functional_extensionality; intros i. apply functional_extensionality; intros j. unfold s_yy.
    over (fun k => (xm t E k i * xm t E k i) * (xm t E k j * xm t E k j)). now rewrite !xm_renum.
  Qed.
  Lemma yz_renum : s_yz n t E' = s_yz n t E.
  Proof.
    apply functional_extensionality; intros i. apply functional_extensionality; intros j. unfold s_yz.
    over (fun k => (xm t E k i * xm t E k i) * (xm t E k j * xmk n t E k)). now rewrite !xm_renum, !xmk_renum.
  Qed.
  Lemma zz_renum : s_zz n t E' = s_zz n t E.
  Proof.
    apply functional_extensionality; intros i. apply functional_extensionality; intros j. unfold s_zz.
    over (fun k => (xm t E k i * xmk n t E k) * (xm t E k j * xmk n t E k)). now rewrite !xm_renum, !xmk_renum.
  Qed.
  Lemma y4_renum : s_y4 n t E' = s_y4 n t E.
  Proof.
    unfold s_y4. over (fun k => sumn n (fun i => (xm t E k i * xm t E k i) * (xm t E k i * xm t E k i))).
    apply sumn_ext. intros i _. now rewrite !xm_renum.
  Qed.
  Lemma xx_renum : s_xx t E' = s_xx t E.
  Proof.
    apply functional_extensionality; intros i. apply functional_extensionality; intros j. unfold s_xx.
    over (fun k => xm t E k i * xm t E k j). now rewrite !xm_renum.
  Qed.
  Lemma x3_renum : s_x3 t E' = s_x3 t E.
  Proof.
    apply functional_extensionality; intros i. apply functional_extensionality; intros j. unfold s_x3.
    over (fun k => xm t E k i * xm t E k i * xm t E k i * xm t E k j). now rewrite !xm_renum.
  Qed.
End Renumber.

(** two shrinkage objects with the same days *)
Definition sh_same (a b : shrinkage) : Prop :=
  f_cols (sh_X a) = f_cols (sh_X b) /\ Permutation (f_rows (sh_X a)) (f_rows (sh_X b)) /\ sh_S a = sh_S b /\ sh_frequency a = sh_frequency b.

Lemma nan_perm : forall f g : frame (option R), Permutation (f_rows f) (f_rows g) -> Permutation (nan_to_num f) (nan_to_num g).
Proof. intros. apply Permutation_map, H. Qed.

Lemma entry_renum : forall X X' : list (list R), Permutation X X' ->
  exists s, (forall k i, entry X' k i = entry X (s k) i) /\ (forall h : nat -> R, sumn (List.length X) (fun k => h (s k)) = sumn (List.length X) h).
Proof.
  intros X X' H. destruct (rows_renumbered _ [] _ _ H) as (s & Hs & Hh). exists s. split; [|exact Hh].
  intros k i. unfold entry. now rewrite Hs.
Qed.

Lemma single_factor_days : forall a b, sh_same a b -> single_factor a = single_factor b.
Proof.
  intros a b (C & P & _ & _). rewrite !single_factor_sums. cbv zeta. apply nan_perm in P.
  destruct (entry_renum _ _ P) as (s & Hs & Hh). rewrite C, <- (Permutation_length P).
  rewrite (cv_renum _ _ _ _ s Hs Hh), (yy_renum _ _ _ s Hs Hh), (yz_renum _ _ _ _ s Hs Hh), (zz_renum _ _ _ _ s Hs Hh),
    (y4_renum _ _ _ _ s Hs Hh). reflexivity.
Qed.
Lemma constant_correlation_days : forall a b, sh_same a b -> constant_correlation a = constant_correlation b.
Proof.
  intros a b (C & P & S & _). rewrite !constant_correlation_sums. cbv zeta. apply nan_perm in P.
  destruct (entry_renum _ _ P) as (s & Hs & Hh). rewrite C, S, <- (Permutation_length P).
  rewrite (yy_renum _ _ _ s Hs Hh), (xx_renum _ _ _ s Hs Hh), (x3_renum _ _ _ s Hs Hh). reflexivity.
Qed.

Lemma dropna_days : forall f g : frame (option R), same_days f g ->
  f_cols (dropna_all f) = f_cols (dropna_all g) /\ Permutation (f_rows (dropna_all f)) (f_rows (dropna_all g)).
Proof.
  intros f g [C _ _ P]. unfold dropna_all. cbn [f_cols f_rows]. split; [exact C|].
  apply Permutation_map, filter_perm, P.
Qed.

Lemma init_days : forall f g fr lg, same_days f g ->
  exists a b, shrinkage_init f true fr lg = Ok a /\ shrinkage_init g true fr lg = Ok b /\ sh_same a b.
Proof.
  intros f g fr lg H. destruct (dropna_days f g H) as [C P].
  do 2 eexists. split; [reflexivity|]. split; [reflexivity|]. unfold sh_same. cbn [sh_X sh_S sh_frequency].
  repeat split; auto. now rewrite (frame_cov_perm _ _ C P).
Qed.

Lemma shrunk_days : forall a b, sh_same a b -> forall eigh d, shrunk_covariance eigh a d = shrunk_covariance eigh b d.
Proof.
  intros a b (C & _ & S & F) eigh d. unfold shrunk_covariance, format_annualize. rewrite C, S, F. reflexivity.
Qed.
Lemma ledoit_days : forall a b, sh_same a b -> forall eigh sk target, (forall x y, Permutation x y -> sk x = sk y) ->
  ledoit_wolf eigh sk a target = ledoit_wolf eigh sk b target.
Proof.
  intros a b H eigh sk target Hk. unfold ledoit_wolf, format_annualize.
  rewrite (single_factor_days a b H), (constant_correlation_days a b H). destruct H as (C & P & S & F).
  rewrite (Hk _ _ (nan_perm _ _ P)), C, F. reflexivity.
Qed.
Lemma oas_days : forall a b, sh_same a b -> forall eigh sk, (forall x y, Permutation x y -> sk x = sk y) ->
  oracle_approximating eigh sk a = oracle_approximating eigh sk b.
Proof.
  intros a b (C & P & S & F) eigh sk Hk. unfold oracle_approximating, format_annualize.
  rewrite (Hk _ _ (nan_perm _ _ P)), C, F. reflexivity.
Qed.
