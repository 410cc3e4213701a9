(** * Proofs for data that are not DataFrames (C111, C112) *)
From Coq Require Import ZArith String List Bool Reals Lia.
From Verif Require Import Num Py PyLemmas MFrame MBase MHRP MReturns MRisk MRisk2 MArray SArray PReturns PReturns2 PReturns3.
Import ListNotations.
Local Open Scope R_scope.
Local Notation len := List.length.

(** ** Returns depend on the labels only through their number *)
Definition rows_of (log : bool) (rows : list (list (option R))) : res (list (list (option R))) :=
  match rows with
  | [] => Ok []
  | r :: rs => do xs <- pct_rows r rs ; if log then mapM (mapM log_cell) (map (fun _ => None) r :: xs) else Ok (map (fun _ => None) r :: xs)
  end.
Lemma returns_rows : forall f log, returns_from_prices f log =
  do x <- rows_of log (f_rows f) ; Ok (dropna_all (mkFrame (f_index f) (f_cols f) x)).
Proof.
  intros [ix cols rows] log. unfold returns_from_prices, pct_change, rows_of. cbn [f_rows f_index f_cols].
  destruct rows as [|r rs]; cbn [rbind f_rows f_index f_cols].
  - destruct log; cbn [mapM rbind]; reflexivity.
  - destruct (pct_rows r rs) as [xs|e]; cbn [rbind f_rows f_index f_cols]; [|reflexivity].
    destruct log; [|reflexivity]. destruct (mapM (mapM log_cell) (map (fun _ => None) r :: xs)); reflexivity.
Qed.
Lemma mapM_length : forall {X Y} (f : X -> res Y) l ys, mapM f l = Ok ys -> len ys = len l.
Proof.
  induction l as [|x l IH]; intros ys H; cbn [mapM] in H; [injection H as <-; reflexivity|].
  destruct (f x); [|discriminate]. cbn [rbind] in H. destruct (mapM f l) eqn:E; [|discriminate]. cbn [rbind] in H. injection H as <-.
  cbn [List.length]. rewrite (IH _ eq_refl). reflexivity.
Qed.
Lemma pct_rows_length : forall rs r xs, pct_rows r rs = Ok xs -> len xs = len rs.
Proof.
  induction rs as [|q rs IH]; intros r xs H; cbn [pct_rows] in H; [injection H as <-; reflexivity|].
  destruct (pct_row r q); [|discriminate]. cbn [rbind] in H. destruct (pct_rows q rs) eqn:E; [|discriminate]. cbn [rbind] in H.
  injection H as <-. cbn [List.length]. rewrite (IH _ _ E). reflexivity.
Qed.
Lemma rows_of_length : forall log rows x, rows_of log rows = Ok x -> len x = len rows.
Proof.
  intros log [|r rs] x H; cbn [rows_of] in H; [injection H as <-; reflexivity|].
  destruct (pct_rows r rs) as [xs|] eqn:E; [|discriminate]. cbn [rbind] in H. apply pct_rows_length in E.
  destruct log.
  - apply mapM_length in H. rewrite H. cbn [List.length]. rewrite E. reflexivity.
  - injection H as <-. cbn [List.length]. rewrite E. reflexivity.
Qed.

Definition keep (ir : label * list (option R)) : bool := negb (forallb is_none (snd ir)).
Lemma keep_rows : forall ix (x : list (list (option R))), len ix = len x ->
  map snd (filter keep (combine ix x)) = filter (fun r => negb (forallb is_none r)) x.
Proof.
  induction ix as [|i ix IH]; intros [|r x] H; try discriminate H; [reflexivity|]. cbn [combine filter]. unfold keep at 1. cbn [snd].
  injection H as H. destruct (negb (forallb is_none r)); cbn [map snd]; rewrite IH by exact H; reflexivity.
Qed.
Lemma dropna_same : forall ix ix' cols cols' x, len ix = len x -> len ix' = len x -> len cols = len cols' ->
  same_table (dropna_all (mkFrame ix cols x)) (dropna_all (mkFrame ix' cols' x)).
Proof.
  intros. unfold same_table, dropna_all. cbn [f_rows f_cols f_index]. rewrite !map_length.
  fold keep. change (fun ir : label * list (option R) => negb (forallb is_none (snd ir))) with keep.
  rewrite !keep_rows by assumption. repeat split; auto.
Qed.
Definition same_tables (c c' : list label) (r r' : res (frame (option R))) : Prop :=
  match r, r' with
  | Ok f, Ok g => same_table f g /\ f_cols f = c /\ f_cols g = c'
  | Err e, Err e' => e = e'
  | _, _ => False
  end.
Lemma returns_same : forall f g log, same_table f g -> same_tables (f_cols f) (f_cols g) (returns_from_prices f log) (returns_from_prices g log).
Proof.
  intros f g log [Hr [Hc [Hf Hg]]]. rewrite !returns_rows, <- Hr. destruct (rows_of log (f_rows f)) as [x|e] eqn:E; cbn [rbind]; [|reflexivity].
  apply rows_of_length in E. split; [|split; reflexivity]. apply dropna_same; congruence.
Qed.
Lemma get_same : forall f g rd log, same_table f g -> same_tables (f_cols f) (f_cols g) (get_returns f rd log) (get_returns g rd log).
Proof. intros f g [|] log H; unfold get_returns; [split; [exact H|split; reflexivity]|apply returns_same; exact H]. Qed.
Lemma columns_same : forall f g, same_table f g -> columns f = columns g.
Proof. intros f g [Hr [Hc _]]. unfold columns. rewrite Hr, Hc. reflexivity. Qed.
Lemma columns_length : forall f, len (columns f) = len (f_cols f).
Proof. intros. unfold columns. rewrite map_length, seq_length. reflexivity. Qed.
Lemma combine_fst : forall {X Y} (l : list X) (m : list Y), len l = len m -> map fst (combine l m) = l.
Proof. induction l as [|a l IH]; intros [|b m] H; try discriminate H; [reflexivity|]. cbn [combine map fst]. rewrite IH; [reflexivity|]. injection H; auto. Qed.
Lemma combine_snd' : forall {X Y} (l : list X) (m : list Y), len l = len m -> map snd (combine l m) = m.
Proof. induction l as [|a l IH]; intros [|b m] H; try discriminate H; [reflexivity|]. cbn [combine map snd]. rewrite IH; [reflexivity|]. injection H; auto. Qed.
Lemma labelled : forall c c' b (v : list (option R)), len c = len v -> len c' = len v -> same_estimates c c' (Ok (b, combine c v)) (Ok (b, combine c' v)).
Proof. intros. cbn. rewrite !combine_snd', !combine_fst by assumption. repeat split; reflexivity. Qed.

Theorem mean_same : forall f g rd comp fr log, same_table f g ->
  same_estimates (f_cols f) (f_cols g) (mean_historical_return f rd comp fr log) (mean_historical_return g rd comp fr log).
Proof.
  intros f g rd comp fr log H. pose proof (get_same f g rd log H) as S. unfold mean_historical_return.
  fold (get_returns f rd log). fold (get_returns g rd log).
  destruct (get_returns f rd log) as [rf|e], (get_returns g rd log) as [rg|e']; cbn [same_tables] in S; try contradiction; cbn [rbind]; [|exact S].
  destruct S as [S [Ef Eg]]. pose proof (columns_length rf) as Lf. pose proof (columns_length rg) as Lg. rewrite Ef in Lf. rewrite Eg in Lg.
  unfold check_returns. rewrite (columns_same _ _ S) in *. rewrite Ef, Eg. destruct comp.
  - destruct (mapM (cagr fr) (columns rg)) as [v|] eqn:E; cbn [rbind]; [|reflexivity]. apply mapM_length in E. apply labelled; congruence.
  - cbn [rbind]. apply labelled; rewrite map_length; congruence.
Qed.
Theorem ema_same : forall f g rd comp span fr log, same_table f g ->
  same_estimates (f_cols f) (f_cols g) (ema_historical_return f rd comp span fr log) (ema_historical_return g rd comp span fr log).
Proof.
  intros f g rd comp span fr log H. pose proof (get_same f g rd log H) as S. unfold ema_historical_return.
  fold (get_returns f rd log). fold (get_returns g rd log).
  destruct (get_returns f rd log) as [rf|e], (get_returns g rd log) as [rg|e']; cbn [same_tables] in S; try contradiction; cbn [rbind]; [|exact S].
  destruct S as [S [Ef Eg]]. pose proof (columns_length rf) as Lf. pose proof (columns_length rg) as Lg. rewrite Ef in Lf. rewrite Eg in Lg.
  unfold check_returns. rewrite (columns_same _ _ S) in *. rewrite Ef, Eg. rewrite (proj1 S).
  destruct (Rltb span 1); [reflexivity|]. destruct (f_rows rg); [reflexivity|].
  match goal with |- same_estimates _ _ (do v <- mapM ?c _ ; _) _ => destruct (mapM c (columns rg)) as [v|] eqn:E end; cbn [rbind]; [|reflexivity].
  apply mapM_length in E. apply labelled; congruence.
Qed.

(** ** Matrices *)
Lemma fixed_same : forall eigh c c' rows fm, same_matrix c c' (fixed_frame eigh c rows fm) (fixed_frame eigh c' rows fm).
Proof. intros. unfold fixed_frame. destruct (fix_psd eigh rows fm); cbn; auto 6. Qed.
Lemma cov_rows_same : forall f g, same_table f g -> f_rows (frame_cov f) = f_rows (frame_cov g).
Proof. intros f g H. unfold frame_cov, pairwise. cbn [f_rows]. rewrite (columns_same _ _ H). reflexivity. Qed.
Theorem sample_same : forall eigh f g rd fr log fm, same_table f g ->
  same_matrix (f_cols f) (f_cols g) (sample_cov eigh f rd fr log fm) (sample_cov eigh g rd fr log fm).
Proof.
  intros eigh f g rd fr log fm H. pose proof (get_same f g rd log H) as S. unfold sample_cov.
  destruct (get_returns f rd log) as [rf|e], (get_returns g rd log) as [rg|e']; cbn [same_tables] in S; try contradiction; cbn [rbind]; [|exact S].
  destruct S as [S [<- <-]]. rewrite (cov_rows_same _ _ S). destruct (whole _); cbn [rbind]; [|reflexivity]. apply fixed_same.
Qed.
Theorem semi_same : forall eigh f g rd b fr log fm, same_table f g ->
  same_matrix (f_cols f) (f_cols g) (semicovariance eigh f rd b fr log fm) (semicovariance eigh g rd b fr log fm).
Proof.
  intros eigh f g rd b fr log fm H. pose proof (get_same f g rd log H) as S. unfold semicovariance.
  destruct (get_returns f rd log) as [rf|e], (get_returns g rd log) as [rg|e']; cbn [same_tables] in S; try contradiction; cbn [rbind]; [|exact S].
  destruct S as [S [<- <-]]. rewrite (proj1 S), (proj1 (proj2 S)). cbv zeta. destruct (Nat.eqb _ 0); [reflexivity|]. apply fixed_same.
Qed.
Theorem exp_same : forall eigh f g rd span fr log fm, same_table f g ->
  same_matrix (f_cols f) (f_cols g) (exp_cov eigh f rd span fr log fm) (exp_cov eigh g rd span fr log fm).
Proof.
  intros eigh f g rd span fr log fm H. pose proof (get_same f g rd log H) as S. unfold exp_cov.
  destruct (get_returns f rd log) as [rf|e], (get_returns g rd log) as [rg|e']; cbn [same_tables] in S; try contradiction; cbn [rbind]; [|exact S].
  destruct S as [S _]. rewrite (proj1 S). rewrite (proj1 (proj2 H)). cbv zeta.
  destruct (mapM _ (seq 0 (len (f_cols g)))); cbn [rbind]; [|reflexivity]. destruct (whole _); cbn [rbind]; [|reflexivity]. apply fixed_same.
Qed.
Theorem mcd_same : forall eigh mcd f g rd fr log fm, same_table f g ->
  same_matrix (f_cols f) (f_cols g) (min_cov_determinant eigh mcd f rd fr log fm) (min_cov_determinant eigh mcd g rd fr log fm).
Proof.
  intros eigh mcd f g rd fr log fm H. pose proof (get_same f g rd log H) as S. unfold min_cov_determinant.
  destruct (get_returns f rd log) as [rf|e], (get_returns g rd log) as [rg|e']; cbn [same_tables] in S; try contradiction; cbn [rbind]; [|exact S].
  destruct S as [S _]. rewrite (proj1 S). rewrite (proj1 (proj2 H)). cbv zeta. destruct (fits _ _); [apply fixed_same|reflexivity].
Qed.

(** ** Shrinkage *)
Definition same_shrinkage (c c' : list label) (r r' : res shrinkage) : Prop :=
  match r, r' with
  | Ok s, Ok s' => same_table (sh_X s) (sh_X s') /\ sh_S s = sh_S s' /\ sh_frequency s = sh_frequency s' /\ f_cols (sh_X s) = c /\ f_cols (sh_X s') = c'
  | Err e, Err e' => e = e'
  | _, _ => False
  end.
Lemma init_same : forall f g rd fr log, same_table f g -> same_shrinkage (f_cols f) (f_cols g) (shrinkage_init f rd fr log) (shrinkage_init g rd fr log).
Proof.
  intros f g rd fr log H. pose proof (get_same f g rd log H) as S. unfold shrinkage_init.
  destruct (get_returns f rd log) as [rf|e], (get_returns g rd log) as [rg|e']; cbn [same_tables] in S; try contradiction; cbn [rbind]; [|exact S].
  destruct S as [[Hr [Hc [Hf Hg]]] [Ef Eg]]. destruct rf as [ix cs rows], rg as [ix' cs' rows']. cbn [f_rows f_cols f_index] in *. subst.
  assert (D : same_table (dropna_all (mkFrame ix (f_cols f) rows')) (dropna_all (mkFrame ix' (f_cols g) rows'))) by (apply dropna_same; assumption).
  cbn [same_shrinkage sh_X sh_S sh_frequency]. split; [exact D|]. split; [apply cov_rows_same; exact D|]. repeat split; reflexivity.
Qed.
Lemma format_same : forall eigh s s' raw, sh_frequency s = sh_frequency s' ->
  same_matrix (f_cols (sh_X s)) (f_cols (sh_X s')) (format_annualize eigh s raw) (format_annualize eigh s' raw).
Proof. intros. unfold format_annualize. rewrite H. apply fixed_same. Qed.
Lemma format_pair : forall eigh s s' raw (d : R), sh_frequency s = sh_frequency s' ->
  same_shrunk (f_cols (sh_X s)) (f_cols (sh_X s')) (do f <- format_annualize eigh s raw ; Ok (f, d)) (do f <- format_annualize eigh s' raw ; Ok (f, d)).
Proof.
  intros eigh s s' raw d H. pose proof (format_same eigh s s' raw H) as F.
  destruct (format_annualize eigh s raw), (format_annualize eigh s' raw); cbn [rbind]; try contradiction; [split; [exact F|reflexivity]|exact F].
Qed.
Theorem shrunk_same : forall eigh f g rd fr log d, same_table f g ->
  same_matrix (f_cols f) (f_cols g) (do sh <- shrinkage_init f rd fr log ; shrunk_covariance eigh sh d)
                                    (do sh <- shrinkage_init g rd fr log ; shrunk_covariance eigh sh d).
Proof.
  intros eigh f g rd fr log d H. pose proof (init_same f g rd fr log H) as S.
  destruct (shrinkage_init f rd fr log) as [s|], (shrinkage_init g rd fr log) as [s'|]; cbn [same_shrinkage] in S; try contradiction; cbn [rbind]; [|exact S].
  destruct S as [X [ES [EF [<- <-]]]]. unfold shrunk_covariance. rewrite ES. destruct (whole (sh_S s')); cbn [rbind]; [|reflexivity].
  cbv zeta. destruct (Nat.eqb _ 0); [reflexivity|]. apply format_same. exact EF.
Qed.
Lemma nan_same : forall f g, same_table f g -> nan_to_num f = nan_to_num g.
Proof. intros f g H. unfold nan_to_num. rewrite (proj1 H). reflexivity. Qed.
Theorem ledoit_same : forall eigh sk f g rd fr log target, same_table f g ->
  same_shrunk (f_cols f) (f_cols g) (do sh <- shrinkage_init f rd fr log ; ledoit_wolf eigh sk sh target)
                                    (do sh <- shrinkage_init g rd fr log ; ledoit_wolf eigh sk sh target).
Proof.
  intros eigh sk f g rd fr log target H. pose proof (init_same f g rd fr log H) as S.
  destruct (shrinkage_init f rd fr log) as [s|], (shrinkage_init g rd fr log) as [s'|]; cbn [same_shrinkage] in S; try contradiction; cbn [rbind]; [|exact S].
  destruct S as [X [ES [EF [<- <-]]]]. unfold ledoit_wolf.
  assert (E1 : single_factor s = single_factor s') by (unfold single_factor; rewrite (nan_same _ _ X), (proj1 (proj2 X)); reflexivity).
  assert (E2 : constant_correlation s = constant_correlation s') by (unfold constant_correlation; rewrite (nan_same _ _ X), (proj1 (proj2 X)), ES; reflexivity).
  rewrite E1, E2, (nan_same _ _ X).
  match goal with |- same_shrunk _ _ (do r <- ?e ; _) _ => destruct e as [r|] end; cbn [rbind]; [|reflexivity]. apply format_pair. exact EF.
Qed.
Theorem oracle_same : forall eigh sk f g rd fr log, same_table f g ->
  same_shrunk (f_cols f) (f_cols g) (do sh <- shrinkage_init f rd fr log ; oracle_approximating eigh sk sh)
                                    (do sh <- shrinkage_init g rd fr log ; oracle_approximating eigh sk sh).
Proof.
  intros eigh sk f g rd fr log H. pose proof (init_same f g rd fr log H) as S.
  destruct (shrinkage_init f rd fr log) as [s|], (shrinkage_init g rd fr log) as [s'|]; cbn [same_shrinkage] in S; try contradiction; cbn [rbind]; [|exact S].
  destruct S as [X [ES [EF [<- <-]]]]. unfold oracle_approximating. rewrite (nan_same _ _ X). cbv zeta. apply format_pair. exact EF.
Qed.
