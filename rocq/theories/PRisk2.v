(** * Properties of min_cov_determinant *)
From Coq Require Import ZArith List String Bool Reals Lra Lia Arith.
From Verif Require Import Num Py RBase PyLemmas MFrame MReturns MDown MRisk MRisk2 SLin SHRP SReturns SRisk SRisk2 Sums Mat PBase PHRP2 PHRP3 PFrame PReturns PReturns3 PCov1 PCov2 PCov4.
Import ListNotations.
Local Open Scope R_scope.

Lemma complete_some : forall x, complete (map Some x) = Some x.
Proof. induction x as [|a x IH]; [reflexivity|]. cbn. rewrite IH. reflexivity. Qed.
Lemma complete_none : forall row, In None row -> complete row = None.
Proof. induction row as [|[a|] row IH]; intros H; [destruct H| |reflexivity]. destruct H as [H|H]; [discriminate H|]. cbn. rewrite (IH H). reflexivity. Qed.
Lemma complete_cases : forall row : list (option R), (exists x, row = map Some x) \/ In None row.
Proof.
  induction row as [|[a|] row IH]; [left; exists []; reflexivity| |right; left; reflexivity].
  destruct IH as [[x ->]|H]; [left; exists (a :: x); reflexivity|right; right; exact H].
Qed.
Lemma dropna_spec : forall rows xs, complete_rows rows xs -> dropna rows = xs.
Proof.
  intros rows xs H. induction H as [|x rows xs H IH|row rows xs Hn H IH]; [reflexivity| |]; unfold dropna in *; cbn [flat_map].
  - rewrite complete_some. cbn. rewrite IH. reflexivity.
  - rewrite complete_none by exact Hn. exact IH.
Qed.
Theorem complete_rows_exist : forall rows, exists xs, complete_rows rows xs.
Proof.
  induction rows as [|row rows [xs IH]]; [exists []; constructor|].
  destruct (complete_cases row) as [[x ->]|H]; [exists (x :: xs); constructor; exact IH|exists xs; constructor; assumption].
Qed.
Lemma fits_square : forall n M, square n M -> fits n M = true.
Proof.
  intros n M [H1 H2]. unfold fits. rewrite H1, Nat.eqb_refl. cbn [andb]. apply forallb_forall. intros r Hr. apply Nat.eqb_eq. rewrite Forall_forall in H2. apply H2. exact Hr.
Qed.
Lemma fits_not : forall n M, ~ square n M -> fits n M = false.
Proof.
  intros n M H. unfold fits. destruct (Nat.eqb (List.length M) n) eqn:E; [|reflexivity]. cbn [andb]. destruct (forallb _ M) eqn:F; [|reflexivity].
  exfalso. apply H. apply Nat.eqb_eq in E. split; [exact E|]. apply Forall_forall. intros r Hr. rewrite forallb_forall in F. apply Nat.eqb_eq. apply F. exact Hr.
Qed.
Lemma scale_good : forall n k M, 0 <= k -> psd n M -> symmetric n M -> psd n (scale_rows k M) /\ symmetric n (scale_rows k M).
Proof.
  intros n k M Hk Hp Hs. split; [|intros i j Hi Hj; rewrite !entry_scale, (Hs i j Hi Hj); reflexivity].
  apply psd_from_bil; [apply scale_square; apply Hp|]. intros x. pose proof (psd_bil n M x Hp) as B.
  assert (E : bil n (entry (scale_rows k M)) x x = k * bil n (entry M) x x).
  { unfold bil. rewrite <- sumn_scal. apply sumn_ext. intros i Hi.
    replace (k * (x i * sumn n (fun j => entry M i j * x j))) with (x i * (k * sumn n (fun j => entry M i j * x j))) by ring. f_equal. rewrite <- (sumn_scal n k). apply sumn_ext. intros j Hj. rewrite entry_scale. ring. }
  rewrite E. apply Rmult_le_pos; assumption.
Qed.

(** only complete rows are used *)
Theorem mcd_rows : forall eigh mcd f g fr log log' fm xs, f_cols f = f_cols g -> complete_rows (f_rows f) xs -> complete_rows (f_rows g) xs ->
  min_cov_determinant eigh mcd f true fr log fm = min_cov_determinant eigh mcd g true fr log' fm.
Proof.
  intros eigh mcd f g fr log log' fm xs Hc Hf Hg. unfold min_cov_determinant, get_returns. cbn [rbind].
  rewrite (dropna_spec _ _ Hf), (dropna_spec _ _ Hg), Hc. reflexivity.
Qed.
(** a positive semidefinite estimate is annualised and labelled *)
Theorem mcd_good : forall eigh mcd f fr log fm xs, complete_rows (f_rows f) xs -> 0 <= fr ->
  let n := len (f_cols f) in psd n (mcd xs) -> symmetric n (mcd xs) ->
  exists M, min_cov_determinant eigh mcd f true fr log fm = Ok (mkFrame (f_cols f) (f_cols f) M) /\ psd n M /\ symmetric n M /\
    forall i j, (i < n)%nat -> (j < n)%nat -> entry M i j = fr * entry (mcd xs) i j.
Proof.
  intros eigh mcd f fr log fm xs Hx Hfr n Hp Hs. exists (scale_rows fr (mcd xs)). destruct (scale_good n fr (mcd xs) Hfr Hp Hs) as [G1 G2].
  split; [|split; [exact G1|split; [exact G2|intros i j _ _; rewrite entry_scale; ring]]].
  unfold min_cov_determinant, get_returns. cbn [rbind]. rewrite (dropna_spec _ _ Hx), (fits_square n) by apply Hp. apply fixed_good; assumption.
Qed.
(** any symmetric estimate is repaired *)
Theorem mcd_any : forall eigh mcd f fr log fm xs, complete_rows (f_rows f) xs -> fm = "spectral"%string \/ fm = "diag"%string ->
  let n := len (f_cols f) in square n (mcd xs) -> symmetric n (mcd xs) ->
  (forall M, square n M -> symmetric n M -> eigen_of n M (fst (eigh M)) (snd (eigh M))) ->
  exists M, min_cov_determinant eigh mcd f true fr log fm = Ok (mkFrame (f_cols f) (f_cols f) M) /\ symmetric n M /\ nearly_psd (/ 10 ^ 16) n M.
Proof.
  intros eigh mcd f fr log fm xs Hx Hfm n Hq Hs He. set (M := scale_rows fr (mcd xs)).
  assert (Q1 : square n M) by (apply scale_square; exact Hq). assert (Q2 : symmetric n M) by (intros i j Hi Hj; unfold M; rewrite !entry_scale, (Hs i j Hi Hj); reflexivity).
  unfold min_cov_determinant, get_returns. cbn [rbind]. rewrite (dropna_spec _ _ Hx), (fits_square n) by exact Hq. unfold fixed_frame. fold M.
  destruct Hfm as [-> | ->].
  - destruct (fix_spectral eigh n M Q1 Q2 (He M Q1 Q2)) as (F & E & F1 & F2 & _). rewrite E. cbn [rbind]. exists F. auto.
  - destruct (fix_diag eigh n M Q1 Q2 (He M Q1 Q2)) as (F & E & F1 & F2 & _). rewrite E. cbn [rbind]. exists F. auto.
Qed.
Theorem mcd_shape : forall eigh mcd f fr log fm xs, complete_rows (f_rows f) xs -> ~ square (len (f_cols f)) (mcd xs) ->
  min_cov_determinant eigh mcd f true fr log fm = Err ValueError.
Proof. intros eigh mcd f fr log fm xs Hx Hq. unfold min_cov_determinant, get_returns. cbn [rbind]. rewrite (dropna_spec _ _ Hx), fits_not by exact Hq. reflexivity. Qed.
(** prices: the estimator sees the returns *)
Lemma history_complete : forall T names (x : label -> list R),
  complete_rows (map (fun k => map (fun t => Some (nth k (x t) 0)) names) (seq 0 T)) (map (fun k => map (fun t => nth k (x t) 0) names) (seq 0 T)).
Proof.
  intros T names x. generalize (seq 0 T). induction l as [|k l IH]; [constructor|]. cbn [map].
  assert (E : map (fun t => Some (nth k (x t) 0)) names = map Some (map (fun t => nth k (x t) 0) names)) by (rewrite map_map; reflexivity).
  rewrite E. constructor. exact IH.
Qed.
Theorem mcd_prices : forall eigh mcd T dates names p fr fm, names <> [] -> len dates = S T ->
  (forall t, In t names -> len (p t) = S T) -> (forall t, In t names -> Forall (fun v => 0 < v) (p t)) -> forall log : bool,
  let r := fun t => if log then logarithmic_returns (p t) else simple_returns (p t) in
  min_cov_determinant eigh mcd (history (S T) dates names p) false fr log fm = min_cov_determinant eigh mcd (history T (tl dates) names r) true fr log fm.
Proof.
  intros eigh mcd T dates names p fr fm Hn Hd Hl Hp log r. unfold min_cov_determinant at 1, get_returns.
  assert (E : returns_from_prices (history (S T) dates names p) log = Ok (history T (tl dates) names r)).
  { destruct log; [apply log_returns_history; assumption|]. apply returns_history; auto. intros; apply pos_nonzero; auto. }
  rewrite E. reflexivity.
Qed.
