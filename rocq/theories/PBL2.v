(** * The Black-Litterman system over functions, and the solver contract *)
From Coq Require Import List Reals Lra Lia Arith Classical.
From Verif Require Import SLin SBL Sums Mat MRisk MBL PCov1 PCov2 PBL1.
Import ListNotations.
Local Open Scope R_scope.

Section Core.
  Variables (n k : nat) (S : nat -> nat -> R) (P : nat -> nat -> R) (Om : nat -> nat -> R).
  Hypothesis S_sym : sym n S.
  Hypothesis S_psd : psdf n S.
  Hypothesis Om_sym : sym k Om.
  Hypothesis Om_psd : psdf k Om.
  Definition sysT (i a : nat) : R := sumn n (fun j => S i j * P a j).
  Definition sysA (a b : nat) : R := sumn n (fun i => P a i * sysT i b) + Om a b.
  Definition rows (s : nat -> R) (j : nat) : R := sumn k (fun a => P a j * s a).

  Lemma T_apply : forall s i, app k sysT s i = app n S (rows s) i.
  Proof.
    intros s i. unfold app, sysT, rows.
    rewrite (sumn_ext k _ (fun a => sumn n (fun j => S i j * (P a j * s a)))).
    2: { intros a _. rewrite <- sumn_scal_r. apply sumn_ext. intros; ring. }
    rewrite sumn_swap. apply sumn_ext. intros j _. rewrite sumn_scal. reflexivity.
  Qed.
  Lemma A_apply : forall s a, app k sysA s a = app n P (app n S (rows s)) a + app k Om s a.
  Proof.
    intros s a. unfold app at 1. unfold sysA.
    rewrite (sumn_ext k _ (fun b => sumn n (fun i => P a i * (sysT i b * s b)) + Om a b * s b)).
    2: { intros b _. rewrite Rmult_plus_distr_r, <- sumn_scal_r. f_equal. apply sumn_ext. intros; ring. }
    rewrite sumn_plus. f_equal. rewrite sumn_swap. unfold app at 1. apply sumn_ext. intros i _. rewrite sumn_scal. f_equal. apply T_apply.
  Qed.
  Lemma rows_adjoint : forall s x, sumn k (fun a => s a * app n P x a) = sumn n (fun i => rows s i * x i).
  Proof.
    intros s x. unfold app, rows.
    rewrite (sumn_ext k _ (fun a => sumn n (fun j => P a j * s a * x j))).
    2: { intros a _. rewrite <- sumn_scal. apply sumn_ext. intros; ring. }
    rewrite sumn_swap. apply sumn_ext. intros j _. rewrite sumn_scal_r. reflexivity.
  Qed.
  Lemma A_bil : forall r s, bil k sysA r s = bil n S (rows r) (rows s) + bil k Om r s.
  Proof.
    intros r s. rewrite bil_app. rewrite (sumn_ext k _ (fun a => r a * app n P (app n S (rows s)) a + r a * app k Om s a)).
    2: { intros a _. rewrite A_apply. ring. }
    rewrite sumn_plus. f_equal. rewrite rows_adjoint. reflexivity.
  Qed.
  Lemma A_sym : sym k sysA.
  Proof.
    intros a b Ha Hb. unfold sysA. rewrite (Om_sym a b Ha Hb). f_equal. unfold sysT.
    rewrite (sumn_ext n (fun i => P a i * sumn n (fun j => S i j * P b j)) (fun i => sumn n (fun j => P a i * (S i j * P b j)))) by (intros; rewrite sumn_scal; reflexivity).
    rewrite sumn_swap. apply sumn_ext. intros j Hj. rewrite <- sumn_scal. apply sumn_ext. intros i Hi. rewrite (S_sym i j) by assumption. ring.
  Qed.
  Lemma A_psd : psdf k sysA.
  Proof. intros x. rewrite A_bil. pose proof (S_psd (rows x)). pose proof (Om_psd x). lra. Qed.
  Lemma A_null : forall z, (forall a, (a < k)%nat -> app k sysA z a = 0) -> forall i, (i < n)%nat -> app k sysT z i = 0.
  Proof.
    intros z Hz i Hi. rewrite T_apply. apply null_app; try assumption.
    assert (E : bil k sysA z z = 0) by (rewrite bil_app; apply sumn_zero; intros a Ha; rewrite Hz by exact Ha; ring).
    rewrite A_bil in E. pose proof (S_psd (rows z)). pose proof (Om_psd z). lra.
  Qed.
  (** the systems of [bl_cov] are solvable *)
  Lemma T_solvable : forall w, exists s, forall a, (a < k)%nat -> app k sysA s a = sumn n (fun i => sysT i a * w i).
  Proof.
    intros w. apply psd_solvable; [exact A_sym|exact A_psd|]. intros z Hz.
    rewrite (sumn_ext k _ (fun a => sumn n (fun i => sysT i a * z a * w i))).
    2: { intros a _. rewrite <- sumn_scal. apply sumn_ext. intros; ring. }
    rewrite sumn_swap. apply sumn_zero. intros i Hi. rewrite sumn_scal_r. change (app k sysT z i * w i = 0). rewrite A_null by assumption. ring.
  Qed.
  (** solutions differ by vectors that do not matter *)
  Lemma T_unique : forall r s, (forall a, (a < k)%nat -> app k sysA r a = app k sysA s a) -> forall i, (i < n)%nat -> app k sysT r i = app k sysT s i.
  Proof.
    intros r s H i Hi. assert (E : app k sysT (fun a => r a - s a) i = 0).
    { apply A_null; [|exact Hi]. intros a Ha. rewrite app_minus, H by exact Ha. ring. }
    rewrite app_minus in E. lra.
  Qed.
  Lemma T_pair : forall s w, (forall a, (a < k)%nat -> app k sysA s a = sumn n (fun i => sysT i a * w i)) ->
    sumn n (fun i => w i * app k sysT s i) = bil k sysA s s.
  Proof.
    intros s w H. rewrite bil_app. rewrite (sumn_ext k _ (fun a => sumn n (fun i => w i * (sysT i a * s a)))).
    2: { intros a Ha. rewrite H by exact Ha. rewrite <- sumn_scal. apply sumn_ext. intros; ring. }
    rewrite sumn_swap. apply sumn_ext. intros i _. rewrite sumn_scal. reflexivity.
  Qed.
  Lemma T_cross : forall s w, sumn n (fun i => w i * app k sysT s i) = bil n S w (rows s).
  Proof. intros s w. rewrite bil_app. apply sumn_ext. intros i _. rewrite T_apply. reflexivity. Qed.
  (** the reduction of variance by the views *)
  Lemma reduction : forall s w, (forall a, (a < k)%nat -> app k sysA s a = sumn n (fun i => sysT i a * w i)) ->
    0 <= sumn n (fun i => w i * app k sysT s i) <= bil n S w w.
  Proof.
    intros s w H. pose proof (T_pair s w H) as E. rewrite E. split; [apply A_psd|].
    rewrite T_cross in E. pose proof (cauchy_f n S w (rows s) S_psd S_sym) as HC. rewrite E in HC.
    pose proof (A_psd s) as H0. pose proof (Om_psd s) as H1. pose proof (S_psd (rows s)). pose proof (S_psd w).
    pose proof (A_bil s s) as EA. set (q := bil k sysA s s) in *. set (v := bil n S w w) in *.
    destruct H0 as [H0|H0]; [|lra]. assert (q * q <= v * q) by nra. nra.
  Qed.
  (** equality only if the view uncertainty vanishes in the direction of the solution *)
  Lemma reduction_strict : forall s w, (forall a, (a < k)%nat -> app k sysA s a = sumn n (fun i => sysT i a * w i)) ->
    0 < bil n S w w -> sumn n (fun i => w i * app k sysT s i) = bil n S w w -> bil k Om s s = 0 /\ bil n S w (rows s) <> 0.
  Proof.
    intros s w H Hw E. pose proof (T_pair s w H) as E1. pose proof (T_cross s w) as E2. rewrite E in E1, E2.
    split; [|lra]. pose proof (cauchy_f n S w (rows s) S_psd S_sym) as HC. rewrite <- E2 in HC.
    pose proof (Om_psd s). pose proof (A_bil s s) as EA. pose proof (S_psd (rows s)). nra.
  Qed.
End Core.

(** ** What the solver returns *)
Lemma posdef_invertible : forall k A, square k A -> symmetric k A -> posdef k (entry A) -> invertible k A.
Proof.
  intros k A HA Hs Hp.
  assert (H : forall m, (m <= k)%nat -> exists B : list (list R), length B = m /\ Forall (fun r => length r = k) B /\
     forall j, (j < m)%nat -> forall i, (i < k)%nat -> app k (entry A) (vec (nth j B [])) i = delta j i).
  { induction m as [|m IH]; intros Hm; [exists []; repeat split; auto; intros; lia|].
    destruct IH as (B & HB & HF & HB'); [lia|]. destruct (posdef_solvable k (entry A) (delta m) Hs Hp) as [x Hx].
    exists (B ++ [of_fun k x]). split; [rewrite app_length; cbn; lia|]. split; [apply Forall_app; split; [exact HF|constructor; [apply of_fun_length|constructor]]|].
    intros j Hj i Hi. destruct (Nat.eq_dec j m) as [->|Hne].
    - rewrite app_nth2 by lia. rewrite HB, Nat.sub_diag. cbn [nth].
      rewrite (app_ext k _ _ x) by (intros; apply vec_of_fun; assumption). apply Hx. exact Hi.
    - rewrite app_nth1 by lia. apply HB'; lia. }
  destruct (H k (Nat.le_refl k)) as (B & HB & HF & HB').
  (* columns of the inverse are the rows of B *)
  exists (array k k (fun i j => entry B j i)). split; [apply array_square|]. intros x Hx.
  apply (vec_ext k); [rewrite mat_vec_length; apply HA|exact Hx|]. intros i Hi.
  assert (Hl : length (mat_vec (array k k (fun i j => entry B j i)) x) = k) by (rewrite mat_vec_length; apply array_length).
  rewrite (mat_vec_shaped k k) by assumption.
  rewrite (app_ext k _ _ (fun j => sumn k (fun c => entry B c j * vec x c))).
  2: { intros j Hj. rewrite (mat_vec_shaped k k) by (try assumption; apply array_square). unfold app. apply sumn_ext. intros c Hc. rewrite array_entry by assumption. reflexivity. }
  unfold app. rewrite (sumn_ext k _ (fun j => sumn k (fun c => entry A i j * entry B c j * vec x c))) by (intros; rewrite <- sumn_scal; apply sumn_ext; intros; ring).
  rewrite sumn_swap. rewrite (sumn_ext k _ (fun c => delta i c * vec x c)); [apply sumn_delta_r; exact Hi|].
  intros c Hc. rewrite sumn_scal_r. f_equal. rewrite delta_sym. apply (HB' c Hc i Hi).
Qed.
Lemma pos_def_posdef : forall n M, pos_def n M -> posdef n (entry M).
Proof.
  intros n M [HM H] x (i & Hi & Hx).
  assert (E : qform M (of_fun n x) = bil n (entry M) x x).
  { rewrite (qform_bil n) by (auto; apply of_fun_length). apply bil_ext; intros; apply vec_of_fun; assumption. }
  rewrite <- E. apply H; [apply of_fun_length|]. intros E0. apply Hx. rewrite <- (vec_of_fun n x i Hi), E0. unfold vec.
  apply nth_repeat.
Qed.
Lemma pos_def_psd : forall n M, pos_def n M -> psd n M.
Proof.
  intros n M H. pose proof H as [HM _]. apply psd_from_bil; [exact HM|]. apply posdef_psdf, pos_def_posdef, H.
Qed.

Section Solver.
  Variables (la : linalg) (k : nat) (A : list (list R)) (b : list R).
  Hypothesis Hla : exact_linalg la.
  Hypothesis HA : square k A.
  Hypothesis Hs : symmetric k A.
  Hypothesis Hb : length b = k.
  Lemma solution_length : length (solve_or_lstsq la A b) = k.
  Proof.
    unfold solve_or_lstsq. destruct Hla as [H1 H2]. destruct (H1 k A b HA Hb) as [Hi Hn]. destruct (H2 k A b HA Hb) as [Hl _].
    destruct (classic (invertible k A)) as [H|H].
    - destruct (Hi H) as (x & E & Hx & _). rewrite E. exact Hx.
    - rewrite (Hn H). exact Hl.
  Qed.
  Lemma solution_normal : forall i, (i < k)%nat -> app k (entry A) (fun a => app k (entry A) (vec (solve_or_lstsq la A b)) a - vec b a) i = 0.
  Proof.
    unfold solve_or_lstsq. destruct Hla as [H1 H2]. destruct (H1 k A b HA Hb) as [Hi Hn]. destruct (H2 k A b HA Hb) as [Hl Hm].
    destruct (classic (invertible k A)) as [H|H].
    - destruct (Hi H) as (x & E & Hx & EA). rewrite E. intros i Hi'. unfold app at 1. apply sumn_zero. intros a Ha.
      rewrite <- (mat_vec_shaped k k) by assumption. rewrite EA. ring.
    - rewrite (Hn H). apply lstsq_normal; assumption.
  Qed.
  Lemma solution_exact : (exists y, forall a, (a < k)%nat -> app k (entry A) y a = vec b a) ->
    forall a, (a < k)%nat -> app k (entry A) (vec (solve_or_lstsq la A b)) a = vec b a.
  Proof.
    intros (y & Hy). set (x := vec (solve_or_lstsq la A b)).
    set (w := fun a => app k (entry A) x a - vec b a).
    assert (Hw : forall a, (a < k)%nat -> app k (entry A) w a = 0) by (intros a Ha; apply solution_normal; exact Ha).
    assert (E : forall a, (a < k)%nat -> w a = app k (entry A) (fun j => x j - y j) a).
    { intros a Ha. unfold w. rewrite app_minus, Hy by exact Ha. reflexivity. }
    assert (E0 : sumn k (fun a => w a * w a) = 0).
    { rewrite (sumn_ext k _ (fun a => w a * app k (entry A) (fun j => x j - y j) a)) by (intros a Ha; rewrite <- E by exact Ha; reflexivity).
      change (bil k (entry A) w (fun j => x j - y j) = 0). rewrite bil_sym by exact Hs. rewrite bil_app. apply sumn_zero. intros a Ha. rewrite Hw by exact Ha. ring. }
    intros a Ha. pose proof (sumn_sq_zero k w E0 a Ha) as H. unfold w in H. lra.
  Qed.
End Solver.

(** a solver with these properties exists *)
Lemma square_self_gram : forall k A x, square k A -> bil k (fun i j => sumn k (fun a => entry A a i * entry A a j)) x x = sumn k (fun a => app k (entry A) x a * app k (entry A) x a).
Proof.
  intros k A x HA. unfold bil.
  rewrite (sumn_ext k _ (fun i => sumn k (fun a => x i * (entry A a i * app k (entry A) x a)))).
  2: { intros i _. rewrite sumn_scal. f_equal.
       rewrite (sumn_ext k _ (fun j => sumn k (fun a => entry A a i * (entry A a j * x j)))) by (intros; rewrite <- sumn_scal_r; apply sumn_ext; intros; ring).
       rewrite sumn_swap. apply sumn_ext. intros a _. rewrite sumn_scal. reflexivity. }
  rewrite sumn_swap. apply sumn_ext. intros a _. rewrite (sumn_ext k _ (fun i => entry A a i * x i * app k (entry A) x a)) by (intros; ring).
  rewrite sumn_scal_r. reflexivity.
Qed.
Lemma lstsq_exists : forall k A b, square k A -> length b = k -> exists x, length x = k /\ forall y, length y = k ->
  sum_squares (minus_vec (mat_vec A x) b) <= sum_squares (minus_vec (mat_vec A y) b).
Proof.
  intros k A b HA Hb. set (G := fun i j => sumn k (fun a => entry A a i * entry A a j)).
  assert (HG : forall x i, app k G x i = sumn k (fun a => entry A a i * app k (entry A) x a)).
  { intros x i. unfold app, G. rewrite (sumn_ext k _ (fun j => sumn k (fun a => entry A a i * (entry A a j * x j)))) by (intros; rewrite <- sumn_scal_r; apply sumn_ext; intros; ring).
    rewrite sumn_swap. apply sumn_ext. intros a _. rewrite sumn_scal. reflexivity. }
  destruct (psd_solvable k G (fun i => sumn k (fun a => entry A a i * vec b a))) as [x Hx].
  - intros i j Hi Hj. unfold G. apply sumn_ext. intros; ring.
  - intros x. unfold G. rewrite square_self_gram by exact HA. apply sumn_sq_nonneg.
  - intros z Hz. assert (E : sumn k (fun a => app k (entry A) z a * app k (entry A) z a) = 0).
    { rewrite <- square_self_gram by exact HA. fold G. rewrite bil_app. apply sumn_zero. intros i Hi. rewrite Hz by exact Hi. ring. }
    rewrite (sumn_ext k _ (fun i => sumn k (fun a => entry A a i * z i * vec b a))) by (intros; rewrite <- sumn_scal; apply sumn_ext; intros; ring).
    rewrite sumn_swap. apply sumn_zero. intros a Ha. rewrite sumn_scal_r. change (app k (entry A) z a * vec b a = 0). rewrite (sumn_sq_zero k _ E a Ha). ring.
  - exists (of_fun k x). split; [apply of_fun_length|]. intros y Hy.
    assert (HL : forall u, length u = k -> sum_squares (minus_vec (mat_vec A u) b) = sumn k (fun a => (app k (entry A) (vec u) a - vec b a) * (app k (entry A) (vec u) a - vec b a))).
    { intros u Hu. assert (length (mat_vec A u) = k) by (rewrite mat_vec_length; apply HA).
      rewrite (sum_squares_vec k) by (apply minus_vec_length; auto). apply sumn_ext. intros a Ha.
      rewrite (minus_vec_vec k) by auto. rewrite (mat_vec_shaped k k) by assumption. reflexivity. }
    rewrite !HL by (auto; apply of_fun_length).
    set (r := fun a => app k (entry A) x a - vec b a).
    rewrite (sumn_ext k _ (fun a => r a * r a)) by (intros a Ha; rewrite (app_ext k _ _ x) by (intros; apply vec_of_fun; assumption); reflexivity).
    set (d := fun j => vec y j - x j).
    assert (E0 : sumn k (fun a => r a * app k (entry A) d a) = 0).
    { unfold app. rewrite (sumn_ext k _ (fun a => sumn k (fun i => entry A a i * r a * d i))) by (intros; rewrite <- sumn_scal; apply sumn_ext; intros; ring).
      rewrite sumn_swap. apply sumn_zero. intros i Hi. rewrite sumn_scal_r. rewrite (sumn_ext k _ (fun a => entry A a i * app k (entry A) x a - entry A a i * vec b a)) by (intros; unfold r; ring).
      rewrite sumn_minus, <- HG, Hx by exact Hi. ring. }
    rewrite (sumn_ext k (fun a => (app k (entry A) (vec y) a - vec b a) * (app k (entry A) (vec y) a - vec b a))
       (fun a => r a * r a + (2 * (r a * app k (entry A) d a) + app k (entry A) d a * app k (entry A) d a))).
    + rewrite !sumn_plus, sumn_scal, E0. pose proof (sumn_sq_nonneg k (app k (entry A) d)). lra.
    + intros a Ha. unfold d. rewrite app_minus. unfold r. ring.
Qed.
