(** * New optimizers for downside risk: success exactly when there is a portfolio (C106) *)
From Coq Require Import List String Bool Reals Lra Lia Arith.
From Verif Require Import Num Py RBase PyLemmas SLin SBase MBase MConvex MEF MDown SConvex SDown SPrep SExist Sums PBase PConvex PEF PEF2 PEF3 PEF4 PEF5 PEF6 PRisk PDown PDown2 PDown3 PDown4 PDown5 PPrep PPerm2 PPerm4 PExist PExist2 PExist3.
Import ListNotations.
Local Open Scope R_scope.

(** ** continuity of the risk measures *)
Lemma near_nth : forall e y x i, 0 < e -> near e y x -> Rabs (nth i y 0 - nth i x 0) < e.
Proof.
  intros e y x i He H. revert i. induction H as [|a b y x Hab H IH]; intros [|i]; cbn [nth]; auto; rewrite Rminus_diag_eq, Rabs_R0 by reflexivity; exact He.
Qed.
Lemma near_of_nth : forall e y x, List.length y = List.length x -> (forall i, (i < List.length x)%nat -> Rabs (nth i y 0 - nth i x 0) < e) -> near e y x.
Proof.
  intros e y. induction y as [|a y IH]; intros [|b x] Hl H; try discriminate; [constructor|]. constructor; [exact (H 0%nat ltac:(cbn [List.length]; lia))|].
  apply IH; [injection Hl; auto|]. intros i Hi. exact (H (S i) ltac:(cbn [List.length]; lia)).
Qed.
Lemma cont_vec_near : forall n m F, cont_vec n m F -> forall x, List.length x = n -> forall e, 0 < e -> exists d, 0 < d /\ forall y, near d y x -> near e (F y) (F x).
Proof.
  intros n m F [Fl Fc] x Hx e He.
  assert (A : forall k, exists d, 0 < d /\ forall y, near d y x -> forall i, (i < k)%nat -> Rabs (nth i (F y) 0 - nth i (F x) 0) < e).
  { induction k as [|k [d [Hd K]]]; [exists 1; split; [lra|]; intros; lia|]. destruct (Fc k x Hx e He) as [d' [Hd' K']]. exists (Rmin d d'). split; [apply Rmin_pos; assumption|].
    intros y Hy i Hi. destruct (Nat.eq_dec i k) as [->|].
    - apply K'. eapply near_mono; [|exact Hy]. apply Rmin_r.
    - apply K; [|lia]. eapply near_mono; [|exact Hy]. apply Rmin_l. }
  destruct (A m) as [d [Hd K]]. exists d. split; [exact Hd|]. intros y Hy. pose proof (near_len _ _ _ Hy) as Ly. apply near_of_nth; rewrite !Fl by congruence; [reflexivity|]. exact (K y Hy).
Qed.
Lemma cont_vec_comp : forall n m F g, cont_vec n m F -> continuous_on m g -> continuous_on n (fun x => g (F x)).
Proof.
  intros n m F g HF Hg x Hx e He. destruct (Hg (F x) (proj1 HF x Hx) e He) as [d [Hd K]]. destruct (cont_vec_near n m F HF x Hx d Hd) as [d' [Hd' K']].
  exists d'. split; [exact Hd'|]. intros y Hy. apply K, K', Hy.
Qed.
Lemma near_sym : forall e y x, near e y x -> near e x y.
Proof. intros e y x H. induction H; constructor; auto. rewrite Rabs_minus_sym. assumption. Qed.
Lemma over_near : forall a d y x, near d y x -> over a y <= over a x + INR (List.length x) * d.
Proof.
  intros a d y x H. unfold over. induction H as [|u v y x Huv H IH]; [cbn [map total List.length INR]; lra|]. cbn [map total]. change (List.length (v :: x)) with (S (List.length x)). rewrite S_INR.
  assert (Rmax (u - a) 0 <= Rmax (v - a) 0 + d); [|lra].
  apply Rabs_def2 in Huv. unfold Rmax. destruct (Rle_dec (u - a) 0), (Rle_dec (v - a) 0); lra.
Qed.
Lemma worst_near : forall beta d y x, 0 <= beta < 1 -> (0 < List.length x)%nat -> near d y x -> worst_mean beta y <= worst_mean beta x + d / (1 - beta).
Proof.
  intros beta d y x Hb Hl H. destruct (worst_reached beta x Hb Hl) as [a E]. pose proof (near_len _ _ _ H) as L.
  pose proof (worst_le beta y a Hb ltac:(lia)) as W. rewrite L in W. eapply Rle_trans; [exact W|]. rewrite E.
  assert (HT : 0 < INR (List.length x)) by (apply lt_0_INR; exact Hl). assert (HB : 0 < (1 - beta) * INR (List.length x)) by nra.
  pose proof (over_near a d y x H) as O.
  assert (over a y / ((1 - beta) * INR (List.length x)) <= (over a x + INR (List.length x) * d) / ((1 - beta) * INR (List.length x))).
  { unfold Rdiv. apply Rmult_le_compat_r; [left; apply Rinv_0_lt_compat; exact HB|exact O]. }
  assert ((over a x + INR (List.length x) * d) / ((1 - beta) * INR (List.length x)) = over a x / ((1 - beta) * INR (List.length x)) + d / (1 - beta)) by (field; lra).
  lra.
Qed.
Lemma worst_cont : forall m beta, 0 <= beta < 1 -> (0 < m)%nat -> continuous_on m (worst_mean beta).
Proof.
  intros m beta Hb Hm x Hx e He. exists (e * (1 - beta) / 2). split; [nra|]. intros y Hy. pose proof (near_len _ _ _ Hy) as L.
  pose proof (worst_near beta _ y x Hb ltac:(lia) Hy). pose proof (worst_near beta _ x y Hb ltac:(lia) (near_sym _ _ _ Hy)).
  replace (e * (1 - beta) / 2 / (1 - beta)) with (e / 2) in * by (field; lra). apply Rabs_def1; lra.
Qed.
Lemma returns_cont : forall n rets, cont_vec n (List.length rets) (period_returns rets).
Proof. intros n rets. apply (cont_vec_matvec n n rets _ (cont_vec_id n)). Qed.
Lemma cvar_cont : forall n rets beta, 0 <= beta < 1 -> (0 < List.length rets)%nat -> continuous_on n (cvar beta rets).
Proof.
  intros n rets beta Hb Hr. unfold cvar. apply (cont_vec_comp n (List.length rets) (fun x => map Ropp (period_returns rets x)) (worst_mean beta)); [|apply worst_cont; assumption].
  apply cont_vec_map; [apply returns_cont|]. intros v. apply (continuity_pt_opp id), id_cont.
Qed.
Lemma cont_vec_cons : forall n m f F, continuous_on n f -> cont_vec n m F -> cont_vec n (S m) (fun x => f x :: F x).
Proof.
  intros n m f F Hf [Fl Fc]. split; [intros x Hx; cbn [List.length]; rewrite Fl by exact Hx; reflexivity|]. intros [|i]; cbn [nth]; [exact Hf|apply Fc].
Qed.
Lemma drawdowns_cont : forall n rets p l, continuous_on n p -> continuous_on n l -> cont_vec n (List.length rets) (fun x => drawdowns_from (p x) (l x) (period_returns rets x)).
Proof.
  intros n rets. induction rets as [|row rets IH]; intros p l Hp Hl; [apply (cont_vec_const n [])|].
  assert (C : continuous_on n (fun x => l x + inner row x)).
  { apply cont_plus; [exact Hl|]. apply (cont_vec_inner n (List.length row) n (fun _ => row) (fun x => x)); [apply cont_vec_const|apply cont_vec_id]. }
  assert (D : continuous_on n (fun x => Rmax (p x) (l x + inner row x))) by (apply cont_max; assumption).
  exact (cont_vec_cons n (List.length rets) _ _ (cont_minus n _ _ D C) (IH _ _ D C)).
Qed.
Lemma cdar_cont : forall n rets beta, 0 <= beta < 1 -> (0 < List.length rets)%nat -> continuous_on n (cdar beta rets).
Proof.
  intros n rets beta Hb Hr. unfold cdar. apply (cont_vec_comp n (List.length rets) (fun x => drawdowns_from 0 0 (period_returns rets x)) (worst_mean beta)); [|apply worst_cont; assumption].
  apply (drawdowns_cont n rets (fun _ => 0) (fun _ => 0)); exact (cont_const n 0).
Qed.
Lemma shortfall_max : forall b y, shortfall b y = Rmax (b - y) 0.
Proof. intros b y. unfold shortfall, Rmax. destruct (Rlt_dec y b), (Rle_dec (b - y) 0); lra. Qed.
Lemma semivariance_cont : forall n rets b, continuous_on n (semivariance rets b).
Proof.
  intros n rets b. unfold semivariance, Rdiv. apply (cont_ext n (fun x => / INR (List.length rets) * total (map (fun row => Rmax (b - inner row x) 0 * Rmax (b - inner row x) 0) rets))).
  - apply cont_scal. apply (cont_total n (fun row x => Rmax (b - inner row x) 0 * Rmax (b - inner row x) 0)). intros row _. apply cont_sqr. apply cont_max; [|exact (cont_const n 0)].
    apply cont_minus; [apply cont_const|]. apply (cont_vec_inner n (List.length row) n (fun _ => row) (fun x => x)); [apply cont_vec_const|apply cont_vec_id].
  - intros x _. rewrite Rmult_comm. f_equal. f_equal. unfold period_returns. rewrite map_map. apply map_ext. intros row. rewrite shortfall_max. reflexivity.
Qed.

(** ** a new optimizer: nothing but bounds and weight sum *)
Lemma init_new : forall m c b w0 w1 o, ef_init m (CIn c) b w0 = (w1, Ok o) -> e_add o = [] /\ all_params o = [].
Proof. intros m c b w0 w1 o H. destruct (ef_init_inv _ _ _ _ _ _ H) as (m' & lb & ub & _ & _ & _ & _ & ->). repeat split. Qed.
Section New.
  Context (w : world) (o : ef) (Ho : open_ef w o []) (Ha : e_add o = []) (Hbl : bounded (e_lb o)) (Hbu : bounded (e_ub o)).
  Lemma new_fits : forall lb ub sum s, admissible w o [] lb ub sum s -> fits (e_n o) lb ub sum (s (e_w o)).
  Proof.
    intros lb ub sum s (A & B & C & _). destruct Ho as (_ & _ & _ & _ & N & _). split; [|auto]. rewrite A by (apply nth_error_Some; congruence). apply nth_error_nth. exact N.
  Qed.
  Lemma fits_new : forall lb ub sum x, fits (e_n o) lb ub sum x -> exists s, admissible w o [] lb ub sum s /\ s (e_w o) = x.
  Proof.
    intros lb ub sum x (A & B & C). destruct Ho as (_ & _ & _ & _ & N & _). set (s := fun v => if Nat.eqb v (e_w o) then x else repeat 0 (nth v (w_sizes w) 0%nat)).
    assert (E : s (e_w o) = x) by (unfold s; rewrite Nat.eqb_refl; reflexivity).
    exists s. split; [|exact E]. unfold admissible. rewrite E. split; [|split; [exact B|split; [exact C|constructor]]].
    intros v Hv. unfold s. destruct (Nat.eqb_spec v (e_w o)) as [->|]; [rewrite A; symmetry; apply nth_error_nth; exact N|apply repeat_length].
  Qed.
  Lemma new_least : forall mn lb ub sum (ok : list R -> Prop) cost, bounds_in_force mn o lb ub -> closed_on (e_n o) ok -> continuous_on (e_n o) cost ->
    (exists x, fits (e_n o) lb ub sum x /\ ok x) -> exists lb ub s, bounds_in_force mn o lb ub /\ least w o [] lb ub sum ok cost s.
  Proof.
    intros mn lb ub sum ok cost Hb Hok Hcost (x & Hx & Kx). exists lb, ub. pose proof Ho as (_ & _ & L1 & L2 & N & _).
    destruct (in_force_bounded mn o lb ub Hbl Hbu L1 L2 Hb) as (X1 & X2 & X3 & X4). destruct (fits_new lb ub sum x Hx) as [s [A E]].
    destruct (exists_least w o [] lb ub sum ok cost (e_n o)) as [s' Hs']; try assumption.
    - exists (fun _ => True). split; [apply closed_true|]. intros. split; [auto|constructor].
    - exists (fun _ => 0). split; [apply cont_const|]. rewrite Ha. reflexivity.
    - exists s. rewrite E. auto.
    - exists s'. auto.
  Qed.
  Lemma best_fits : forall mn lb ub lb' ub' sum (ok : list R -> Prop) cost ws d, bounds_in_force mn o lb ub -> bounds_in_force mn o lb' ub' ->
    best_portfolio w o [] lb' ub' sum ok cost ws d -> exists x, fits (e_n o) lb ub sum x /\ ok x.
  Proof.
    intros mn lb ub lb' ub' sum ok cost ws d B B' (s & r & _ & _ & _ & A & K & _). destruct (in_force_unique _ _ _ _ _ _ B B') as [-> ->].
    exists (s (e_w o)). split; [apply new_fits; exact A|exact K].
  Qed.
  Lemma best_at_fits : forall mn lb ub lb' ub' sum (ok : list R -> Prop) cost ws d s, bounds_in_force mn o lb ub -> bounds_in_force mn o lb' ub' ->
    best_at w o [] lb' ub' sum ok cost ws d s -> exists x, fits (e_n o) lb ub sum x /\ ok x.
  Proof.
    intros mn lb ub lb' ub' sum ok cost ws d s B B' H. destruct (in_force_unique _ _ _ _ _ _ B B') as [-> ->].
    destruct H as (r & _ & _ & _ & A & K & _). exists (s (e_w o)). split; [apply new_fits; exact A|exact K].
  Qed.
  Lemma some_fits : forall n lb ub sum, (exists x, fits n lb ub sum x /\ True) <-> exists x, fits n lb ub sum x.
  Proof. intros. split; [intros (x & H & _)|intros (x & H)]; exists x; auto. Qed.
End New.
Lemma new_fresh : forall w o name, all_params o = [] -> fresh_name w o name.
Proof. intros w o name H p Hp. rewrite H in Hp. contradiction. Qed.

Lemma semi_new : forall mi n rows freq bench b w0 w1 o d, semi_init mi (RTable n rows) freq bench b w0 = (w1, Ok (o, d)) -> e_add o = [] /\ all_params o = [].
Proof.
  intros mi n rows freq bench b w0 w1 o d H. unfold semi_init in H. destruct (ef_init mi _ b w0) as [w [o'|]] eqn:E; [|discriminate]. pose proof (init_new _ _ _ _ _ _ E).
  destruct (validate_returns _ _); [|discriminate]. injection H as <- <- <-. assumption.
Qed.
Lemma cvar_new : forall mi n rows beta b w0 w1 o d, cvar_init mi (RTable n rows) beta b w0 = (w1, Ok (o, d)) -> e_add o = [] /\ all_params o = [].
Proof.
  intros mi n rows beta b w0 w1 o d H. unfold cvar_init in H. destruct (ef_init mi _ b w0) as [w [o'|]] eqn:E; [|discriminate]. pose proof (init_new _ _ _ _ _ _ E).
  destruct (validate_returns _ _); [|discriminate]. destruct (validate_beta _); [|discriminate]. cbv zeta in H. injection H as <- <- <-. assumption.
Qed.
Lemma cdar_new : forall mi n rows beta b w0 w1 o d, cdar_init mi (RTable n rows) beta b w0 = (w1, Ok (o, d)) -> e_add o = [] /\ all_params o = [].
Proof.
  intros mi n rows beta b w0 w1 o d H. unfold cdar_init in H. destruct mi as [m0|]; [|discriminate]. destruct (mu_values m0) as [l|]; [|discriminate].
  destruct (ef_init _ _ b w0) as [w [o'|]] eqn:E; [|discriminate]. pose proof (init_new _ _ _ _ _ _ E).
  destruct (validate_returns _ _); [|discriminate]. destruct (validate_beta _); [|discriminate]. cbv zeta in H. injection H as <- <- <-. assumption.
Qed.
Lemma new_inner_cont : forall n mu, continuous_on n (inner mu).
Proof. intros n mu. apply (cont_vec_inner n (List.length mu) n); [apply cont_vec_const|apply cont_vec_id]. Qed.

Section Semi.
  Context (mi : mu_in) (n : nat) (rows : list (list (option R))) (freq bench : R) (b : bounds_arg) (w0 w1 : world) (o : ef) (d : semi) (Hg : good_rows n rows)
    (Hi : semi_init mi (RTable n rows) freq bench b w0 = (w1, Ok (o, d))) (Hbl : bounded (e_lb o)) (Hbu : bounded (e_ub o))
    (sv : solver_t) (He : exact_solver sv) (Hc : complete_solver sv) (mn : bool) (lb ub : list (option R)) (Hb : bounds_in_force mn o lb ub).
  Let sum := if mn then 0 else 1.
  Let rets := dropna rows.
  Theorem exist_min_semivariance : (exists w2 o2 x, min_semivariance sv d mn w1 o = (w2, o2, Ok x)) <-> exists x, fits (e_n o) lb ub sum x.
  Proof.
    destruct (semi_init_ready _ _ _ _ _ _ _ _ _ _ Hg Hi) as (Ho & Hr & ->). destruct (semi_new _ _ _ _ _ _ _ _ _ _ Hi) as [Ha Hf]. rewrite <- some_fits. split.
    - intros (w2 & o2 & x & H). destruct (min_semivariance_best w1 o [] _ Ho Hr sv mn He _ _ _ H) as (lb' & ub' & B & P & _). exact (best_fits w1 o Ho mn lb ub _ _ _ _ _ _ _ Hb B P).
    - intros H. apply (min_semivariance_answers w1 o [] _ Ho Hr sv mn Hc). apply (new_least w1 o Ho Ha Hbl Hbu mn lb ub); try assumption; [apply closed_true|apply semivariance_cont].
  Qed.
  Theorem exist_semi_risk : forall t m, e_mu o = Some m -> 0 <= freq ->
    ((exists w2 o2 x, semi_efficient_risk sv d t mn w1 o = (w2, o2, Ok x)) <-> exists x, fits (e_n o) lb ub sum x /\ freq * semivariance rets (bench * sum) x <= t * t).
  Proof.
    intros t m Hm Hfq. destruct (semi_init_ready _ _ _ _ _ _ _ _ _ _ Hg Hi) as (Ho & Hr & ->). destruct (semi_new _ _ _ _ _ _ _ _ _ _ Hi) as [Ha Hf]. split.
    - intros (w2 & o2 & x & H). destruct (semi_risk_best w1 o [] _ Ho Hr sv mn He _ _ _ _ _ Hm (new_fresh _ _ _ Hf) Hfq H) as (lb' & ub' & B & P & _). exact (best_fits w1 o Ho mn lb ub _ _ _ _ _ _ _ Hb B P).
    - intros H. apply (semi_risk_answers w1 o [] _ Ho Hr sv mn Hc t m Hm (new_fresh _ _ _ Hf) Hfq). apply (new_least w1 o Ho Ha Hbl Hbu mn lb ub); try assumption.
      + apply closed_le; [apply cont_scal, semivariance_cont|apply cont_const].
      + apply cont_opp, new_inner_cont.
  Qed.
  Theorem exist_semi_return : forall t m, e_mu o = Some m -> 0 <= t -> Exists (fun a => t <= Rabs a) m ->
    ((exists w2 o2 x, semi_efficient_return sv d (NFloat t) mn w1 o = (w2, o2, Ok x)) <-> exists x, fits (e_n o) lb ub sum x /\ t <= inner m x).
  Proof.
    intros t m Hm Ht Hmx. destruct (semi_init_ready _ _ _ _ _ _ _ _ _ _ Hg Hi) as (Ho & Hr & ->). destruct (semi_new _ _ _ _ _ _ _ _ _ _ Hi) as [Ha Hf]. split.
    - intros (w2 & o2 & x & H). destruct (semi_return_best w1 o [] _ Ho Hr sv mn He _ _ _ _ _ Hm (new_fresh _ _ _ Hf) H) as (_ & lb' & ub' & B & P & _). exact (best_fits w1 o Ho mn lb ub _ _ _ _ _ _ _ Hb B P).
    - intros H. destruct (list_max (map Rabs m)) as [mx|] eqn:E; [|destruct m; [inversion Hmx|discriminate E]].
      assert (Hle : t <= mx).
      { apply Exists_exists in Hmx. destruct Hmx as (a & Hin & Hta). eapply Rle_trans; [exact Hta|]. eapply list_max_ge; [exact E|]. apply in_map. exact Hin. }
      apply (semi_return_answers w1 o [] _ Ho Hr sv mn Hc t m mx Hm (new_fresh _ _ _ Hf) Ht E Hle). apply (new_least w1 o Ho Ha Hbl Hbu mn lb ub); try assumption.
      + apply closed_le; [apply cont_const|apply new_inner_cont].
      + apply semivariance_cont.
  Qed.
  Theorem exist_semi_utility : forall k m, e_mu o = Some m -> 0 < k ->
    ((exists w2 o2 x, semi_max_quadratic_utility sv d k mn w1 o = (w2, o2, Ok x)) <-> exists x, fits (e_n o) lb ub sum x).
  Proof.
    intros k m Hm Hk. destruct (semi_init_ready _ _ _ _ _ _ _ _ _ _ Hg Hi) as (Ho & Hr & ->). destruct (semi_new _ _ _ _ _ _ _ _ _ _ Hi) as [Ha Hf]. rewrite <- some_fits. split.
    - intros (w2 & o2 & x & H). destruct (semi_utility_best w1 o [] _ Ho Hr sv mn He _ _ _ _ _ Hm (new_fresh _ _ _ Hf) H) as (_ & lb' & ub' & B & P & _). exact (best_fits w1 o Ho mn lb ub _ _ _ _ _ _ _ Hb B P).
    - intros H. apply (semi_utility_answers w1 o [] _ Ho Hr sv mn Hc k m Hm (new_fresh _ _ _ Hf) Hk). apply (new_least w1 o Ho Ha Hbl Hbu mn lb ub); try assumption.
      + apply closed_true.
      + apply cont_plus; [|apply cont_scal, semivariance_cont]. apply (cont_ext _ (fun x => / freq * - inner m x)); [apply cont_scal, cont_opp, new_inner_cont|].
        intros x _. cbn [sd_freq]. unfold Rdiv. lra.
  Qed.
End Semi.

Section CVaR.
  Context (mi : mu_in) (n : nat) (rows : list (list (option R))) (beta : R) (b : bounds_arg) (w0 w1 : world) (o : ef) (d : cvar_data) (Hg : good_rows n rows)
    (Hi : cvar_init mi (RTable n rows) beta b w0 = (w1, Ok (o, d))) (Hbl : bounded (e_lb o)) (Hbu : bounded (e_ub o))
    (sv : solver_t) (He : exact_solver sv) (Hc : complete_solver sv) (mn : bool) (lb ub : list (option R)) (Hb : bounds_in_force mn o lb ub).
  Let sum := if mn then 0 else 1.
  Let rets := dropna rows.
  Lemma cvar_c : continuous_on (e_n o) (cvar (cv_beta d) (cv_returns d)).
  Proof. destruct (cvar_init_ready _ _ _ _ _ _ _ _ _ Hg Hi) as (Ho & Hr & _). apply cvar_cont; apply Hr. Qed.
  Theorem exist_min_cvar : (exists w2 o2 x, min_cvar sv d mn w1 o = (w2, o2, Ok x)) <-> exists x, fits (e_n o) lb ub sum x.
  Proof.
    destruct (cvar_init_ready _ _ _ _ _ _ _ _ _ Hg Hi) as (Ho & Hr & _). destruct (cvar_new _ _ _ _ _ _ _ _ _ Hi) as [Ha Hf]. rewrite <- some_fits. split.
    - intros (w2 & o2 & x & H). destruct (min_cvar_best w1 o [] _ Ho Hr sv mn _ _ _ He H) as (lb' & ub' & s & B & P & _). exact (best_at_fits w1 o Ho mn lb ub _ _ _ _ _ _ _ _ Hb B P).
    - intros H. apply (min_cvar_answers w1 o [] _ Ho Hr sv mn Hc). apply (new_least w1 o Ho Ha Hbl Hbu mn lb ub); try assumption; [apply closed_true|apply cvar_c].
  Qed.
  Theorem exist_cvar_risk : forall t m, e_mu o = Some m -> 0 <= t ->
    ((exists w2 o2 x, cvar_efficient_risk sv d t mn w1 o = (w2, o2, Ok x)) <-> exists x, fits (e_n o) lb ub sum x /\ cvar beta rets x <= t).
  Proof.
    intros t m Hm Ht. destruct (cvar_init_ready _ _ _ _ _ _ _ _ _ Hg Hi) as (Ho & Hr & Er & Eb). destruct (cvar_new _ _ _ _ _ _ _ _ _ Hi) as [Ha Hf]. unfold rets. rewrite <- Er, <- Eb. split.
    - intros (w2 & o2 & x & H). destruct (cvar_risk_best w1 o [] _ Ho Hr sv mn _ _ _ _ _ He Hm (new_fresh _ _ _ Hf) H) as (_ & lb' & ub' & s & B & P & _). exact (best_at_fits w1 o Ho mn lb ub _ _ _ _ _ _ _ _ Hb B P).
    - intros H. apply (cvar_risk_answers w1 o [] _ Ho Hr sv mn t m Hc Hm (new_fresh _ _ _ Hf) Ht). apply (new_least w1 o Ho Ha Hbl Hbu mn lb ub); try assumption.
      + apply closed_le; [apply cvar_c|apply cont_const].
      + apply cont_opp, new_inner_cont.
  Qed.
  Theorem exist_cvar_return : forall t m, e_mu o = Some m ->
    ((exists w2 o2 x, cvar_efficient_return sv d t mn w1 o = (w2, o2, Ok x)) <-> exists x, fits (e_n o) lb ub sum x /\ t <= inner m x).
  Proof.
    intros t m Hm. destruct (cvar_init_ready _ _ _ _ _ _ _ _ _ Hg Hi) as (Ho & Hr & _). destruct (cvar_new _ _ _ _ _ _ _ _ _ Hi) as [Ha Hf]. split.
    - intros (w2 & o2 & x & H). destruct (cvar_return_best w1 o [] _ Ho Hr sv mn _ _ _ _ _ He Hm (new_fresh _ _ _ Hf) H) as (lb' & ub' & s & B & P & _). exact (best_at_fits w1 o Ho mn lb ub _ _ _ _ _ _ _ _ Hb B P).
    - intros H. apply (cvar_return_answers w1 o [] _ Ho Hr sv mn t m Hc Hm (new_fresh _ _ _ Hf)). apply (new_least w1 o Ho Ha Hbl Hbu mn lb ub); try assumption.
      + apply closed_le; [apply cont_const|apply new_inner_cont].
      + apply cvar_c.
  Qed.
End CVaR.

Section CDaR.
  Context (mi : mu_in) (n : nat) (rows : list (list (option R))) (beta : R) (b : bounds_arg) (w0 w1 : world) (o : ef) (d : cdar_data) (Hg : good_rows n rows)
    (Hi : cdar_init mi (RTable n rows) beta b w0 = (w1, Ok (o, d))) (Hbl : bounded (e_lb o)) (Hbu : bounded (e_ub o))
    (sv : solver_t) (He : exact_solver sv) (Hc : complete_solver sv) (mn : bool) (lb ub : list (option R)) (Hb : bounds_in_force mn o lb ub).
  Let sum := if mn then 0 else 1.
  Let rets := dropna rows.
  Lemma cdar_c : continuous_on (e_n o) (cdar (cd_beta d) (cd_returns d)).
  Proof. destruct (cdar_init_ready _ _ _ _ _ _ _ _ _ Hg Hi) as (Ho & Hr & _). apply cdar_cont; apply Hr. Qed.
  Theorem exist_min_cdar : (exists w2 o2 x, min_cdar sv d mn w1 o = (w2, o2, Ok x)) <-> exists x, fits (e_n o) lb ub sum x.
  Proof.
    destruct (cdar_init_ready _ _ _ _ _ _ _ _ _ Hg Hi) as (Ho & Hr & _). destruct (cdar_new _ _ _ _ _ _ _ _ _ Hi) as [Ha Hf]. rewrite <- some_fits. split.
    - intros (w2 & o2 & x & H). destruct (min_cdar_best w1 o [] _ Ho Hr sv mn _ _ _ He H) as (lb' & ub' & s & B & P & _). exact (best_at_fits w1 o Ho mn lb ub _ _ _ _ _ _ _ _ Hb B P).
    - intros H. apply (min_cdar_answers w1 o [] _ Ho Hr sv mn Hc). apply (new_least w1 o Ho Ha Hbl Hbu mn lb ub); try assumption; [apply closed_true|apply cdar_c].
  Qed.
  Theorem exist_cdar_risk : forall t m, e_mu o = Some m -> 0 <= t ->
    ((exists w2 o2 x, cdar_efficient_risk sv d t mn w1 o = (w2, o2, Ok x)) <-> exists x, fits (e_n o) lb ub sum x /\ cdar beta rets x <= t).
  Proof.
    intros t m Hm Ht. destruct (cdar_init_ready _ _ _ _ _ _ _ _ _ Hg Hi) as (Ho & Hr & Er & Eb). destruct (cdar_new _ _ _ _ _ _ _ _ _ Hi) as [Ha Hf]. unfold rets. rewrite <- Er, <- Eb. split.
    - intros (w2 & o2 & x & H). destruct (cdar_risk_best w1 o [] _ Ho Hr sv mn _ _ _ _ _ He Hm (new_fresh _ _ _ Hf) H) as (_ & lb' & ub' & s & B & P & _). exact (best_at_fits w1 o Ho mn lb ub _ _ _ _ _ _ _ _ Hb B P).
    - intros H. apply (cdar_risk_answers w1 o [] _ Ho Hr sv mn t m Hc Hm (new_fresh _ _ _ Hf) Ht). apply (new_least w1 o Ho Ha Hbl Hbu mn lb ub); try assumption.
      + apply closed_le; [apply cdar_c|apply cont_const].
      + apply cont_opp, new_inner_cont.
  Qed.
  Theorem exist_cdar_return : forall t m, e_mu o = Some m -> 0 <= t ->
    ((exists w2 o2 x, cdar_efficient_return sv d t mn w1 o = (w2, o2, Ok x)) <-> exists x, fits (e_n o) lb ub sum x /\ t <= inner m x).
  Proof.
    intros t m Hm Ht. destruct (cdar_init_ready _ _ _ _ _ _ _ _ _ Hg Hi) as (Ho & Hr & _). destruct (cdar_new _ _ _ _ _ _ _ _ _ Hi) as [Ha Hf]. split.
    - intros (w2 & o2 & x & H). destruct (cdar_return_best w1 o [] _ Ho Hr sv mn _ _ _ _ _ He Hm (new_fresh _ _ _ Hf) H) as (_ & lb' & ub' & s & B & P & _). exact (best_at_fits w1 o Ho mn lb ub _ _ _ _ _ _ _ _ Hb B P).
    - intros H. apply (cdar_return_answers w1 o [] _ Ho Hr sv mn t m Hc Hm (new_fresh _ _ _ Hf) Ht). apply (new_least w1 o Ho Ha Hbl Hbu mn lb ub); try assumption.
      + apply closed_le; [apply cont_const|apply new_inner_cont].
      + apply cdar_c.
  Qed.
End CDaR.
