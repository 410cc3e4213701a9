(** * Labels of results *)
From Coq Require Import ZArith List String Bool Reals Lra Lia.
From Verif Require Import Num Py RBase PyLemmas MBase MConvex MEF MDown MCalls MFrame MHRP MBL MCLA SLin SBase SConvex SLabels PBase PConvex PEF PEF2.
Import ListNotations.
Local Open Scope R_scope.

Lemma range_positions : forall n, positions n (range_labels n).
Proof.
  intros n. unfold positions, range_labels. rewrite map_length, seq_length. split; [reflexivity|]. intros i Hi.
  rewrite nth_error_map. rewrite (nth_error_nth' (seq 0 n) 0%nat) by (rewrite seq_length; exact Hi). rewrite seq_nth by exact Hi. reflexivity.
Qed.
Lemma positions_range : forall n ts, positions n ts -> ts = range_labels n.
Proof.
  intros n ts [Hl H]. pose proof (range_positions n) as [Hl' H']. apply nth_ext with (d := LInt 0) (d' := LInt 0); [congruence|].
  intros i Hi. rewrite Hl in Hi. specialize (H i Hi). specialize (H' i Hi).
  rewrite (nth_error_nth _ _ _ H), (nth_error_nth _ _ _ H'). reflexivity.
Qed.
Lemma universe_perf : forall mu cov ts, universe mu cov ts -> (mu = MuNone -> exists cols rows, cov = CovFrame cols rows) ->
  perf_tickers mu cov = Ok ts.
Proof.
  intros mu cov ts H Hn. destruct H; try reflexivity.
  - cbn. rewrite (positions_range _ _ H). reflexivity.
  - destruct (Hn eq_refl) as [? [? E]]. discriminate E.
Qed.
Lemma perf_dict_labels : forall mu cov rf ts d w, universe mu cov ts ->
  (mu = MuNone -> exists cols rows, cov = CovFrame cols rows) ->
  Forall2 (fun t x => dget t d = Some x \/ dget t d = None /\ x = 0) ts w ->
  (total w <> 0 ->
     portfolio_performance (WtDict d) mu cov rf = portfolio_performance (WtArray w) mu cov rf) /\
  (total w = 0 -> portfolio_performance (WtDict d) mu cov rf = Err ValueError).
Proof. intros mu cov rf ts d w Hu Hn. apply perf_dict_array. apply universe_perf; assumption. Qed.

Lemma ef_labels : forall mu cov b w0 w1 o, ef_init (MIn mu) (CIn cov) b w0 = (w1, Ok o) -> universe mu cov (b_tickers (e_base o)).
Proof.
  intros mu cov b w0 w1 o H. unfold ef_init in H. destruct (match mu_values mu with None => false | Some _ => _ end); [discriminate H|].
  cbn [new_var] in H. match type of H with context[map_bounds b ?w ?x] => set (o1 := x) in H; set (w2 := w) in H end.
  destruct (map_bounds b w2 o1) as [[w3 o3] [y|e]] eqn:E; [|discriminate H]. injection H as _ <-.
  assert (K : b_tickers (e_base o3) = b_tickers (e_base o1)).
  { refine ((_ : pres (fun a b => b_tickers (e_base b) = b_tickers (e_base a)) (map_bounds b)) w2 o1 w3 o3 (Ok y) E).
    clear. pose proof (fun o : ef => eq_refl (b_tickers (e_base o))) as Pr.
    assert (Pt : forall a b c : ef, b_tickers (e_base b) = b_tickers (e_base a) -> b_tickers (e_base c) = b_tickers (e_base b) ->
       b_tickers (e_base c) = b_tickers (e_base a)) by congruence.
    pres_go Pr Pt ltac:(apply pres_modify; intros ?; reflexivity). }
  rewrite K. unfold o1. cbn [e_base b_tickers]. clear. destruct mu as [|s|l], cov as [cols rows|c]; cbn [mu_values]; try constructor; apply range_positions.
Qed.
Lemma cla_labels : forall labels mean cov b (o : cla R), cla_init (Some (labels, mean)) cov b = Ok o ->
  match labels with Some ts => b_tickers (c_base o) = ts | None => positions (List.length mean) (b_tickers (c_base o)) end.
Proof.
  intros labels mean cov b o H. unfold cla_init in H. destruct (read_cla_bounds _ b) as [[[lo hi] i]|e]; [|discriminate H].
  cbn [rbind] in H. injection H as <-. cbn [c_base base_init b_tickers]. destruct labels; [reflexivity|apply range_positions].
Qed.
Lemma bl_labels : forall a o, bl_init a = Ok o ->
  match a_cov a with CovFrame cols _ => b_tickers (bl_base o) = cols | CovArray m => positions (List.length m) (b_tickers (bl_base o)) end.
Proof.
  intros a o H. unfold bl_init in H. cbv zeta in H.
  repeat match type of H with
  | rbind ?x _ = _ => destruct x as [?|?]; [cbn [rbind] in H|discriminate H]
  | (let (_, _) := ?p in _) = _ => destruct p
  end.
  injection H as <-. cbn [bl_base base_init b_tickers]. unfold cov_tickers. destruct (a_cov a); [reflexivity|apply range_positions].
Qed.
Lemma hrp_labels : forall r c h, hrp_init r c = Ok h ->
  match r, c with
  | HRetFrame f, _ => b_tickers (h_base h) = f_cols f
  | _, HCovFrame f => b_tickers (h_base h) = f_cols f
  | _, _ => False
  end.
Proof. intros r c h H. destruct r, c; try discriminate H; injection H as <-; reflexivity. Qed.

(** labels never change afterwards *)
Definition same_labels (o o' : ef) : Prop := b_tickers (e_base o') = b_tickers (e_base o).
Lemma sl_refl : forall o, same_labels o o. Proof. reflexivity. Qed.
Lemma sl_trans : forall a b c, same_labels a b -> same_labels b c -> same_labels a c.
Proof. unfold same_labels; intros; congruence. Qed.
Ltac sl_mod := apply pres_modify; intros ?; reflexivity.
Lemma sl_transform : forall k cs, pres same_labels (transform_all k cs).
Proof. induction cs as [|[i c] cs IH]; cbn [transform_all]; pres_go sl_refl sl_trans ltac:(first [exact IH | sl_mod]). Qed.
Lemma sl_solve : forall sv, pres same_labels (solve_opt sv).
Proof.
  intros sv w o w' o' r H. unfold solve_opt, bind, get in H. destruct (e_obj o) as [ob|]; [|inversion H; subst; apply sl_refl].
  destruct (e_opt o) as [p|].
  - destruct (negb (fst ob =? fst (p_obj p))%nat); [inversion H; subst; apply sl_refl|].
    destruct (negb (same_ids (e_cons o) (p_cons p))); [inversion H; subst; apply sl_refl|].
    unfold ret, world_get, modify in H. destruct (sv _ _ _ _) as [s v|upd|x]; [| |destruct x]; inversion H; subst; reflexivity.
  - unfold modify, ret, world_get in H. destruct (sv _ _ _ _) as [s v|upd|x]; [| |destruct x]; inversion H; subst; reflexivity.
Qed.
Lemma set_weights_labels : forall (b : base R) d b' r, set_weights b d = (b', r) -> b_tickers b' = b_tickers b.
Proof. intros b d b' r H. unfold set_weights in H. destruct (mapM _ _); inversion H; subst; reflexivity. Qed.
Lemma sl_run : forall sv ns pinv c, pres same_labels (run sv ns pinv c).
Proof.
  intros sv ns pinv c. destruct c; cbn [run].
  4: { intros w o w' o' r H. destruct (set_weights (e_base o) d) as [b x] eqn:E. inversion H; subst. exact (set_weights_labels _ _ _ _ E). }
  all: pres_go sl_refl sl_trans ltac:(first [apply sl_solve | apply sl_transform | sl_mod]).
Qed.
Lemma run_all_labels : forall sv ns pinv cs w o w' o', run_all sv ns pinv cs w o = (w', o') -> b_tickers (e_base o') = b_tickers (e_base o).
Proof.
  induction cs as [|c cs IH]; intros w o w' o' H; cbn [run_all] in H; [inversion H; subst; reflexivity|].
  destruct (run sv ns pinv c w o) as [[w1 o1] r] eqn:E. rewrite (IH _ _ _ _ H). exact (sl_run _ _ _ _ _ _ _ _ _ E).
Qed.
Lemma sl_g_run : forall sv ns k c, pres same_labels (g_run sv ns k c).
Proof.
  intros sv ns k c. destruct c; cbn [g_run].
  4: { destruct k; cbn [g_set_weights].
       - intros w o w' o' r H. destruct (set_weights (e_base o) d) as [b x] eqn:E. inversion H; subst. exact (set_weights_labels _ _ _ _ E).
       - pres_go sl_refl sl_trans sl_mod.
       - pres_go sl_refl sl_trans sl_mod. }
  all: pres_go sl_refl sl_trans ltac:(first [apply sl_solve | sl_mod]).
Qed.
Lemma g_run_all_labels : forall sv ns k cs w o w' o' rs, g_run_all sv ns k cs w o = (w', o', rs) -> b_tickers (e_base o') = b_tickers (e_base o).
Proof.
  induction cs as [|c cs IH]; intros w o w' o' rs H; cbn [g_run_all] in H; [inversion H; subst; reflexivity|].
  destruct (g_run sv ns k c w o) as [[w1 o1] r] eqn:E. destruct (g_run_all sv ns k cs w1 o1) as [[w2 o2] rs2] eqn:E2.
  inversion H; subst. rewrite (IH _ _ _ _ _ E2). exact (sl_g_run _ _ _ _ _ _ _ _ _ E).
Qed.

(** the figures for arrays and for labelled data *)
Lemma perf_figures : forall mu m cov c rf w, mu = MuArray m \/ (exists s, mu = MuSeries s /\ m = map snd s) ->
  cov = CovArray c \/ (exists cols, cov = CovFrame cols c) ->
  List.length m = List.length w -> square (List.length w) c -> 0 < qform c w ->
  exists r s sh, portfolio_performance (WtArray w) mu cov rf = Ok (Some r, s, Some sh) /\
    r = inner w m /\ 0 < s /\ s * s = qform c w /\ sh = (r - rf) / s.
Proof.
  intros mu m cov c rf w Hm Hc L Sq Q. assert (Em : mu_values mu = Some m) by (destruct Hm as [->|[s [-> ->]]]; reflexivity).
  assert (Ec : cov_values cov = c) by (destruct Hc as [->|[cols ->]]; reflexivity). subst c. apply perf_values; assumption.
Qed.
Lemma perf_figures_none : forall cov c rf w, cov = CovArray c \/ (exists cols, cov = CovFrame cols c) -> square (List.length w) c -> 0 <= qform c w ->
  exists s, portfolio_performance (WtArray w) MuNone cov rf = Ok (None, s, None) /\ 0 <= s /\ s * s = qform c w.
Proof. intros cov c rf w Hc Sq Q. assert (Ec : cov_values cov = c) by (destruct Hc as [->|[cols ->]]; reflexivity). subst c. apply perf_no_returns; assumption. Qed.

Lemma cla_no_returns : forall (o : cla R) cov b, cla_init None cov b <> Ok o /\ cla_init (A := R) None cov b = Err TypeError.
Proof. split; [discriminate|reflexivity]. Qed.
