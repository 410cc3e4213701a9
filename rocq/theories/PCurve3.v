(** * Round trips along the frontier of a new optimizer (C113) *)
From Coq Require Import ZArith List String Bool Reals Lra Lia.
From Verif Require Import Num Py RBase PyLemmas MBase MConvex MEF MDown SLin SBase SHRP SObj SConvex SDown SPrep SExist SCurve Sums PBase PObj PEF PEF2 PEF3 PEF4 PDown2 PDown5 PPerm2 PPerm4 PExist3 PExist4 PCurve PCurve2.
Import ListNotations.
Local Open Scope R_scope.

Section New.
  Variables (mi : mu_arg) (c : cov_arg) (b : bounds_arg) (w0 w1 : world) (o : ef) (mu : list R).
  Hypothesis Hi : ef_init (MIn mi) (CIn c) b w0 = (w1, Ok o).
  Hypothesis Hsq : square (List.length (cov_values c)) (cov_values c).
  Hypothesis Hlen : List.length (cov_values c) = e_n o.
  Hypothesis Hlb : bounded (e_lb o).
  Hypothesis Hub : bounded (e_ub o).
  Hypothesis Hmu : mu_values mi = Some mu.
  Hypothesis Hn : (0 < e_n o)%nat.
  Hypothesis Hpsd : psd (e_n o) (cov_values c).
  Hypothesis Hsym : symmetric (e_n o) (cov_values c).
  Variables (sv : solver_t) (pinv : list (list R) -> list (list R)).
  Hypothesis Hinv : right_inverse (e_n o) (cov_values c) (pinv (cov_values c)).
  Hypothesis He : exact_solver sv.
  Hypothesis Hc : complete_solver sv.
  Hypothesis Nv : Forall (fun q => p_name q <> "target_variance"%string) (w_params w0).
  Hypothesis Nr : Forall (fun q => p_name q <> "target_return"%string) (w_params w0).
  Lemma new_facts : open_ef w1 o [] /\ e_add o = [] /\ e_mu o = Some mu /\ e_cov o = cov_values c /\
    fresh_name w1 o "target_variance" /\ fresh_name w1 o "target_return" /\ fresh_name w1 o "risk_aversion" /\ w_params w1 = w_params w0.
  Proof.
    destruct (init_new _ _ _ _ _ _ Hi) as [Ea Ep]. destruct (ef_init_inv _ _ _ _ _ _ Hi) as (m & lb & ub & Em & Hs & Hr & Hw & Ho). injection Em as <-.
    assert (En : e_n o = List.length (init_tickers mi c)) by (rewrite Ho; reflexivity).
    destruct (read_bounds_length _ _ _ _ Hr) as [L1 L2].
    pose proof (init_open mi c lb ub w0 [] ltac:(rewrite <- En, <- Hlen; exact Hsq) Hs ltac:(congruence) L1 L2) as O. cbv zeta in O. rewrite app_nil_r in O.
    split; [rewrite Hw, Ho; exact O|]. split; [exact Ea|]. split; [rewrite Ho; exact Hmu|]. split; [rewrite Ho; reflexivity|].
    split; [apply new_fresh; exact Ep|]. split; [apply new_fresh; exact Ep|]. split; [apply new_fresh; exact Ep|]. rewrite Hw. reflexivity.
  Qed.
  Let vol (x : list R) : R := sqrt (qform (cov_values c) x).
  Let by_risk (t : R) := efficient_risk sv pinv (NFloat t) false w1 o.
  Let by_ret (r : R) := efficient_return sv (NFloat r) false w1 o.
  Lemma force_false : bounds_in_force false o (e_lb o) (e_ub o).
  Proof. right. split; [left; reflexivity|split; reflexivity]. Qed.
  Theorem round_trips :
    (forall t, 0 <= t -> succeeds (by_risk t) -> exists x y, reports (by_risk t) x /\ vol x <= t /\ reports (by_ret (inner mu x)) y /\ inner mu y = inner mu x /\ vol y <= vol x) /\
    (forall r, succeeds (by_ret r) -> exists x y, reports (by_ret r) x /\ r <= inner mu x /\ reports (by_risk (vol x)) y /\ vol y = vol x /\ inner mu x <= inner mu y).
  Proof.
    destruct new_facts as (Ho & Ha & Hm & Ec & Fv & Fr & _ & Ew). pose proof force_false as Hb.
    assert (Hp : psd (e_n o) (e_cov o)) by (rewrite Ec; exact Hpsd).
    pose proof (ef_risk_contract w1 o [] false mu Ho Ha Hm Hp Fv sv pinv He _ _ Hb) as C1. pose proof (ef_return_contract w1 o [] false mu Ho Ha Hm Hp Fr sv He _ _ Hb) as C2.
    rewrite Ec in C1, C2. fold vol in C1, C2.
    assert (Pv : par_values w1 = par_values w0) by (unfold par_values; rewrite Ew; reflexivity).
    assert (AL : forall s, admissible w1 o [] (e_lb o) (e_ub o) 1 s -> allowed (b_tickers (e_base o)) (e_w o) (w_sizes w1) (par_values w0) (e_lb o) (e_ub o) 1 [] s).
    { intros s (A1 & A2 & A3 & _). repeat split; auto; apply A2. }
    split.
    - intros t Ht S. destruct (C1 t Ht S) as [x [Rx Bx]].
      assert (S' : succeeds (by_ret (inner mu x))).
      { destruct Bx as [[s [Ad Es]] _]. destruct (proj2 (exist_return _ _ _ _ _ _ [] w1 o Hi Hsq Hlen (Forall_nil _) eq_refl Hlb Hub (Forall_nil _) sv mu (inner mu x) false _ _ He Hc Hmu Nr Hb ltac:(discriminate))) as (w3 & o3 & d & E).
        - exists s. split; [apply AL; exact Ad|rewrite Es; lra].
        - unfold by_ret. rewrite E. exact I. }
      destruct (C2 _ S') as [y [Ry By]]. exists x, y. destruct (risk_then_return_trade _ _ _ t x y Bx By) as [T1 T2].
      split; [exact Rx|split; [exact (proj1 (proj2 Bx))|split; [exact Ry|split; assumption]]].
    - intros r S. destruct (C2 r S) as [x [Rx Bx]].
      assert (S' : succeeds (by_risk (vol x))).
      { destruct Bx as [[s [Ad Es]] _]. assert (0 <= vol x) by apply sqrt_pos.
        destruct (proj2 (exist_risk _ _ _ _ _ _ [] w1 o Hi Hsq Hlen (Forall_nil _) eq_refl Hlb Hub (Forall_nil _) sv pinv mu (NFloat (vol x)) (vol x) false _ _ He Hc Hmu Nv Hn Hpsd Hsym Hinv eq_refl H Hb ltac:(discriminate))) as (w3 & o3 & d & E).
        - exists s. split; [apply AL; exact Ad|]. rewrite Es. unfold vol. rewrite sqrt_sqrt; [lra|]. apply Hpsd.
          rewrite <- Es. destruct Ad as (A1 & _). destruct Ho as (_ & _ & _ & _ & N & _). exact (sized_nth _ _ _ _ A1 N).
        - unfold by_risk. rewrite E. exact I. }
      destruct (C1 _ (sqrt_pos _) S') as [y [Ry By]]. exists x, y. destruct (return_then_risk_trade _ _ _ r x y Bx By) as [T1 T2].
      split; [exact Rx|split; [exact (proj1 (proj2 Bx))|split; [exact Ry|split; assumption]]].
  Qed.
End New.
