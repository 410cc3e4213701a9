(** * Concrete cases for the theorems in PropertiesPipe.v *)
From Coq Require Import ZArith List Reals String Lra Lia ClassicalEpsilon.
From Verif Require Import Num Py RBase PyLemmas MBase MConvex MEF MFrame MReturns MRisk MAlloc SLin SHRP SBase SRisk SReturns SAlloc SConvex SPipe PEFW PDownW PropertiesPipe.
Import ListNotations.
Local Open Scope R_scope.

(** there is a solver that meets both contracts *)
Definition best_milp (P : lp (A:=R)) : lp_outcome (A:=R) :=
  let best (xu : list R * list R) := lp_feasible P (fst xu) (snd xu) /\ forall x' u', lp_feasible P x' u' -> lp_objective P (fst xu) (snd xu) <= lp_objective P x' u' in
  if excluded_middle_informative (exists xu, best xu)
  then let xu := epsilon (inhabits (@nil R, @nil R)) best in LPAnswer (fst xu) (snd xu) else LPBadStatus.
Example ex_milp : exact_milp best_milp /\ complete_milp best_milp.
Proof.
  split.
  - intros P x u E. unfold best_milp in E. cbv zeta in E. destruct (excluded_middle_informative _) as [H|H]; [|discriminate E].
    pose proof (epsilon_spec (inhabits (@nil R, @nil R)) _ H) as S. injection E as <- <-. exact S.
  - intros P x u _ Hf Hb. unfold best_milp. cbv zeta. destruct (excluded_middle_informative _) as [H|H]; [eauto|]. exfalso. apply H. exists (x, u). auto.
Qed.

Definition twoN : list label := [LStr "A"; LStr "B"].
Definition exdm : da (A:=R) := mkDA [(LStr "A", 3/5); (LStr "B", 2/5)] [(LStr "A", 7); (LStr "B", 9)] false 100 0 None.
Example ex_c09_found : exists d' al lo, lp_portfolio best_milp exdm false = (d', Ok (al, lo)).
Proof.
  apply c09_found; [apply ex_milp|cbn; lra|discriminate| | |reflexivity].
  - intros t x H. cbn in H. destruct H as [H|[H|[]]]; inversion H; lra.
  - intros t x H. cbn in H. destruct H as [H|[H|[]]]; inversion H; lra.
Qed.
Definition exds : da (A:=R) := mkDA [(LStr "A", 13/10); (LStr "B", -(3/10))] [(LStr "B", 9); (LStr "A", 7)] false 100 (3/10) None.
Example ex_c93_found : exists d' al lo, lp_portfolio best_milp exds true = (d', Ok (al, lo)).
Proof.
  apply c93_found; [apply ex_milp|cbn; lra|cbn; lra| | | |].
  - exists (LStr "B"), (-(3/10)). split; [right; left; reflexivity|lra].
  - exists (LStr "A"), (13/10). split; [left; reflexivity|lra].
  - intros t x H. cbn in H. destruct H as [H|[H|[]]]; inversion H; cbn; eauto.
  - intros t x H. cbn in H. destruct H as [H|[H|[]]]; inversion H; lra.
Qed.

(** three days of prices of two assets *)
Definition exP (t : label) : list R := if label_eqb t (LStr "A") then [1; 2; 3] else [1; 4; 6].
Lemma exP_len : forall t, In t twoN -> List.length (exP t) = 3%nat. Proof. intros t [<-|[<-|[]]]; reflexivity. Qed.
Lemma exP_pos : forall t, In t twoN -> Forall (fun v => 0 < v) (exP t). Proof. intros t [<-|[<-|[]]]; cbn; repeat constructor; lra. Qed.
Lemma twoN_nodup : NoDup twoN. Proof. repeat constructor; cbn; intuition discriminate. Qed.
Example ex_c108_min_volatility : exists w1 o w2 o2 d al lo, min_volatility best_solver w1 o = (w2, o2, Ok d) /\
  allocated best_milp (e_base o2) twoN (f_rows (history 3 [LInt 0; LInt 1; LInt 2] twoN exP)) 1000 al lo /\ alloc_value [(LStr "A", 3); (LStr "B", 6)] al + lo = 1000.
Proof.
  destruct (c108_min_volatility 2 [LInt 0; LInt 1; LInt 2] twoN exP ltac:(lia) ltac:(discriminate) twoN_nodup eq_refl exP_len exP_pos best_solver best_milp
    (fun _ => ([], [])) "spectral"%string (mkWorld [] (fun _ => None) [] 0) 1000 best_solver_exact best_solver_complete (proj1 ex_milp) (proj2 ex_milp) ltac:(lra))
    as (mu & cv & w1 & o & w2 & o2 & d & x & al & lo & _ & _ & _ & H & A & _ & _ & B & _).
  exists w1, o, w2, o2, d, al, lo. auto.
Qed.
Lemma exP_var : forall x, invested 2 x -> 0 < past_variance 2 twoN exP x.
Proof.
  intros [|a [|b [|? ?]]] (L & P & S); try discriminate L. pose proof (Forall_inv P) as Pa. pose proof (Forall_inv (Forall_inv_tail P)) as Pb. cbn in S.
  unfold past_variance, portfolio_series, sample_covariance, average. cbn. nra.
Qed.
Example ex_c108_max_sharpe : exists w1 o w2 o2 d al lo, max_sharpe best_solver (NFloat 0) w1 o = (w2, o2, Ok d) /\
  allocated best_milp (e_base o2) twoN (f_rows (history 3 [LInt 0; LInt 1; LInt 2] twoN exP)) 1000 al lo /\ alloc_value [(LStr "A", 3); (LStr "B", 6)] al + lo = 1000.
Proof.
  destruct (c108_max_sharpe 2 [LInt 0; LInt 1; LInt 2] twoN exP ltac:(lia) ltac:(discriminate) twoN_nodup eq_refl exP_len exP_pos best_solver best_milp
    (fun _ => ([], [])) "spectral"%string (mkWorld [] (fun _ => None) [] 0) 1000 (NFloat 0) 0 best_solver_exact best_solver_complete (proj1 ex_milp) (proj2 ex_milp) ltac:(lra) eq_refl)
    as (mu & cv & w1 & o & w2 & o2 & d & x & al & lo & _ & _ & _ & H & A & _ & _ & _ & B & _).
  - exists (LStr "A"). split; [left; reflexivity|]. unfold growth_rate, exP. cbn [label_eqb String.eqb Ascii.eqb Bool.eqb]. cbn [hd last List.length].
    assert (1 < Rpower (3 / 1) (252 / INR (3 - 1))); [|lra].
    assert (Hz : Rpower (3 / 1) 0 = 1) by (apply Rpower_O; lra). rewrite <- Hz at 1. apply Rpower_lt; [lra|]. cbn. lra.
  - exact exP_var.
  - exists w1, o, w2, o2, d, al, lo. auto.
Qed.
