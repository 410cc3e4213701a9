(** * An asset listed twice: HRP gives the pair more than the asset alone (C141) *)
From Coq Require Import ZArith String List Bool Reals Lra Lia.
From Verif Require Import Num Py RBase MFrame MHRP SLin SHRP PHRP2.
Import ListNotations.
Local Open Scope R_scope.

Definition h_a : label := LStr "A".
Definition h_b : label := LStr "B".
Definition h_c : label := LStr "C".
(** A and B uncorrelated with variance 1, C the same asset as A *)
Definition h_cov (t u : label) : R := if Bool.eqb (label_eqb t h_b) (label_eqb u h_b) then 1 else 0.
Lemma h_single : forall t, cluster_variance h_cov [t] = 1.
Proof. intros t. unfold cluster_variance, variance, inverse_variance, h_cov. cbn [map total]. rewrite Bool.eqb_reflx. field. Qed.
Lemma h_pair : cluster_variance h_cov [h_a; h_b] = 1/2.
Proof. unfold cluster_variance, variance, inverse_variance, h_cov. cbn. field. Qed.
Lemma h_risk : forall ts, positive_risk h_cov ts.
Proof.
  intros ts sub x Hn _ _ Hx.
  assert (E : variance h_cov sub x = total (map (fun t => if label_eqb t h_b then x t else 0) sub) * total (map (fun t => if label_eqb t h_b then x t else 0) sub)
    + total (map (fun t => if label_eqb t h_b then 0 else x t) sub) * total (map (fun t => if label_eqb t h_b then 0 else x t) sub)).
  { unfold variance. set (bs := total (map (fun t => if label_eqb t h_b then x t else 0) sub)). set (os := total (map (fun t => if label_eqb t h_b then 0 else x t) sub)).
    assert (I : forall t, total (map (fun u => x t * h_cov t u * x u) sub) = (if label_eqb t h_b then x t else 0) * bs + (if label_eqb t h_b then 0 else x t) * os).
    { intros t. unfold bs, os. clear. induction sub as [|u sub IH]; cbn [map total]; [ring|]. rewrite IH. unfold h_cov. destruct (label_eqb t h_b), (label_eqb u h_b); cbn [Bool.eqb]; ring. }
    rewrite (map_ext _ _ I). assert (G : forall f g a b, total (map (fun t : label => f t * a + g t * b) sub) = total (map f sub) * a + total (map g sub) * b).
    { intros f g a b. clear. induction sub as [|u sub IH]; cbn [map total]; [ring|]. rewrite IH. ring. }
    rewrite (G (fun t => if label_eqb t h_b then x t else 0) (fun t => if label_eqb t h_b then 0 else x t)). reflexivity. }
  rewrite E. assert (P : forall l, (forall t, In t l -> 0 < x t) -> 0 <= total (map (fun t => if label_eqb t h_b then x t else 0) l) /\ 0 <= total (map (fun t => if label_eqb t h_b then 0 else x t) l)).
  { induction l as [|u l IH]; intros H; cbn [map total]; [lra|]. destruct IH as [I1 I2]; [intros t Ht; apply H; right; exact Ht|]. pose proof (H u (or_introl eq_refl)). destruct (label_eqb u h_b); lra. }
  destruct sub as [|u sub]; [contradiction|]. destruct (P sub) as [P1 P2]; [intros t Ht; apply Hx; right; exact Ht|]. pose proof (Hx u (or_introl eq_refl)) as Hu. clear E P. cbn [map total]. destruct (label_eqb u h_b); nra.
Qed.
Lemma bis_one : forall sh acc t w, bisected sh acc [t] w -> w = [(t, acc)].
Proof.
  intros sh acc t w H. remember [t] as l eqn:El. destruct H as [|acc l1 l2 w1 w2 L E1 B1 B2]; [subst l; reflexivity|]. rewrite El in L. cbn in L. lia.
Qed.
Lemma bis_two : forall sh acc t u w, bisected sh acc [t; u] w -> w = [(t, acc * sh [t] [u]); (u, acc * (1 - sh [t] [u]))].
Proof.
  intros sh acc t u w H. remember [t; u] as l eqn:E2. destruct H as [acc l L|acc l1 l2 w1 w2 L E1 B1 B2]; [subst l; cbn in L; lia|]. rewrite E2 in E1. change (length l1 = 1%nat) in E1.
  destruct l1 as [|a [|]]; try discriminate E1. cbn in E2. injection E2 as -> ->. apply bis_one in B1. apply bis_one in B2. subst. reflexivity.
Qed.
Theorem hrp_clone_refuted : exists (cov : label -> label -> R) (a b c : label) v w, NoDup [c; a; b] /\ (forall t, cov c t = cov a t /\ cov t c = cov t a) /\
  raw_hrp_allocation (labelled [a; b] cov) [a; b] = Ok v /\ raw_hrp_allocation (labelled [c; a; b] cov) [c; a; b] = Ok w /\
  dget b v = Some (1/2) /\ dget b w = Some (1/3).
Proof.
  assert (D3 : NoDup [h_c; h_a; h_b]) by (repeat constructor; cbn; intuition discriminate). assert (D2 : NoDup [h_a; h_b]) by (inversion D3; assumption).
  destruct (raw_portfolio [h_a; h_b] h_cov [h_a; h_b] D2 (incl_refl _) ltac:(discriminate) (h_risk _)) as (v & V & _).
  destruct (raw_portfolio [h_c; h_a; h_b] h_cov [h_c; h_a; h_b] D3 (incl_refl _) ltac:(discriminate) (h_risk _)) as (w & W & _).
  exists h_cov, h_a, h_b, h_c, v, w. split; [exact D3|]. split; [intros t; split; unfold h_cov; reflexivity|]. split; [exact V|]. split; [exact W|]. split.
  - apply raw_bisected in V; [|exact D2|apply incl_refl]. apply bis_two in V. subst v. cbn. f_equal. unfold first_share. rewrite !h_single. field.
  - apply raw_bisected in W; [|exact D3|apply incl_refl]. clear V. remember [h_c; h_a; h_b] as l eqn:E2. remember 1 as acc eqn:Ea in W. destruct W as [acc l L|acc l1 l2 w1 w2 L E1 B1 B2]; [subst l; cbn in L; lia|]. rewrite E2 in E1. change (length l1 = 1%nat) in E1.
    destruct l1 as [|a [|]]; try discriminate E1. cbn in E2. injection E2 as -> ->. apply bis_one in B1. apply bis_two in B2. subst w1 w2 acc. cbn. f_equal. unfold first_share. rewrite !h_single, h_pair. field.
Qed.
