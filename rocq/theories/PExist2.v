(** * An optimizer finds a portfolio exactly when there is one (C106) *)
From Coq Require Import List String Bool Reals Lra Lia Arith.
From Verif Require Import Num Py RBase PyLemmas SLin SBase MBase MConvex MEF SConvex SPrep SExist Sums PBase PConvex PEF PEF2 PEF3 PEF4 PPrep PExist.
Import ListNotations.
Local Open Scope R_scope.

(** ** expressions of the weights are continuous *)
Lemma nth_map2 : forall (f : R -> R -> R) a b i, nth i (map2 f a b) 0 = if (i <? Nat.min (List.length a) (List.length b))%nat then f (nth i a 0) (nth i b 0) else 0.
Proof. intros f a. induction a as [|x a IH]; intros [|y b] [|i]; cbn [map2 nth List.length Nat.min]; try reflexivity. rewrite IH. reflexivity. Qed.
Lemma map2_length' : forall (f : R -> R -> R) a b, List.length (map2 f a b) = Nat.min (List.length a) (List.length b).
Proof. intros f a. induction a as [|x a IH]; intros [|y b]; cbn [map2 List.length Nat.min]; try reflexivity. rewrite IH. reflexivity. Qed.
Definition bop_len (m p : nat) : nat := if Nat.eqb m 1 then p else if Nat.eqb p 1 then m else Nat.min m p.
Lemma bop_length : forall f a b, List.length (bop f a b) = bop_len (List.length a) (List.length b).
Proof.
  intros f a b. unfold bop_len. destruct a as [|x [|x' a]]; destruct b as [|y [|y' b]]; cbn [bop List.length Nat.eqb]; rewrite ?map_length, ?map2_length'; try reflexivity.
Qed.
Lemma bop_nth : forall f a b i, nth i (bop f a b) 0 =
  if (i <? bop_len (List.length a) (List.length b))%nat then
    f (nth (if Nat.eqb (List.length a) 1 then 0%nat else i) a 0)
      (nth (if Nat.eqb (List.length a) 1 then i else if Nat.eqb (List.length b) 1 then 0%nat else i) b 0)
  else 0.
Proof.
  intros f a b i. unfold bop_len.
  destruct a as [|x [|x' a]]; destruct b as [|y [|y' b]]; cbn [bop List.length Nat.eqb]; rewrite ?nth_map0, ?nth_map2; cbn [List.length Nat.min]; try reflexivity.
Qed.
Lemma cont_vec_bop : forall n m p F G f, (forall h k, continuous_on n h -> continuous_on n k -> continuous_on n (fun x => f (h x) (k x))) ->
  cont_vec n m F -> cont_vec n p G -> cont_vec n (bop_len m p) (fun x => bop f (F x) (G x)).
Proof.
  intros n m p F G f Hf [Fl Fc] [Gl Gc]. split; [intros x Hx; rewrite bop_length, Fl, Gl by exact Hx; reflexivity|]. intros i.
  apply (cont_ext n (fun x => if (i <? bop_len m p)%nat then
    f (nth (if Nat.eqb m 1 then 0%nat else i) (F x) 0) (nth (if Nat.eqb m 1 then i else if Nat.eqb p 1 then 0%nat else i) (G x) 0) else 0)).
  - destruct (i <? bop_len m p)%nat; [|exact (cont_const n 0)]. apply Hf; auto.
  - intros x Hx. rewrite bop_nth, Fl, Gl by exact Hx. reflexivity.
Qed.
Lemma id_cont : forall v, continuity_pt (fun x => x) v. Proof. intros v. apply derivable_continuous_pt, derivable_pt_id. Qed.
Lemma cont_vec_one : forall n f, continuous_on n f -> cont_vec n 1 (fun x => [f x]).
Proof. intros n f Hf. split; [reflexivity|]. intros [|[|i]]; cbn [nth]; [exact Hf|exact (cont_const n 0)|exact (cont_const n 0)]. Qed.
Lemma quad_qform : forall M x, quad M x = qform M x.
Proof. intros M x. unfold quad, qform. rewrite dot_inner. f_equal. unfold matvec. apply map_ext. intros r. apply dot_inner. Qed.
Lemma plain_eval : forall v e s ps, plain v e -> eval s ps e = eval (fun _ => s v) ps e.
Proof.
  intros v e s ps. induction e; cbn [plain eval]; intros H; try reflexivity; try (rewrite IHe by exact H; reflexivity); try (destruct H; rewrite IHe1, IHe2 by assumption; reflexivity).
  - rewrite H. reflexivity.
Qed.
Theorem plain_cont : forall n v ps e, plain v e -> exists m, cont_vec n m (fun x => eval (fun _ => x) ps e).
Proof.
  intros n v ps e. induction e; cbn [plain eval]; intros H.
  - exists n. apply cont_vec_id.
  - exists 1%nat. apply cont_vec_one. apply cont_const.
  - exists (List.length c). apply cont_vec_const.
  - destruct H as [H1 H2]. destruct (IHe1 H1) as [m Hm], (IHe2 H2) as [p Hp]. exists (bop_len m p). apply cont_vec_bop; try assumption. intros h k. apply cont_plus.
  - destruct (IHe H) as [m Hm]. exists m. apply cont_vec_map; [exact Hm|]. intros x. apply (continuity_pt_opp id), id_cont.
  - destruct H as [H1 H2]. destruct (IHe1 H1) as [m Hm], (IHe2 H2) as [p Hp]. exists (bop_len m p). apply cont_vec_bop; try assumption. intros h k. apply cont_mult.
  - destruct (IHe H) as [m Hm]. exists 1%nat. apply cont_vec_one. apply (cont_ext n (fun x => inner c (eval (fun _ => x) ps e))).
    + apply (cont_vec_inner n (List.length c) m); [apply cont_vec_const|exact Hm].
    + intros x _. apply dot_inner.
  - destruct (IHe H) as [p Hp]. exists (List.length m). destruct (cont_vec_matvec n p m _ Hp) as [A B]. split.
    + intros x Hx. unfold matvec. apply map_length.
    + intros i. apply (cont_ext n _ _ (B i)). intros x Hx. f_equal. unfold matvec. apply map_ext. intros r. apply dot_inner.
  - destruct (IHe H) as [m Hm]. exists 1%nat. apply cont_vec_one. apply (cont_ext n (fun x => total (eval (fun _ => x) ps e))); [apply (cont_vec_total n m _ Hm)|].
    intros x _. apply vsum_total.
  - destruct (IHe H) as [p Hp]. exists 1%nat. apply cont_vec_one. apply (cont_ext n (fun x => qform m (eval (fun _ => x) ps e))); [apply (cont_vec_qform n p m _ Hp)|].
    intros x _. apply quad_qform.
  - destruct (IHe H) as [m Hm]. exists 1%nat. apply cont_vec_one. apply (cont_ext n (fun x => total (map (fun v => v * v) (eval (fun _ => x) ps e)))).
    + apply (cont_vec_total n m). apply cont_vec_map; [exact Hm|]. intros x. apply (continuity_pt_mult id id); apply id_cont.
    + intros x _. apply vsum_total.
  - destruct (IHe H) as [m Hm]. exists 1%nat. apply cont_vec_one. apply (cont_ext n (fun x => total (map Rabs (eval (fun _ => x) ps e)))).
    + apply (cont_vec_total n m). apply cont_vec_map; [exact Hm|]. exact Rcontinuity_abs.
    + intros x _. apply vsum_total.
  - destruct (IHe H) as [m [Hl Hc]]. exists (List.length ix). apply (cont_vec_rows n (fun i x => nth i (eval (fun _ => x) ps e) 0) 0%nat). exact Hc.
  - contradiction.
Qed.
Lemma scalar_nth : forall l, scalar l = nth 0 l 0. Proof. intros [|]; reflexivity. Qed.
Theorem plain_regular : forall n v ps f, plain v (f v) -> regular n v ps (AddObjective f).
Proof.
  intros n v ps f H. destruct (plain_cont n v ps (f v) H) as [m [_ Hc]]. exists (fun x => nth 0 (eval (fun _ => x) ps (f v)) 0). split; [apply Hc|].
  intros s _. unfold evals. rewrite scalar_nth, (plain_eval v _ s ps H). reflexivity.
Qed.
Lemma Forall_nth0 : forall (P : R -> Prop) l, Forall P l <-> Forall (fun i => P (nth i l 0)) (seq 0 (List.length l)).
Proof.
  intros P l. rewrite !Forall_forall. split.
  - intros H i Hi. apply in_seq in Hi. apply H. apply nth_In. lia.
  - intros H x Hx. destruct (In_nth l x 0 Hx) as [i [Hi <-]]. apply H. apply in_seq. lia.
Qed.
Theorem plain_con_regular : forall n v ps f, plain_con v (f v) -> regular n v ps (AddConstraint f).
Proof.
  intros n v ps f H. cbn [regular]. destruct (f v) as [a b|a b|Q a]; cbn [plain_con sat] in *; [| |contradiction];
  destruct H as [Ha Hb]; destruct (plain_cont n v ps a Ha) as [m Hm], (plain_cont n v ps b Hb) as [p Hp];
  destruct (cont_vec_bop n m p _ _ Rminus (fun h k => cont_minus n h k) Hm Hp) as [Hl Hc].
  - exists (fun x => Forall (fun d => d <= 0) (bop Rminus (eval (fun _ => x) ps a) (eval (fun _ => x) ps b))). split.
    + apply (closed_ext n (fun x => Forall (fun i => nth i (bop Rminus (eval (fun _ => x) ps a) (eval (fun _ => x) ps b)) 0 <= 0) (seq 0 (bop_len m p)))).
      * apply (closed_all n (seq 0 (bop_len m p)) (fun i x => nth i (bop Rminus (eval (fun _ => x) ps a) (eval (fun _ => x) ps b)) 0 <= 0)).
        intros i _. apply closed_le; [apply Hc|apply cont_const].
      * intros x Hx. rewrite <- (Hl x Hx). apply Forall_nth0.
    + intros s _. rewrite (plain_eval v a s ps Ha), (plain_eval v b s ps Hb). reflexivity.
  - exists (fun x => Forall (fun d => d = 0) (bop Rminus (eval (fun _ => x) ps a) (eval (fun _ => x) ps b))). split.
    + apply (closed_ext n (fun x => Forall (fun i => nth i (bop Rminus (eval (fun _ => x) ps a) (eval (fun _ => x) ps b)) 0 = 0) (seq 0 (bop_len m p)))).
      * apply (closed_all n (seq 0 (bop_len m p)) (fun i x => nth i (bop Rminus (eval (fun _ => x) ps a) (eval (fun _ => x) ps b)) 0 = 0)).
        intros i _. apply closed_eq; [apply Hc|apply cont_const].
      * intros x Hx. rewrite <- (Hl x Hx). apply (Forall_nth0 (fun d => d = 0)).
    + intros s _. rewrite (plain_eval v a s ps Ha), (plain_eval v b s ps Hb). reflexivity.
Qed.

(** ** the steps of the preparation *)
Lemma sector_inner : forall mapper sec ts x, sector_weight mapper sec ts x =
  inner (map (fun t => if match dget t mapper with Some s' => String.eqb s' sec | None => false end then 1 else 0) ts) x.
Proof.
  intros mapper sec ts. induction ts as [|t ts IH]; intros [|a x]; try reflexivity. cbn [sector_weight map inner]. rewrite IH.
  destruct (match dget t mapper with Some s' => String.eqb s' sec | None => false end); lra.
Qed.
Lemma steps_closed : forall n tickers v ps steps, Forall (regular n v ps) steps -> exists P, closed_on n P /\
  forall s, List.length (s v) = n -> (Forall (demanded tickers v s ps) steps <-> P (s v)).
Proof.
  intros n tickers v ps steps. induction steps as [|a steps IH]; intros H.
  - exists (fun _ => True). split; [apply closed_true|]. intros s _. split; [auto|constructor].
  - destruct (IH (Forall_inv_tail H)) as [P [HP E]]. pose proof (Forall_inv H) as Ha.
    assert (A : exists Q, closed_on n Q /\ forall s, List.length (s v) = n -> (demanded tickers v s ps a <-> Q (s v))).
    { destruct a as [f|f|mapper lower upper]; cbn [regular demanded] in *.
      - exists (fun _ => True). split; [apply closed_true|]. tauto.
      - exact Ha.
      - exists (fun x => Forall (fun q => sector_weight mapper (fst q) tickers x <= snd q) upper /\ Forall (fun q => snd q <= sector_weight mapper (fst q) tickers x) lower).
        assert (C : forall sec, continuous_on n (fun x => sector_weight mapper sec tickers x)).
        { intros sec. eapply cont_ext; [|intros x _; apply sector_inner]. eapply (cont_vec_inner n _ n); [apply cont_vec_const|apply cont_vec_id]. }
        split.
        + apply closed_and.
          * apply (closed_all n upper (fun q x => sector_weight mapper (fst q) tickers x <= snd q)). intros q _. apply closed_le; [apply C|apply cont_const].
          * apply (closed_all n lower (fun q x => snd q <= sector_weight mapper (fst q) tickers x)). intros q _. apply closed_le; [apply cont_const|apply C].
        + intros s _. rewrite !Forall_forall. split.
          * intros [H1 H2]. split; intros [sec q] Hq; cbn [fst snd]; [apply H1|apply H2]; exact Hq.
          * intros [H1 H2]. split; intros sec q Hq; [exact (H1 (sec, q) Hq)|exact (H2 (sec, q) Hq)]. }
    destruct A as [Q [HQ EQ]]. exists (fun x => Q x /\ P x). split; [apply closed_and; assumption|]. intros s Hs. rewrite <- (EQ s Hs), <- (E s Hs).
    split; [intros F; split; [exact (Forall_inv F)|exact (Forall_inv_tail F)]|intros [? ?]; constructor; assumption].
Qed.
Lemma steps_cont : forall n v ps steps, Forall (regular n v ps) steps -> exists g, continuous_on n g /\
  forall s, List.length (s v) = n -> total (map (extra_cost v s ps) steps) = g (s v).
Proof.
  intros n v ps steps. induction steps as [|a steps IH]; intros H.
  - exists (fun _ => 0). split; [apply cont_const|]. reflexivity.
  - destruct (IH (Forall_inv_tail H)) as [g [Hg E]]. pose proof (Forall_inv H) as Ha. destruct a as [f|f|mapper lower upper]; cbn [regular extra_cost] in *.
    + destruct Ha as [h [Hh Eh]]. exists (fun x => h x + g x). split; [apply cont_plus; assumption|]. intros s Hs. cbn [map total extra_cost]. rewrite Eh, E by exact Hs. reflexivity.
    + exists g. split; [exact Hg|]. intros s Hs. cbn [map total extra_cost]. rewrite E by exact Hs. lra.
    + exists g. split; [exact Hg|]. intros s Hs. cbn [map total extra_cost]. rewrite E by exact Hs. lra.
Qed.

(** ** the set of portfolios is closed and bounded *)
Definition bval (b : option R) : R := match b with Some x => x | None => 0 end.
Fixpoint most (l : list R) : R := match l with [] => 0 | x :: l' => Rmax (Rabs x) (most l') end.
Lemma most_in : forall l x, In x l -> Rabs x <= most l.
Proof.
  induction l as [|a l IH]; intros x Hx; [contradiction|]. destruct Hx as [->|Hx]; cbn [most]; [apply Rmax_l|]. eapply Rle_trans; [apply IH; exact Hx|apply Rmax_r].
Qed.
Lemma within_nth : forall lb ub x, bounded lb -> bounded ub -> List.length lb = List.length x -> List.length ub = List.length x ->
  (within lb ub x <-> Forall (fun i => nth i (map bval lb) 0 <= nth i x 0 <= nth i (map bval ub) 0) (seq 0 (List.length x))).
Proof.
  intros lb ub x. revert lb ub. induction x as [|a x IH]; intros lb ub Hl Hu L1 L2.
  - destruct lb; [|discriminate]. destruct ub; [|discriminate]. split; [constructor|]. intros _. split; constructor.
  - destruct lb as [|l lb]; [discriminate|]. destruct ub as [|h ub]; [discriminate|]. cbn [List.length] in L1, L2.
    pose proof (Forall_inv Hl) as Hl1. pose proof (Forall_inv Hu) as Hu1. destruct l as [l|]; [|congruence]. destruct h as [h|]; [|congruence].
    specialize (IH lb ub (Forall_inv_tail Hl) (Forall_inv_tail Hu) ltac:(lia) ltac:(lia)).
    cbn [map bval List.length seq]. rewrite Forall_cons_iff. cbn [nth]. rewrite <- seq_shift, Forall_map. cbn [nth]. rewrite <- IH. unfold within.
    split.
    + intros [H1 H2]. inversion H1; subst. inversion H2; subst. cbn [above below] in *. repeat split; assumption.
    + intros [[H1 H2] [H3 H4]]. split; constructor; assumption.
Qed.
Theorem exists_least : forall w o u lb ub sum (ok : list R -> Prop) cost n, nth_error (w_sizes w) (e_w o) = Some n ->
  bounded lb -> bounded ub -> List.length lb = n -> List.length ub = n ->
  (exists P, closed_on n P /\ forall s, List.length (s (e_w o)) = n -> (Forall (fun ic => sat s (par_values w) (snd ic)) u <-> P (s (e_w o)))) ->
  (exists g, continuous_on n g /\ forall s, List.length (s (e_w o)) = n -> penalty s (par_values w) (e_add o) = g (s (e_w o))) ->
  closed_on n ok -> continuous_on n cost ->
  (exists s, admissible w o u lb ub sum s /\ ok (s (e_w o))) -> exists s, least w o u lb ub sum ok cost s.
Proof.
  intros w o u lb ub sum ok cost n Hw Hlb Hub Ll Lu [P [HP EP]] [g [Hg Eg]] Hok Hcost [s0 [H0 H1]].
  assert (Hv : (e_w o < List.length (w_sizes w))%nat) by (apply nth_error_Some; congruence).
  assert (Hsz : nth (e_w o) (w_sizes w) 0%nat = n) by (apply nth_error_nth; exact Hw).
  assert (Hlen : forall s, well_sized (w_sizes w) s -> List.length (s (e_w o)) = n) by (intros s H; rewrite (H _ Hv); exact Hsz).
  set (K := fun x : list R => ((List.length x = n /\ Forall (fun i => nth i (map bval lb) 0 <= nth i x 0 <= nth i (map bval ub) 0) (seq 0 n)) /\ total x = sum) /\ P x /\ ok x).
  set (put := fun (x : list R) v => if Nat.eqb v (e_w o) then x else s0 v).
  assert (putE : forall x, put x (e_w o) = x) by (intros x; unfold put; rewrite Nat.eqb_refl; reflexivity).
  assert (putW : forall x, List.length x = n -> well_sized (w_sizes w) (put x)).
  { intros x Hx v Hv'. unfold put. destruct (Nat.eqb_spec v (e_w o)) as [->|]; [congruence|]. apply H0. exact Hv'. }
  assert (adm : forall s, admissible w o u lb ub sum s /\ ok (s (e_w o)) -> K (s (e_w o))).
  { intros s [[A [B [C D]]] E]. pose proof (Hlen s A) as L. unfold K. split; [split; [split; [exact L|]|exact C]|split; [apply EP; assumption|exact E]].
    rewrite <- L. apply within_nth; try assumption; congruence. }
  assert (adm' : forall x, K x -> admissible w o u lb ub sum (put x) /\ ok (put x (e_w o))).
  { intros x [[[A B] C] [D E]]. unfold admissible. rewrite putE. split; [|exact E]. split; [apply putW; exact A|]. split; [|split; [exact C|]].
    - apply within_nth; try assumption; congruence.
    - apply EP; rewrite putE; assumption. }
  destruct (attains (most (map bval lb ++ map bval ub)) n K (fun x => cost x + g x)) as [x [Kx Hx]].
  - intros x [[[A B] _] _]. split; [exact A|]. apply Forall_nth0. rewrite A. apply Forall_forall. intros i Hi. rewrite Forall_forall in B. specialize (B i Hi).
    apply in_seq in Hi.
    assert (M1 : Rabs (nth i (map bval lb) 0) <= most (map bval lb ++ map bval ub)) by (apply most_in, in_or_app; left; apply nth_In; rewrite map_length; lia).
    assert (M2 : Rabs (nth i (map bval ub) 0) <= most (map bval lb ++ map bval ub)) by (apply most_in, in_or_app; right; apply nth_In; rewrite map_length; lia).
    revert M1 M2 B. generalize (most (map bval lb ++ map bval ub)) (nth i (map bval lb) 0) (nth i (map bval ub) 0) (nth i x 0). intros M a b c.
    unfold Rabs. destruct (Rcase_abs a), (Rcase_abs b), (Rcase_abs c); lra.
  - apply closed_and; [apply closed_and; [apply closed_and; [apply closed_length|]|]|apply closed_and; assumption].
    + apply (closed_all n (seq 0 n) (fun i x => nth i (map bval lb) 0 <= nth i x 0 <= nth i (map bval ub) 0)). intros i _.
      apply closed_and; apply closed_le; try apply cont_const; apply cont_nth.
    + apply closed_eq; [|apply cont_const]. apply (cont_vec_total n n _ (cont_vec_id n)).
  - apply cont_plus; assumption.
  - exists (s0 (e_w o)). apply adm. auto.
  - exists (put x). destruct (adm' x Kx) as [A B]. split; [exact A|]. split; [exact B|]. intros s' A' B'. rewrite putE.
    rewrite (Eg (put x)) by (rewrite putE; apply Kx). rewrite (Eg s') by (apply Hlen; apply A'). rewrite putE. apply Hx. apply adm. auto.
Qed.
