(** * Which arguments the constructors of CLA and HRPOpt accept *)
From Coq Require Import ZArith List String Bool Reals Lia.
From Verif Require Import Num Py RBase PyLemmas MBase MConvex MEF MCLA MHRP SLabels SInit PLabels.
Import ListNotations.
Local Open Scope R_scope.

Lemma map_repeat' : forall (f : pynum R -> R) x n, map f (repeat x n) = repeat (f x) n.
Proof. intros f x n. induction n as [|n IH]; [reflexivity|]. cbn. rewrite IH. reflexivity. Qed.
Lemma mapM_item : forall i (rows : list (list (pynum R))) lo, mapM (item i) rows = Ok lo <-> Forall2 (fun r b => nth_error r i = Some b) rows lo.
Proof.
  intros i rows. induction rows as [|r rows IH]; intros lo; cbn [mapM].
  - split; [intros H; injection H as <-; constructor|intros H; inversion H; reflexivity].
  - unfold item at 1. destruct (nth_error r i) as [x|] eqn:E; cbn [rbind].
    + destruct (mapM (item i) rows) as [l|e] eqn:El; cbn [rbind].
      * split.
        -- intros H. injection H as <-. constructor; [exact E|]. apply IH. reflexivity.
        -- intros H. inversion H as [|? y ? l' H1 H2]; subst. apply IH in H2. injection H2 as ->. rewrite E in H1. injection H1 as ->. reflexivity.
      * split; [discriminate|]. intros H. inversion H as [|? y ? l' H1 H2]; subst. apply IH in H2. discriminate H2.
    + split; [discriminate|]. intros H. inversion H as [|? y ? l' H1 H2]; subst. congruence.
Qed.
Lemma read_cla_spec : forall n b lo hi isint, read_cla_bounds n b = Ok (lo, hi, isint) <->
  exists l h, cla_bounds_given n b l h /\ lo = map pval l /\ hi = map pval h /\
    isint = match b with CPair _ _ => false | CSeq _ => forallb (is_pint (A := R)) l end.
Proof.
  intros n b lo hi isint. destruct b as [a c|rows]; cbn [read_cla_bounds].
  - split.
    + intros H. injection H as <- <- <-. exists (repeat a n), (repeat c n). split; [constructor|]. rewrite !map_repeat'. auto.
    + intros [l [h [H [-> [-> ->]]]]]. inversion H; subst. rewrite !map_repeat'. reflexivity.
  - destruct rows as [|r0 rows].
    + cbn [item nth_error rbind]. split; [discriminate|]. intros [l [h [H _]]]. inversion H; subst; congruence.
    + unfold item at 1. cbn [nth_error rbind].
      destruct (List.length (r0 :: rows) =? n)%nat eqn:E.
      * apply Nat.eqb_eq in E. split.
        -- intros H. destruct (mapM (item 0) (r0 :: rows)) as [l|e] eqn:El; [|discriminate H]. cbn [rbind] in H.
           destruct (mapM (item 1) (r0 :: rows)) as [h|e] eqn:Eh; [|discriminate H]. cbn [rbind] in H. injection H as <- <- <-.
           exists l, h. split; [|auto]. apply cla_pairs; [exact E|discriminate|apply mapM_item, El|apply mapM_item, Eh].
        -- intros [l [h [H [-> [-> ->]]]]]. inversion H as [|rr l' h' A1 A2 A3 A4|? ? ? A1 A2 A3]; subst; [|congruence].
           apply mapM_item in A3, A4. rewrite A3, A4. cbn [rbind]. reflexivity.
      * apply Nat.eqb_neq in E. split.
        -- intros H. destruct (List.length r0 =? n)%nat eqn:E0; cbn [negb] in H; [|discriminate H].
           destruct rows as [|r1 rows]; [discriminate H|]. unfold item in H. cbn [nth_error rbind] in H.
           destruct (List.length r1 =? n)%nat eqn:E1; cbn [negb] in H; [|discriminate H]. injection H as <- <- <-.
           apply Nat.eqb_eq in E0, E1. exists r0, r1. split; [|auto]. apply cla_arrays; assumption.
        -- intros [l [h [H [-> [-> ->]]]]]. inversion H as [|rr l' h' A1 A2 A3 A4|? ? ? A1 A2 A3]; subst; [congruence|].
           rewrite Nat.eqb_refl. cbn [negb]. unfold item. cbn [nth_error rbind]. rewrite A3, Nat.eqb_refl. reflexivity.
Qed.
Lemma cla_accepts : forall mu cov b, (exists o : cla R, cla_init mu cov b = Ok o) <->
  exists labels mean lo hi, mu = Some (labels, mean) /\ cla_bounds_given (List.length mean) b lo hi.
Proof.
  intros [[labels mean]|] cov b; [|split; [intros [o H]; discriminate H|intros [? [? [? [? [H _]]]]]; discriminate H]].
  unfold cla_init. split.
  - intros [o H]. destruct (read_cla_bounds (List.length mean) b) as [[[lo hi] i]|e] eqn:E; [|discriminate H].
    apply read_cla_spec in E. destruct E as [l [h [E _]]]. exists labels, mean, l, h. auto.
  - intros [? [? [lo [hi [Em H]]]]]. injection Em as <- <-.
    assert (E : read_cla_bounds (List.length mean) b = Ok (map pval lo, map pval hi, match b with CPair _ _ => false | CSeq _ => forallb (is_pint (A := R)) lo end)).
    { apply read_cla_spec. exists lo, hi. auto. }
    rewrite E. cbn [rbind]. eauto.
Qed.
Lemma cla_built : forall labels mean cov b (o : cla R), cla_init (Some (labels, mean)) cov b = Ok o ->
  exists lo hi, cla_bounds_given (List.length mean) b lo hi /\
    c_mean o = mean /\ c_cov o = cov /\ c_lb o = map pval lo /\ c_ub o = map pval hi /\
    (c_int o = true <-> (exists rows, b = CSeq rows) /\ Forall (fun p => exists z, p = PInt z) lo) /\
    c_tp o = [] /\ c_frontier o = None /\ b_weights (c_base o) = None.
Proof.
  intros labels mean cov b o H. unfold cla_init in H. destruct (read_cla_bounds (List.length mean) b) as [[[lo hi] i]|e] eqn:E; [|discriminate H].
  cbn [rbind] in H. injection H as <-. apply read_cla_spec in E. destruct E as [l [h [Hb [-> [-> ->]]]]]. exists l, h. split; [exact Hb|].
  cbn [c_mean c_cov c_lb c_ub c_int c_tp c_frontier c_base base_init b_weights]. repeat (split; [reflexivity|]). split; [|auto].
  destruct b as [a c|rows]; [split; [discriminate|intros [[? H] _]; discriminate H]|].
  rewrite forallb_forall, Forall_forall. split.
  - intros H. split; [eauto|]. intros p Hp. specialize (H p Hp). destruct p as [z|x]; [eauto|discriminate H].
  - intros [_ H] p Hp. destruct (H p Hp) as [z ->]. reflexivity.
Qed.
Lemma hrp_accepts : forall r c, (exists h, hrp_init r c = Ok h) <->
  (exists f, r = HRetFrame f) \/ (r = HRetNone /\ exists f, c = HCovFrame f).
Proof.
  intros r c. split.
  - intros [h H]. destruct r as [|f|]; [|eauto|discriminate H]. destruct c as [|f|]; [discriminate H|eauto|discriminate H].
  - intros [[f ->]|[-> [f ->]]]; eexists; reflexivity.
Qed.
Lemma hrp_init_errors : forall r c e, hrp_init r c = Err e <->
  (r = HRetNone /\ c = HCovNone /\ e = ValueError) \/ (r = HRetOther /\ e = TypeError) \/ (r = HRetNone /\ c = HCovOther /\ e = AttributeError).
Proof.
  intros r c e. split.
  - intros H. destruct r, c; cbn in H; try discriminate H; injection H as <-; auto 6.
  - intros [[-> [-> ->]]|[[-> ->]|[-> [-> ->]]]]; [reflexivity| |reflexivity]. destruct c; reflexivity.
Qed.
Lemma hrp_built : forall r c h, hrp_init r c = Ok h ->
  h_returns h = match r with HRetFrame f => Some f | _ => None end /\
  h_cov h = match c with HCovFrame f => Some f | _ => None end /\ b_weights (h_base h) = None /\ h_clusters h = None.
Proof.
  intros r c h H. destruct r as [|f|]; [|injection H as <-; auto|discriminate H].
  destruct c as [|f|]; [discriminate H|injection H as <-; auto|discriminate H].
Qed.
