(** * Continuous functions attain their minimum on closed bounded sets of vectors *)
From Coq Require Import List Reals Lra Lia Classical.
From Verif Require Import Py SLin MConvex MEF SConvex SPrep SExist.
Import ListNotations.
Local Open Scope R_scope.

(** ** a point around which the members of a shrinking family accumulate *)
Lemma heads_cluster : forall M (G : R -> R -> Prop),
  (forall a b x, 0 < a -> a <= b -> G a x -> G b x) ->
  (forall e, 0 < e -> exists x, G e x) -> (forall e x, 0 < e -> G e x -> Rabs x <= M) ->
  exists c, forall e, 0 < e -> exists x, G e x /\ Rabs (x - c) < e.
Proof.
  intros M G Hm He Hb.
  pose (S := fun c => forall e, 0 < e -> exists x, G e x /\ c <= x).
  assert (S0 : S (- M)).
  { intros e H. destruct (He e H) as [x Hx]. exists x. split; [exact Hx|]. pose proof (Hb e x H Hx) as B.
    destruct (Rcase_abs x); [rewrite Rabs_left in B by assumption|rewrite Rabs_right in B by assumption]; lra. }
  assert (SB : bound S).
  { exists M. intros c Hc. destruct (Hc 1 Rlt_0_1) as [x [Hx Hcx]]. pose proof (Hb 1 x Rlt_0_1 Hx) as B. pose proof (Rle_abs x). lra. }
  destruct (completeness S SB (ex_intro _ _ S0)) as [c [Hu Hl]]. exists c. intros e H.
  assert (N1 : ~ S (c + e / 2)). { intros K. pose proof (Hu _ K). lra. }
  apply not_all_ex_not in N1. destruct N1 as [e0 N1]. apply imply_to_and in N1. destruct N1 as [H0 N1].
  assert (N2 : exists d, S d /\ c - e < d).
  { apply NNPP. intros K. assert (c <= c - e); [|lra]. apply Hl. intros d Hd. destruct (Rle_or_lt d (c - e)); [assumption|]. elim K. exists d. auto. }
  destruct N2 as [d [Hd Hcd]]. destruct (Hd (Rmin e e0)) as [x [Hx Hdx]]; [apply Rmin_glb_lt; assumption|].
  exists x. split; [apply (Hm (Rmin e e0)); [apply Rmin_glb_lt; assumption|apply Rmin_l|exact Hx]|].
  assert (x < c + e / 2).
  { apply Rnot_le_lt. intros K. apply N1. exists x. split; [|lra]. apply (Hm (Rmin e e0)); [apply Rmin_glb_lt; assumption|apply Rmin_r|exact Hx]. }
  apply Rabs_def1; lra.
Qed.
Lemma near_mono : forall a b y x, a <= b -> near a y x -> near b y x.
Proof. intros a b y x H Hn. induction Hn; constructor; [lra|assumption]. Qed.
Lemma cluster : forall M n (G : R -> list R -> Prop),
  (forall a b x, 0 < a -> a <= b -> G a x -> G b x) ->
  (forall e, 0 < e -> exists x, G e x) -> (forall e x, 0 < e -> G e x -> length x = n /\ Forall (fun v => Rabs v <= M) x) ->
  exists c, length c = n /\ forall e, 0 < e -> exists x, G e x /\ near e x c.
Proof.
  intros M n. induction n as [|n IH]; intros G Hm He Hb.
  - exists []. split; [reflexivity|]. intros e H. destruct (He e H) as [x Hx]. exists x. split; [exact Hx|].
    destruct (Hb e x H Hx) as [Hl _]. destruct x; [constructor|discriminate].
  - destruct (heads_cluster M (fun e a => exists t, G e (a :: t))) as [c Hc].
    + intros a b x Ha Hab [t Ht]. exists t. apply (Hm a b); assumption.
    + intros e H. destruct (He e H) as [x Hx]. destruct (Hb e x H Hx) as [Hl _]. destruct x as [|a t]; [discriminate|]. exists a, t. exact Hx.
    + intros e a H [t Ht]. destruct (Hb e _ H Ht) as [_ HF]. exact (Forall_inv HF).
    + destruct (IH (fun e t => exists a, G e (a :: t) /\ Rabs (a - c) < e)) as [ct [Hl Hct]].
      * intros a b t Ha Hab [x [Hx Hd]]. exists x. split; [apply (Hm a b); assumption|lra].
      * intros e H. destruct (Hc e H) as [a [[t Ht] Hd]]. exists t, a. auto.
      * intros e t H [a [Ha _]]. destruct (Hb e _ H Ha) as [Hl HF]. split; [cbn in Hl; lia|exact (Forall_inv_tail HF)].
      * exists (c :: ct). split; [cbn; lia|]. intros e H. destruct (Hct e H) as [t [[a [Ha Hd]] Hn]]. exists (a :: t). split; [exact Ha|]. constructor; assumption.
Qed.

Theorem attains : forall M n (P : list R -> Prop) f, (forall x, P x -> length x = n /\ Forall (fun v => Rabs v <= M) x) -> closed_on n P -> continuous_on n f ->
  (exists x, P x) -> exists x, P x /\ forall y, P y -> f x <= f y.
Proof.
  intros M n P f Hb Hc Hf [x0 Hx0].
  destruct (completeness (fun v => exists x, P x /\ v = - atan (f x))) as [m [Hu Hl]].
  { exists (PI / 2). intros v [x [_ ->]]. pose proof (atan_bound (f x)). lra. }
  { exists (- atan (f x0)), x0. auto. }
  destruct (cluster M n (fun e x => P x /\ - m - e < atan (f x) < - m + e)) as [x [Hn Hx]].
  - intros a b x Ha Hab [Hp H]. split; [exact Hp|lra].
  - intros e H. apply NNPP. intros K. assert (m <= m - e); [|lra]. apply Hl. intros v [x [Hp ->]].
    destruct (Rle_or_lt (- atan (f x)) (m - e)) as [|H1]; [assumption|]. elim K. exists x. split; [exact Hp|].
    assert (- atan (f x) <= m) by (apply Hu; exists x; auto). lra.
  - intros e x _ [Hp _]. apply Hb. exact Hp.
  - exists x. assert (Px : P x). { apply Hc; [exact Hn|]. intros e H. destruct (Hx e H) as [y [[Hp _] Hy]]. exists y. auto. }
    split; [exact Px|]. intros z Hz. destruct (Rle_or_lt (f x) (f z)) as [|K]; [assumption|]. exfalso.
    apply atan_increasing in K. assert (Hm : - atan (f z) <= m) by (apply Hu; exists z; auto).
    set (g := atan (f x) - atan (f z)) in *. assert (Hg : 0 < g) by (unfold g; lra).
    assert (Ca : continuity_pt atan (f x)). { apply derivable_continuous_pt, derivable_pt_atan. }
    destruct (Ca (g / 2)) as [d [Hd1 Hd2]]; [lra|].
    destruct (Hf x Hn d Hd1) as [d' [Hd' Hf']].
    destruct (Hx (Rmin d' (g / 2))) as [y [[Hy1 Hy2] Hy3]]; [apply Rmin_glb_lt; lra|].
    assert (Hy : Rabs (f y - f x) < d) by (apply Hf'; apply (near_mono (Rmin d' (g / 2))); [apply Rmin_l|exact Hy3]).
    pose proof (Rmin_r d' (g / 2)).
    assert (Ha : Rabs (atan (f y) - atan (f x)) < g / 2).
    { destruct (Req_dec (f x) (f y)) as [E|E]; [rewrite E, Rminus_diag_eq, Rabs_R0 by reflexivity; lra|].
      apply Hd2. split; [split; [exact I|exact E]|exact Hy]. }
    apply Rabs_def2 in Ha. unfold g in *. lra.
Qed.

(** ** continuous functions *)
Lemma near_len : forall e y x, near e y x -> length y = length x.
Proof. intros e y x H. induction H; cbn; congruence. Qed.
Lemma near_nth : forall e y x i, 0 < e -> near e y x -> Rabs (nth i y 0 - nth i x 0) < e.
Proof.
  intros e y x i He H. revert i. induction H; intros [|i]; cbn [nth]; auto; rewrite Rminus_diag_eq, Rabs_R0 by reflexivity; exact He.
Qed.
Lemma cont_const : forall n c, continuous_on n (fun _ => c).
Proof. intros n c x _ e He. exists 1. split; [lra|]. intros y _. rewrite Rminus_diag_eq, Rabs_R0 by reflexivity. exact He. Qed.
Lemma cont_nth : forall n i, continuous_on n (fun x => nth i x 0).
Proof. intros n i x _ e He. exists e. split; [exact He|]. intros y Hy. apply near_nth; assumption. Qed.
Lemma cont_ext : forall n f g, continuous_on n f -> (forall x, length x = n -> g x = f x) -> continuous_on n g.
Proof.
  intros n f g Hf E x Hn e He. destruct (Hf x Hn e He) as [d [Hd H]]. exists d. split; [exact Hd|]. intros y Hy.
  rewrite !E by (try exact Hn; rewrite (near_len _ _ _ Hy); exact Hn). apply H. exact Hy.
Qed.
Lemma cont_plus : forall n f g, continuous_on n f -> continuous_on n g -> continuous_on n (fun x => f x + g x).
Proof.
  intros n f g Hf Hg x Hn e He. destruct (Hf x Hn (e / 2)) as [d1 [H1 K1]]; [lra|]. destruct (Hg x Hn (e / 2)) as [d2 [H2 K2]]; [lra|].
  exists (Rmin d1 d2). split; [apply Rmin_glb_lt; assumption|]. intros y Hy.
  assert (A : Rabs (f y - f x) < e / 2) by (apply K1; apply (near_mono (Rmin d1 d2)); [apply Rmin_l|exact Hy]).
  assert (B : Rabs (g y - g x) < e / 2) by (apply K2; apply (near_mono (Rmin d1 d2)); [apply Rmin_r|exact Hy]).
  apply Rabs_def2 in A. apply Rabs_def2 in B. apply Rabs_def1; lra.
Qed.
Lemma cont_comp : forall n f g, continuous_on n f -> (forall v, continuity_pt g v) -> continuous_on n (fun x => g (f x)).
Proof.
  intros n f g Hf Hg x Hn e He. destruct (Hg (f x) e He) as [d [Hd K]]. destruct (Hf x Hn d Hd) as [d' [Hd' K']].
  exists d'. split; [exact Hd'|]. intros y Hy. destruct (Req_dec (f x) (f y)) as [E|E]; [rewrite E, Rminus_diag_eq, Rabs_R0 by reflexivity; exact He|].
  apply K. split; [split; [exact I|exact E]|]. apply K'. exact Hy.
Qed.
Lemma cont_opp : forall n f, continuous_on n f -> continuous_on n (fun x => - f x).
Proof.
  intros n f Hf. apply (cont_comp n f Ropp Hf). intros v. apply (continuity_pt_opp id). apply derivable_continuous_pt, derivable_pt_id.
Qed.
Lemma cont_minus : forall n f g, continuous_on n f -> continuous_on n g -> continuous_on n (fun x => f x - g x).
Proof. intros n f g Hf Hg. apply cont_plus; [exact Hf|]. apply cont_opp. exact Hg. Qed.
Lemma cont_scal : forall n c f, continuous_on n f -> continuous_on n (fun x => c * f x).
Proof.
  intros n c f Hf. apply (cont_comp n f (fun v => c * v) Hf). intros v. apply (continuity_pt_scal id). apply derivable_continuous_pt, derivable_pt_id.
Qed.
Lemma cont_sqr : forall n f, continuous_on n f -> continuous_on n (fun x => f x * f x).
Proof.
  intros n f Hf. apply (cont_comp n f (fun v => v * v) Hf). intros v. apply (continuity_pt_mult id id); apply derivable_continuous_pt, derivable_pt_id.
Qed.
Lemma cont_mult : forall n f g, continuous_on n f -> continuous_on n g -> continuous_on n (fun x => f x * g x).
Proof.
  intros n f g Hf Hg. apply (cont_ext n (fun x => / 4 * ((f x + g x) * (f x + g x) - (f x - g x) * (f x - g x)))).
  - apply cont_scal, cont_minus; apply cont_sqr; [apply cont_plus|apply cont_minus]; assumption.
  - intros x _. field.
Qed.
Lemma cont_abs : forall n f, continuous_on n f -> continuous_on n (fun x => Rabs (f x)).
Proof. intros n f Hf. apply (cont_comp n f Rabs Hf). exact Rcontinuity_abs. Qed.
Lemma cont_max : forall n f g, continuous_on n f -> continuous_on n g -> continuous_on n (fun x => Rmax (f x) (g x)).
Proof.
  intros n f g Hf Hg. apply (cont_ext n (fun x => / 2 * (f x + g x + Rabs (f x - g x)))).
  - apply cont_scal, cont_plus; [apply cont_plus; assumption|]. apply cont_abs, cont_minus; assumption.
  - intros x _. unfold Rmax, Rabs. destruct (Rle_dec (f x) (g x)), (Rcase_abs (f x - g x)); lra.
Qed.
Lemma cont_total : forall n {X} (F : X -> list R -> R) l, (forall a, In a l -> continuous_on n (F a)) -> continuous_on n (fun x => total (map (fun a => F a x) l)).
Proof.
  intros n X F l. induction l as [|a l IH]; intros H; [exact (cont_const n 0)|]. cbn [map total]. apply cont_plus; [apply H; left; reflexivity|].
  apply IH. intros b Hb. apply H. right. exact Hb.
Qed.
(** vectors that depend continuously on a vector *)
Definition cont_vec (n m : nat) (F : list R -> list R) : Prop :=
  (forall x, length x = n -> length (F x) = m) /\ forall i, continuous_on n (fun x => nth i (F x) 0).
Lemma total_nth : forall l, total l = total (map (fun i => nth i l 0) (seq 0 (length l))).
Proof.
  induction l as [|a l IH]; [reflexivity|]. cbn [length seq map total nth]. rewrite <- seq_shift, map_map. cbn [nth]. rewrite <- IH. reflexivity.
Qed.
Lemma cont_vec_total : forall n m F, cont_vec n m F -> continuous_on n (fun x => total (F x)).
Proof.
  intros n m F [Hl Hc]. apply (cont_ext n (fun x => total (map (fun i => nth i (F x) 0) (seq 0 m)))).
  - apply (cont_total n (fun i x => nth i (F x) 0)). intros i _. apply Hc.
  - intros x Hx. rewrite total_nth, (Hl x Hx). reflexivity.
Qed.
Lemma nth_map0 : forall (f : R -> R) l i, nth i (map f l) 0 = if (i <? length l)%nat then f (nth i l 0) else 0.
Proof.
  intros f l. induction l as [|a l IH]; intros [|i]; cbn [map nth length]; try reflexivity. rewrite IH. reflexivity.
Qed.
Lemma cont_vec_map : forall n m F f, cont_vec n m F -> (forall v, continuity_pt f v) -> cont_vec n m (fun x => map f (F x)).
Proof.
  intros n m F f [Hl Hc] Hf. split; [intros x Hx; rewrite map_length; auto|]. intros i.
  apply (cont_ext n (fun x => if (i <? m)%nat then f (nth i (F x) 0) else 0)).
  - destruct (i <? m)%nat; [apply (cont_comp n (fun x => nth i (F x) 0) f (Hc i) Hf)|exact (cont_const n 0)].
  - intros x Hx. rewrite nth_map0, (Hl x Hx). reflexivity.
Qed.
Lemma inner_nth : forall a b, inner a b = total (map (fun i => nth i a 0 * nth i b 0) (seq 0 (Nat.min (length a) (length b)))).
Proof.
  induction a as [|x a IH]; intros [|y b]; try reflexivity. cbn [inner length Nat.min seq map total nth]. rewrite <- seq_shift, map_map. cbn [nth]. rewrite <- IH. reflexivity.
Qed.
Lemma cont_vec_inner : forall n m p F G, cont_vec n m F -> cont_vec n p G -> continuous_on n (fun x => inner (F x) (G x)).
Proof.
  intros n m p F G [Hl Hc] [Gl Gc]. apply (cont_ext n (fun x => total (map (fun i => nth i (F x) 0 * nth i (G x) 0) (seq 0 (Nat.min m p))))).
  - apply (cont_total n (fun i x => nth i (F x) 0 * nth i (G x) 0)). intros i _. apply cont_mult; auto.
  - intros x Hx. rewrite inner_nth, (Hl x Hx), (Gl x Hx). reflexivity.
Qed.
Lemma cont_vec_const : forall n c, cont_vec n (length c) (fun _ => c).
Proof. intros n c. split; [reflexivity|]. intros i. apply cont_const. Qed.
Lemma cont_vec_id : forall n, cont_vec n n (fun x => x).
Proof. intros n. split; [auto|]. intros i. apply cont_nth. Qed.
Lemma nth_map_gen : forall {X} (f : X -> R) (d : X) l i, nth i (map f l) 0 = if (i <? length l)%nat then f (nth i l d) else 0.
Proof. intros X f d l. induction l as [|a l IH]; intros [|i]; cbn [map nth length]; try reflexivity. rewrite IH. reflexivity. Qed.
Lemma cont_vec_rows : forall n {X} (f : X -> list R -> R) (d : X) l, (forall a, continuous_on n (f a)) -> cont_vec n (length l) (fun x => map (fun a => f a x) l).
Proof.
  intros n X f d l Hf. split; [intros; apply map_length|]. intros i. apply (cont_ext n (fun x => if (i <? length l)%nat then f (nth i l d) x else 0)).
  - destruct (i <? length l)%nat; [apply Hf|exact (cont_const n 0)].
  - intros x _. rewrite (nth_map_gen _ d). reflexivity.
Qed.
Lemma cont_vec_matvec : forall n m M F, cont_vec n m F -> cont_vec n (length M) (fun x => map (fun row => inner row (F x)) M).
Proof. intros n m M F HF. apply (cont_vec_rows n (fun row x => inner row (F x)) []). intros row. apply (cont_vec_inner n (length row) m); [apply cont_vec_const|exact HF]. Qed.
Lemma cont_vec_qform : forall n m M F, cont_vec n m F -> continuous_on n (fun x => qform M (F x)).
Proof. intros n m M F HF. unfold qform. apply (cont_vec_inner n m (length M)); [exact HF|]. apply (cont_vec_matvec n m). exact HF. Qed.

(** ** closed conditions *)
Lemma closed_le : forall n f g, continuous_on n f -> continuous_on n g -> closed_on n (fun x => f x <= g x).
Proof.
  intros n f g Hf Hg x Hn H. destruct (Rle_or_lt (f x) (g x)) as [|K]; [assumption|exfalso].
  destruct (cont_minus n f g Hf Hg x Hn (f x - g x)) as [d [Hd C]]; [lra|]. destruct (H d Hd) as [y [Hy Hn']]. specialize (C y Hn').
  apply Rabs_def2 in C. lra.
Qed.
Lemma closed_and : forall n (P Q : list R -> Prop), closed_on n P -> closed_on n Q -> closed_on n (fun x => P x /\ Q x).
Proof. intros n P Q HP HQ x Hn H. split; [apply HP|apply HQ]; try exact Hn; intros e He; destruct (H e He) as [y [[? ?] ?]]; exists y; auto. Qed.
Lemma closed_ext : forall n (P Q : list R -> Prop), closed_on n P -> (forall x, length x = n -> (Q x <-> P x)) -> closed_on n Q.
Proof.
  intros n P Q HP E x Hn H. apply E; [exact Hn|]. apply HP; [exact Hn|]. intros e He. destruct (H e He) as [y [Hy Hy']]. exists y. split; [|exact Hy'].
  apply E; [rewrite (near_len _ _ _ Hy'); exact Hn|exact Hy].
Qed.
Lemma closed_eq : forall n f g, continuous_on n f -> continuous_on n g -> closed_on n (fun x => f x = g x).
Proof.
  intros n f g Hf Hg. apply (closed_ext n (fun x => f x <= g x /\ g x <= f x)); [apply closed_and; apply closed_le; assumption|]. intros x _. lra.
Qed.
Lemma closed_true : forall n, closed_on n (fun _ => True).
Proof. intros n x _ _. exact I. Qed.
Lemma closed_all : forall n {X} (l : list X) (P : X -> list R -> Prop), (forall a, In a l -> closed_on n (P a)) -> closed_on n (fun x => Forall (fun a => P a x) l).
Proof.
  intros n X l P H x Hn Hx. apply Forall_forall. intros a Ha. apply (H a Ha x Hn). intros e He. destruct (Hx e He) as [y [Hy Hy']]. exists y. split; [|exact Hy'].
  exact (proj1 (Forall_forall _ _) Hy a Ha).
Qed.
Lemma closed_length : forall n, closed_on n (fun x => length x = n).
Proof. intros n x Hn _. exact Hn. Qed.
