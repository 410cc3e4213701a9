(** * The sampled CLA frontier runs from the first to the last turning point *)
From Coq Require Import ZArith List String Bool Reals Lra Lia.
From Verif Require Import Num Py MBase MCLA SLin SCLA SFront RBase PyLemmas PBase PCLA1 PCLA2 PCLA3.
Import ListNotations.
Local Open Scope R_scope.

Lemma nonincr_app : forall a b, nonincreasing a -> nonincreasing b -> (forall x y, In x a -> In y b -> y <= x) -> nonincreasing (a ++ b).
Proof.
  intros a b Ha Hb Hab i j x y Hij Hx Hy.
  destruct (Nat.lt_ge_cases j (List.length a)) as [Hj|Hj].
  - rewrite nth_error_app1 in Hx, Hy by lia. apply (Ha i j); assumption.
  - rewrite (nth_error_app2 a b Hj) in Hy. destruct (Nat.lt_ge_cases i (List.length a)) as [Hi|Hi].
    + rewrite nth_error_app1 in Hx by lia. apply Hab; eapply nth_error_In; eassumption.
    + rewrite nth_error_app2 in Hx by lia. apply (Hb (i - List.length a)%nat (j - List.length a)%nat); [lia|assumption|assumption].
Qed.
Definition nondecr (l : list R) : Prop := forall i j x y, (i <= j)%nat -> nth_error l i = Some x -> nth_error l j = Some y -> x <= y.
Lemma grid_nondecr : forall k, nondecr (unit_grid (A:=R) k).
Proof.
  intros [|[|k]] i j x y Hij Hx Hy.
  - destruct i; discriminate.
  - destruct j as [|[|j]]; cbn in Hy; try discriminate. destruct i; [|lia]. cbn in Hx. injection Hx as <-. injection Hy as <-. apply Rle_refl.
  - unfold unit_grid in Hx, Hy. rewrite nth_error_map in Hx, Hy.
    destruct (nth_error (seq 0 (S (S k))) i) as [a|] eqn:Ea; [|discriminate]. destruct (nth_error (seq 0 (S (S k))) j) as [b|] eqn:Eb; [|discriminate].
    assert (La : (i < S (S k))%nat) by (rewrite <- (seq_length (S (S k)) 0); apply nth_error_Some; congruence).
    assert (Lb : (j < S (S k))%nat) by (rewrite <- (seq_length (S (S k)) 0); apply nth_error_Some; congruence).
    rewrite (nth_error_nth' _ 0%nat) in Ea by (rewrite seq_length; assumption). rewrite (nth_error_nth' _ 0%nat) in Eb by (rewrite seq_length; assumption). rewrite seq_nth in Ea by assumption. rewrite seq_nth in Eb by assumption.
    cbn [option_map] in Hx, Hy. injection Hx as <-. injection Hy as <-. injection Ea as <-. injection Eb as <-.
    runfold. cbn [Nat.add]. unfold Rdiv. apply Rmult_le_compat_r.
    + apply Rlt_le, Rinv_0_lt_compat. apply IZR_lt. lia.
    + apply IZR_le. lia.
Qed.
Lemma grid_split : forall k, (2 <= k)%nat -> unit_grid (A:=R) k = removelast (unit_grid (A:=R) k) ++ [1].
Proof.
  intros k Hk. destruct k as [|[|k]]; [lia|lia|]. unfold unit_grid. rewrite seq_S. rewrite map_app. cbn [map]. rewrite removelast_last. do 2 f_equal.
  runfold. replace (0 + S k)%nat with (S (S k) - 1)%nat by lia. field. apply not_0_IZR. lia.
Qed.
Lemma grid_head : forall k, (1 <= k)%nat -> exists l, unit_grid (A:=R) k = 0 :: l.
Proof.
  intros [|[|k]] H; [lia|eexists; reflexivity|]. unfold unit_grid. cbn [seq map]. eexists. f_equal. runfold. unfold Rdiv. cbn [Z.of_nat]. ring.
Qed.
Lemma mix0 : forall p q : list R, List.length p = List.length q -> mix 0 p q = p.
Proof.
  unfold mix. induction p as [|a p IH]; intros [|b q] H; cbn in *; try discriminate; [reflexivity|]. f_equal; [runfold; ring|]. apply IH. lia.
Qed.
Lemma mix1 : forall p q : list R, List.length p = List.length q -> mix 1 p q = q.
Proof.
  unfold mix. induction p as [|a p IH]; intros [|b q] H; cbn in *; try discriminate; [reflexivity|]. f_equal; [runfold; ring|]. apply IH. lia.
Qed.
Lemma inner_mix : forall j p q mean, List.length p = List.length q -> inner (mix j p q) mean = j * inner q mean + (1 - j) * inner p mean.
Proof.
  unfold mix. intros j. induction p as [|a p IH]; intros [|b q] mean H; cbn in *; try discriminate; [ring|]. destruct mean as [|m mean]; cbn; [ring|].
  rewrite IH by lia. runfold. ring.
Qed.
Lemma removelast_In : forall {X} (l : list X) x, In x (removelast l) -> In x l.
Proof. intros X. induction l as [|a l IH]; intros x H; [contradiction|]. destruct l as [|b l]; [contradiction|]. destruct H as [->|H]; [left; reflexivity|right; auto]. Qed.
Lemma removelast_nth : forall {X} (l : list X) i x, nth_error (removelast l) i = Some x -> nth_error l i = Some x.
Proof.
  intros X. induction l as [|a l IH]; intros i x H; [destruct i; discriminate|]. destruct l as [|b l]; [destruct i; discriminate|].
  destruct i as [|i]; [exact H|]. apply (IH i x H).
Qed.
Lemma segment_nonincr : forall p q mean g, List.length p = List.length q -> inner q mean <= inner p mean -> nondecr g ->
  nonincreasing (map (fun w => inner w mean) (map (fun j => mix j p q) g)).
Proof.
  intros p q mean g L H Hg i j x y Hij Hx Hy. rewrite map_map, nth_error_map in Hx, Hy.
  destruct (nth_error g i) as [a|] eqn:Ea; [|discriminate]. destruct (nth_error g j) as [b|] eqn:Eb; [|discriminate]. cbn [option_map] in Hx, Hy.
  injection Hx as <-. injection Hy as <-. rewrite !inner_mix by exact L. pose proof (Hg _ _ _ _ Hij Ea Eb). nra.
Qed.
Lemma descending_cons : forall mean p q l, descending mean (p :: q :: l) -> inner (t_w q) mean <= inner (t_w p) mean /\ descending mean (q :: l).
Proof.
  intros mean p q l H. split; [apply (H 0%nat 1%nat); [lia|reflexivity|reflexivity]|].
  intros i j a b Hij Ha Hb. apply (H (S i) (S j)); [lia|exact Ha|exact Hb].
Qed.
Lemma frontier_nonincr : forall k n mean pts, Forall (fun p => List.length (t_w p) = n) pts -> descending mean pts ->
  nonincreasing (map (fun w => inner w mean) (frontier_weights k pts)) /\
  forall p pts', pts = p :: pts' -> forall w, In w (frontier_weights k pts) -> inner w mean <= inner (t_w p) mean.
Proof.
  intros k n mean. induction pts as [|p pts IH]; intros HF HD.
  - split; [|discriminate]. intros i j x y _ Hx. destruct i; discriminate.
  - destruct pts as [|q rest].
    + split; [|intros p' pts' E w []]. intros i j x y _ Hx. destruct i; discriminate.
    + inversion HF as [|? ? Hp HF']; subst. inversion HF' as [|? ? Hq HF'']; subst. destruct (descending_cons _ _ _ _ HD) as [H1 HD'].
      destruct (IH HF' HD') as [I1 I2]. rewrite frontier_cons.
      set (a := match rest with [] => unit_grid k | _ => removelast (unit_grid k) end).
      assert (Sub : forall j, In j a -> 0 <= j <= 1).
      { intros j Hj. destruct (unit_grid_spec k) as [_ G]. rewrite Forall_forall in G. apply G. unfold a in Hj. destruct rest; [exact Hj|]. apply removelast_In, Hj. }
      assert (Na : nondecr a).
      { intros i j x y Hij Hx Hy. unfold a in Hx, Hy. destruct rest; [apply (grid_nondecr k i j); assumption|].
        apply (grid_nondecr k i j); [exact Hij|apply removelast_nth, Hx|apply removelast_nth, Hy]. }
      split.
      * rewrite map_app. apply nonincr_app; [apply segment_nonincr; [congruence|exact H1|exact Na]|exact I1|].
        intros x y Hx Hy. apply in_map_iff in Hx. destruct Hx as (w & <- & Hw). apply in_map_iff in Hw. destruct Hw as (j & <- & Hj).
        apply in_map_iff in Hy. destruct Hy as (v & <- & Hv). specialize (I2 q rest eq_refl v Hv). rewrite inner_mix by congruence. pose proof (Sub j Hj). nra.
      * intros p' pts' E w Hw. injection E as <- <-. apply in_app_iff in Hw. destruct Hw as [Hw|Hw].
        -- apply in_map_iff in Hw. destruct Hw as (j & <- & Hj). rewrite inner_mix by congruence. pose proof (Sub j Hj). nra.
        -- specialize (I2 q rest eq_refl w Hw). lra.
Qed.
Lemma frontier_ends : forall k n p q rest, (2 <= k)%nat -> Forall (fun p => List.length (t_w p) = n) (p :: q :: rest) ->
  (exists l, frontier_weights k (p :: q :: rest) = t_w p :: l) /\
  (exists l, frontier_weights k (p :: q :: rest) = l ++ [t_w (last (q :: rest) p)]).
Proof.
  intros k n p q rest Hk. revert p q. induction rest as [|r rest IH]; intros p q HF; inversion HF as [|? ? Hp HF']; subst; inversion HF' as [|? ? Hq HF'']; subst; rewrite frontier_cons.
  - change (frontier_weights k [q]) with (@nil (list R)). rewrite app_nil_r. split.
    + destruct (grid_head k ltac:(lia)) as [l ->]. cbn [map]. rewrite mix0 by congruence. eauto.
    + rewrite (grid_split k Hk), map_app. cbn [map]. rewrite mix1 by congruence. cbn [last]. eauto.
  - split.
    + destruct (grid_head k ltac:(lia)) as [l E]. destruct l as [|x l].
      * exfalso. pose proof (proj1 (unit_grid_spec k)) as L. rewrite E in L. cbn in L. lia.
      * rewrite E. cbn [removelast map app]. rewrite mix0 by congruence. eauto.
    + destruct (IH q r HF') as [_ [l E]]. rewrite E. rewrite app_assoc. eexists. f_equal.
      change (last (q :: r :: rest) p) with (last (r :: rest) p). f_equal. f_equal. clear. revert r. induction rest as [|x rest IH]; intros r; [reflexivity|]. apply IH.
Qed.

Theorem frontier_order : forall fuel inv ord points (o o1 o' : cla R) mu sg ws n, ensure fuel inv ord o = (o1, Ok tt) ->
  Forall (fun p => List.length (t_w p) = n) (c_tp o1) -> descending (c_mean o1) (c_tp o1) ->
  cla_frontier fuel inv ord points o = (o', Ok (mu, sg, ws)) -> nonincreasing mu.
Proof.
  intros fuel inv ord points o o1 o' mu sg ws n Ee HF HD E. destruct (frontier_run _ _ _ _ _ _ _ _ _ _ Ee E) as (_ & _ & -> & _ & _ & -> & _).
  apply (proj1 (frontier_nonincr _ n _ _ HF HD)).
Qed.
Theorem frontier_first_last : forall fuel inv ord points (o o1 o' : cla R) mu sg ws n p pts, ensure fuel inv ord o = (o1, Ok tt) ->
  Forall (fun p => List.length (t_w p) = n) (c_tp o1) -> c_tp o1 = p :: pts -> pts <> [] -> (2 * List.length (c_tp o1) <= points)%nat ->
  cla_frontier fuel inv ord points o = (o', Ok (mu, sg, ws)) ->
  hd_error ws = Some (t_w p) /\ exists l, ws = l ++ [t_w (last pts p)].
Proof.
  intros fuel inv ord points o o1 o' mu sg ws n p pts Ee HF Et Hn Hk E. destruct (frontier_run _ _ _ _ _ _ _ _ _ _ Ee E) as (_ & _ & -> & _ & _ & -> & _).
  destruct pts as [|q rest]; [congruence|].
  assert (Hd : (2 <= points / List.length (c_tp o1))%nat).
  { apply Nat.div_le_lower_bound; [rewrite Et; discriminate|]. rewrite Nat.mul_comm. exact Hk. }
  rewrite Et in HF. destruct (frontier_ends _ n p q rest Hd HF) as [[l1 E1] E2]. rewrite <- Et in E1, E2. rewrite E1 at 1. split; [reflexivity|]. exact E2.
Qed.
