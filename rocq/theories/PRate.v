(** * The rate in portfolio_performance (C107); constraints that max_sharpe does not know (C31) *)
From Coq Require Import List String Bool Reals Lra Lia Arith.
From Verif Require Import Num Py RBase PyLemmas SLin SBase MBase MConvex MEF SConvex SRate Sums PBase PConvex PEF PEF2 PEF3 PEF4 PEF6 PDown5 PExist5.
Import ListNotations.
Local Open Scope R_scope.

Definition rate_kept (o o' : ef) : Prop := e_rf o' = e_rf o /\ e_mu o' = e_mu o /\ e_cov o' = e_cov o.
Lemma rk_refl : forall o, rate_kept o o. Proof. intros. repeat split. Qed.
Lemma rk_trans : forall a b c, rate_kept a b -> rate_kept b c -> rate_kept a c. Proof. unfold rate_kept. intros. intuition congruence. Qed.
Ltac rk_leaf := first [apply pres_modify; intros; repeat split].
Lemma rk_solve : forall sv, pres rate_kept (solve_opt sv).
Proof.
  intros sv. pres_go rk_refl rk_trans ltac:(first [rk_leaf | match goal with |- pres _ (fun w o => (_, o, _)) => intros ? ? ? ? ? H; inversion H; subst; apply rk_refl end]).
Qed.
Lemma rk_transform : forall k cs, pres rate_kept (transform_all k cs).
Proof. induction cs as [|[i c] cs IH]; cbn [transform_all]; pres_go rk_refl rk_trans ltac:(first [exact IH | rk_leaf]). Qed.

Lemma rk_run : forall sv ns pinv c, (forall rf, c <> KMaxSharpe rf) -> pres rate_kept (run sv ns pinv c).
Proof.
  intros sv ns pinv c Hc. destruct c; cbn [run].
  4: { intros w o w' o' r H. destruct (set_weights (e_base o) d) as [b x]. inversion H; subst. repeat split. }
  6: exfalso; eapply Hc; reflexivity.
  all: clear Hc; pres_go rk_refl rk_trans ltac:(first [apply rk_solve | apply rk_transform | rk_leaf]).
Qed.

Lemma rate_sharpe : forall sv rf w o w' o' res, max_sharpe sv rf w o = (w', o', res) ->
  e_mu o' = e_mu o /\ e_cov o' = e_cov o /\ e_rf o' = last_rate (e_mu o) [KMaxSharpe rf] (e_rf o).
Proof.
  intros sv rf w o w' o' res H. cbn [last_rate]. unfold max_sharpe in H.
  destruct rf as [x|z|]; cbn [target_of]; [| |inversion H; subst; repeat split; destruct (e_mu _); reflexivity];
  unfold bind at 1, get in H;
  (destruct (e_mu o) as [m|] eqn:Em; [|inversion H; subst; repeat split; assumption]);
  (destruct (list_max m) as [mx|] eqn:Emx;
   [|inversion H; subst; repeat split; [assumption|]; destruct m; [|discriminate Emx];
     destruct (Exists_dec _ _ _) as [He|]; [inversion He|reflexivity]]);
  match type of H with context [Rleb mx ?r] => destruct (Rleb mx r) eqn:E end.
  1,3: inversion H; subst; repeat split; [assumption|]; apply Rleb_true in E; destruct (Exists_dec _ _ _) as [He|]; [|reflexivity];
    apply Exists_exists in He; destruct He as [a [Ha1 Ha2]]; pose proof (list_max_ge _ _ _ Emx Ha1); lra.
  all: apply Rleb_false in E; unfold bind at 1, modify at 1 in H.
  all: match type of H with ?k _ _ = _ => assert (HP : pres rate_kept k) by (pres_go rk_refl rk_trans ltac:(first [apply rk_solve | apply rk_transform | rk_leaf])) end.
  all: destruct (HP _ _ _ _ _ H) as [H1 [H2 H3]]; cbn [set_rf e_rf e_mu e_cov] in H1, H2, H3; repeat split; [congruence|assumption|]; rewrite H1.
  all: destruct (Exists_dec _ _ _) as [|He]; [reflexivity|]; exfalso; apply He; apply Exists_exists; exists mx; split; [apply list_max_in; exact Emx|exact E].
Qed.

Theorem rate_run_all : forall sv ns pinv cs w o w' o', run_all sv ns pinv cs w o = (w', o') ->
  e_rf o' = last_rate (e_mu o) cs (e_rf o) /\ e_mu o' = e_mu o /\ e_cov o' = e_cov o.
Proof.
  induction cs as [|c cs IH]; intros w o w' o' H; cbn [run_all] in H; [inversion H; subst; repeat split|].
  destruct (run sv ns pinv c w o) as [[w1 o1] r] eqn:E.
  assert (Hs : e_mu o1 = e_mu o /\ e_cov o1 = e_cov o /\ e_rf o1 = last_rate (e_mu o) [c] (e_rf o)).
  { assert (Hd : (exists rf, c = KMaxSharpe rf) \/ forall rf, c <> KMaxSharpe rf) by (destruct c; [right|right|right|right|right|right|left|right|right|right|right|right]; try discriminate; eexists; reflexivity).
    destruct Hd as [[rf ->]|Hd].
    - cbn [run] in E. unfold drop, bind in E. destruct (max_sharpe sv rf w o) as [[w2 o2] [d|e]] eqn:E2; inversion E; subst; eapply rate_sharpe; exact E2.
    - destruct (rk_run sv ns pinv c Hd _ _ _ _ _ E) as [H1 [H2 H3]]. repeat split; try assumption. rewrite H1. cbn [last_rate].
      destruct c; try reflexivity. exfalso; eapply Hd; reflexivity. }
  destruct Hs as [H1 [H2 H3]]. destruct (IH _ _ _ _ H) as [H4 [H5 H6]]. rewrite H4, H5, H6, H3, H1, H2. repeat split.
Qed.

Lemma inner_flip : forall x y, inner x y = inner y x.
Proof. induction x as [|a x IH]; destruct y as [|b y]; cbn; auto. rewrite IH. ring. Qed.

(** performance through any calls *)
Theorem rate_performance : forall m mu c b w0 w1 o sv ns pinv cs w' o' rf x, ef_init (MIn m) (CIn c) b w0 = (w1, Ok o) -> mu_values m = Some mu ->
  run_all sv ns pinv cs w1 o = (w', o') -> e_weights o' = Some x -> List.length x = List.length mu ->
  square (List.length mu) (cov_values c) -> 0 < qform (cov_values c) x ->
  exists p, ef_performance rf o' = Ok p /\
    reported mu (cov_values c) (match last_rate (Some mu) cs None with Some r => r | None => rf end) x p.
Proof.
  intros m mu c b w0 w1 o sv ns pinv cs w' o' rf x Hi Hm Hr Hx Hl Hq Hp.
  destruct (ef_init_inv _ _ _ _ _ _ Hi) as [m' [lb [ub [E0 [_ [_ [_ Eo]]]]]]]. inversion E0; subst m'.
  destruct (rate_run_all _ _ _ _ _ _ _ _ Hr) as [H1 [H2 H3]].
  assert (E1 : e_mu o = Some mu) by (rewrite Eo; exact Hm). assert (E2 : e_cov o = cov_values c) by (rewrite Eo; reflexivity). assert (E3 : e_rf o = None) by (rewrite Eo; reflexivity).
  rewrite E1, E3 in H1. rewrite E1 in H2. rewrite E2 in H3. unfold ef_performance. rewrite H1, H2, H3, Hx.
  destruct (perf_values (MuArray mu) mu (CovArray (cov_values c)) (match last_rate (Some mu) cs None with Some r => r | None => rf end) x) as [r [s [sh [P1 [P2 [P3 [P4 P5]]]]]]];
    [reflexivity|symmetry; exact Hl|rewrite Hl; exact Hq|exact Hp|].
  eexists. split; [exact P1|]. exists r, s, sh. split; [reflexivity|]. split; [rewrite P2; apply inner_flip|]. split; [exact P3|]. split; [exact P4|exact P5].
Qed.

(** *** constraints of other classes *)
Lemma transform_all_other : forall k cs w (o : ef), Exists (fun ic => exists P a, snd ic = COther P a) cs ->
  exists w', transform_all k cs w o = (w', o, Err TypeError).
Proof.
  induction cs as [|[i c] cs IH]; intros w o H; [inversion H|]. cbn [transform_all].
  destruct (transform_con k c) as [c'|e] eqn:E.
  - assert (Hcs : Exists (fun ic => exists P a, snd ic = COther P a) cs).
    { inversion H as [? ? [P [a Hc]]|]; subst; [|assumption]. cbn [snd] in Hc. subst c. discriminate E. }
    unfold bind, lift_res. unfold with_id, bind, new_id, ret.
    destruct (IH (mkWorld (w_sizes w) (w_val w) (w_params w) (S (w_next w))) o Hcs) as [w' E']. rewrite E'. eexists. reflexivity.
  - assert (e = TypeError) as -> by (destruct c as [[]|a b0|P a]; cbn [transform_con] in E; congruence).
    unfold bind, lift_res. eexists. reflexivity.
Qed.
Theorem sharpe_other : forall sv w o m rf r P a, square (e_n o) (e_cov o) -> e_mu o = Some m -> target_of rf = Some r -> Exists (fun x => r < x) m ->
  (exists i, In (i, COther P a) (e_cons o)) ->
  exists w' o', max_sharpe sv rf w o = (w', o', Err TypeError) /\ e_weights o' = e_weights o /\ e_cons o' = e_cons o /\ e_opt o' = e_opt o.
Proof.
  intros sv w o m rf r P a Hq Em Er Hx [i Hi].
  assert (exists mx, list_max m = Some mx /\ r < mx) as [mx [Emx Hlt]].
  { destruct (list_max m) as [mx|] eqn:E; [|destruct m; [inversion Hx|discriminate E]].
    exists mx. split; [reflexivity|]. apply Exists_exists in Hx. destruct Hx as [y [Hy1 Hy2]]. pose proof (list_max_ge _ _ _ E Hy1). lra. }
  assert (Eb : Rleb mx r = false) by (apply Rleb_false; exact Hlt).
  set (k := List.length (w_sizes w)).
  set (w2 := mkWorld (w_sizes w ++ [1%nat]) (w_val w) (w_params w) (S (w_next w))).
  set (o2 := set_obj (Some (w_next w, add_all (EQuad (e_cov o) (EVar (e_w o))) (e_add o))) (set_rf (Some r) o)).
  destruct (transform_all_other k (e_cons o) w2 o2) as [w' E]; [apply Exists_exists; eexists; split; [exact Hi|exists P, a; reflexivity]|].
  exists w', o2. split; [|repeat split].
  unfold max_sharpe. destruct rf as [x|z|]; try discriminate Er; cbn [target_of] in Er; inversion Er; subst r;
    unfold bind at 1, get; rewrite Em, Emx, Eb; unfold bind at 1, modify at 1; unfold bind at 1; rewrite check_cov_run by exact Hq;
    unfold bind at 1, new_var; unfold bind at 1; rewrite set_objective_full_run; cbn [w_sizes w_val w_params w_next e_add set_rf];
    fold k; fold w2; fold o2; unfold bind at 1; rewrite E; reflexivity.
Qed.

(** *** a rate whose max_sharpe failed is used all the same *)
Lemma stale : forall sv ns pinv, exists w1 o w2 o2 w3 o3 p,
  ef_init (MIn (MuArray [1/10; 1/5])) (CIn (CovArray [[1; 0]; [0; 1]])) (BPair (Some 0) (Some 1)) (mkWorld [] (fun _ => None) [] 0) = (w1, Ok o) /\
  run_all sv ns pinv (firstn 2 stale_calls) w1 o = (w2, o2) /\ e_weights o2 = Some [1/2; 1/2] /\
  run sv ns pinv (KMaxSharpe (NFloat (1/100))) w2 o2 = (w3, o3, Err TypeError) /\ e_weights o3 = Some [1/2; 1/2] /\
  ef_performance (1/50) o3 = Ok p /\ reported [1/10; 1/5] [[1; 0]; [0; 1]] (1/100) [1/2; 1/2] p /\
  ~ reported [1/10; 1/5] [[1; 0]; [0; 1]] (1/50) [1/2; 1/2] p.
Proof.
  intros sv ns pinv.
  destruct (ef_init (MIn (MuArray [1/10; 1/5])) (CIn (CovArray [[1; 0]; [0; 1]])) (BPair (Some 0) (Some 1)) (mkWorld [] (fun _ => None) [] 0)) as [w1 [o|e]] eqn:Ei; [|discriminate Ei].
  destruct (run_all sv ns pinv (firstn 2 stale_calls) w1 o) as [w2 o2] eqn:E2.
  assert (H2 : e_weights o2 = Some [1/2; 1/2] /\ e_mu o2 = Some [1/10; 1/5] /\ e_cov o2 = [[1; 0]; [0; 1]] /\ e_n o2 = 2%nat /\
    exists i, In (i, COther (fun _ => True) (EVar (e_w o2))) (e_cons o2)).
  { inversion Ei; subst w1 o. clear Ei. cbn in E2. inversion E2; subst w2 o2. split; [reflexivity|]. split; [reflexivity|]. split; [reflexivity|]. split; [reflexivity|].
    exists 2%nat. cbn. right; right; left. reflexivity. }
  destruct H2 as [Hw [Hm [Hc [Hn [i Hi]]]]].
  destruct (sharpe_other sv w2 o2 [1/10; 1/5] (NFloat (1/100)) (1/100) (fun _ => True) (EVar (e_w o2))) as [w3 [o3 [E3 [Hw3 _]]]];
    [rewrite Hn, Hc; split; repeat constructor|exact Hm|reflexivity|constructor; lra|exists i; exact Hi|].
  assert (Er : run sv ns pinv (KMaxSharpe (NFloat (1/100))) w2 o2 = (w3, o3, Err TypeError)) by (cbn [run]; unfold drop, bind; rewrite E3; reflexivity).
  assert (Hall : run_all sv ns pinv stale_calls w1 o = (w3, o3)).
  { change stale_calls with (firstn 2 stale_calls ++ [KMaxSharpe (NFloat (1/100))]). cbn [firstn stale_calls app run_all] in E2 |- *.
    repeat match goal with |- context [run sv ns pinv ?c ?w ?o] => destruct (run sv ns pinv c w o) as [[? ?] ?] eqn:? end.
    inversion E2; subst. rewrite Er in *. congruence. }
  destruct (rate_performance (MuArray [1/10; 1/5]) [1/10; 1/5] (CovArray [[1; 0]; [0; 1]]) _ _ _ _ sv ns pinv stale_calls w3 o3 (1/50) [1/2; 1/2] Ei) as [p [Hp Hrep]];
    [reflexivity|exact Hall|congruence|reflexivity|split; repeat constructor|cbn; lra|].
  assert (El : last_rate (Some [1/10; 1/5]) stale_calls None = Some (1/100)).
  { cbn [last_rate stale_calls target_of]. destruct (Exists_dec _ _ _) as [|He]; [reflexivity|]. exfalso. apply He. constructor. lra. }
  rewrite El in Hrep. cbn [cov_values] in Hrep.
  exists w1, o, w2, o2, w3, o3, p. split; [reflexivity|]. split; [exact E2|]. split; [exact Hw|]. split; [exact Er|]. split; [congruence|]. split; [exact Hp|]. split; [exact Hrep|].
  intros Hbad. destruct Hrep as [ret [vol [sh [-> [R1 [R2 [R3 R4]]]]]]]. destruct Hbad as [ret' [vol' [sh' [E' [_ [_ [_ R4']]]]]]]. injection E' as E4 E5 E6.
  rewrite <- E4, <- E5, <- E6, R4 in R4'. assert ((ret - 1/100) / vol * vol = (ret - 1/50) / vol * vol) by (rewrite R4'; reflexivity). field_simplify in H; lra.
Qed.
