(** * The Sharpe ratio (C30) *)
From Coq Require Import ZArith List String Bool Reals Lra Lia.
From Verif Require Import Num Py RBase PyLemmas MBase MConvex MEF SLin SBase SConvex Sums Mat PBase PConvex PEF PEF2.
Import ListNotations.
Local Open Scope R_scope.

Lemma eval_agree : forall s s' ps e, (forall v, In v (evars e) -> s v = s' v) -> eval s ps e = eval s' ps e.
Proof.
  induction e; intros H; cbn [eval evars] in *; try reflexivity;
    try (rewrite IHe by exact H; reflexivity);
    try (rewrite IHe1, IHe2 by (intros; apply H; apply in_or_app; auto); reflexivity).
  apply H. left; reflexivity.
Qed.
Lemma sat_agree : forall s s' ps c, (forall v, In v (cvars c) -> s v = s' v) -> (sat s ps c <-> sat s' ps c).
Proof.
  intros s s' ps c H. destruct c; cbn [sat cvars] in *.
  - rewrite (eval_agree s s' ps a), (eval_agree s s' ps b) by (intros; apply H; apply in_or_app; auto). reflexivity.
  - rewrite (eval_agree s s' ps a), (eval_agree s s' ps b) by (intros; apply H; apply in_or_app; auto). reflexivity.
  - rewrite (eval_agree s s' ps a) by exact H. reflexivity.
Qed.

Lemma bop_minus_scale : forall k a b, bop Rminus (vscale k a) (vscale k b) = vscale k (bop Rminus a b).
Proof.
  intros k a b. unfold vscale.
  assert (H2 : forall a b, map2 Rminus (map (fun x => k * x) a) (map (fun x => k * x) b) = map (fun x => k * x) (map2 Rminus a b)).
  { clear. induction a as [|x a IH]; destruct b as [|y b]; cbn; try reflexivity. rewrite IH. f_equal. ring. }
  unfold bop. destruct a as [|x [|x' a]]; destruct b as [|y [|y' b]]; cbn [map]; try reflexivity.
  - f_equal. ring.
  - rewrite !map_map. f_equal; [ring|]. f_equal; [ring|]. apply map_ext. intros; ring.
  - rewrite !map_map. f_equal; [ring|]. f_equal; [ring|]. apply map_ext. intros; ring.
  - apply (H2 (x :: x' :: a) (y :: y' :: b)).
Qed.
Lemma bop_mult_const : forall c k, bop Rmult c [k] = vscale k c.
Proof.
  intros c k. unfold bop, vscale. destruct c as [|x [|y c]]; cbn [map]; [reflexivity|f_equal; ring|].
  f_equal; [ring|]. f_equal; [ring|]. apply map_ext. intros; ring.
Qed.
Lemma Forall_vscale_le : forall k l, 0 < k -> (Forall (fun d => d <= 0) (vscale k l) <-> Forall (fun d => d <= 0) l).
Proof.
  intros k l Hk. unfold vscale. rewrite Forall_map. split; intros H; eapply Forall_impl; try exact H; cbn; intros; nra.
Qed.
Lemma Forall_vscale_eq : forall k l, 0 < k -> (Forall (fun d => d = 0) (vscale k l) <-> Forall (fun d => d = 0) l).
Proof.
  intros k l Hk. unfold vscale. rewrite Forall_map. split; intros H; eapply Forall_impl; try exact H; cbn; intros; nra.
Qed.

(** a transformed constraint holds for the scaled point iff the original holds *)
Lemma transform_sat : forall k v c c' s ps t, constant_on_one_side v c -> transform_con k c = Ok c' ->
  0 < t -> s k = [t] -> k <> v -> ~ In k (cvars c) ->
  (sat (scaled v t s) ps c' <-> sat s ps c).
Proof.
  intros k v c c' s ps t Hc Ht Hpos Hk Hkv Hin.
  assert (Hsk : scaled v t s k = [t]).
  { unfold scaled. assert (E : Nat.eqb k v = false) by (apply Nat.eqb_neq; exact Hkv). rewrite E. exact Hk. }
  destruct c as [a b|a b|P a]; cbn [constant_on_one_side] in Hc; [| |contradiction].
  - assert (Hcase : (exists c0, a = EConst c0 /\ homogeneous v b /\ c' = CIneq (EMul (EConst c0) (EVar k)) b) \/
                    (exists c0, b = EConst c0 /\ homogeneous v a /\ c' = CIneq a (EMul (EConst c0) (EVar k)))).
    { destruct a; try (destruct b; try contradiction; right; eexists; split; [reflexivity|]; split; [exact Hc|];
        cbn [transform_con] in Ht; inversion Ht; reflexivity).
      left. eexists. split; [reflexivity|]. split; [exact Hc|]. cbn [transform_con] in Ht. inversion Ht; reflexivity. }
    destruct Hcase as [[c0 [-> [Hh ->]]]|[c0 [-> [Hh ->]]]]; cbn [sat eval]; rewrite Hsk, bop_mult_const, (Hh t s ps Hpos).
    + fold (vscale t (eval s ps b)). rewrite bop_minus_scale. apply Forall_vscale_le. exact Hpos.
    + fold (vscale t (eval s ps a)). rewrite bop_minus_scale. apply Forall_vscale_le. exact Hpos.
  - destruct b as [| |c0| | | | | | | | | | |]; try contradiction. cbn [transform_con] in Ht. inversion Ht; subst c'.
    cbn [sat eval]. rewrite Hsk, bop_mult_const, (Hc t s ps Hpos). fold (vscale t (eval s ps a)).
    rewrite bop_minus_scale. apply Forall_vscale_eq. exact Hpos.
Qed.

Definition transformable (k : nat) (c : con) : Prop := exists c', transform_con k c = Ok c'.
Lemma one_side_transformable : forall k v c, constant_on_one_side v c -> transformable k c.
Proof.
  intros k v c Hc. destruct c as [a b|a b|P a]; cbn [constant_on_one_side] in Hc; [|eexists; reflexivity|contradiction].
  destruct a; eexists; reflexivity.
Qed.
Lemma transform_all_run : forall k cs w (o : ef), Forall (fun ic => transformable k (snd ic)) cs ->
  exists w' X, transform_all k cs w o = (w', o, Ok X) /\ w_sizes w' = w_sizes w /\ w_params w' = w_params w /\
    Forall2 (fun ic ic' => transform_con k (snd ic) = Ok (snd ic')) cs X.
Proof.
  induction cs as [|[i c] cs IH]; intros w o H; cbn [transform_all].
  - exists w, []. repeat split; constructor.
  - inversion H as [|? ? Hc Hcs]; subst. cbn [snd] in Hc.
    destruct Hc as [c' Ec]. unfold bind, lift_res. rewrite Ec. unfold with_id, bind, new_id, ret.
    destruct (IH (mkWorld (w_sizes w) (w_val w) (w_params w) (S (w_next w))) o Hcs) as [w' [X [E [E1 [E2 E3]]]]].
    rewrite E. exists w', ((w_next w, c') :: X). split; [reflexivity|]. split; [exact E1|]. split; [exact E2|].
    constructor; [exact Ec|exact E3].
Qed.

(** the bound constraints are of the required form *)
Lemma hom_index : forall v ix, homogeneous v (EIndex ix (EVar v)).
Proof.
  intros v ix t s ps Ht. cbn [eval]. unfold scaled. rewrite Nat.eqb_refl, map_map. apply map_ext. intros i.
  fold (vscale t (s v)). rewrite vscale_nth. reflexivity.
Qed.
Lemma lower_one_side : forall lb v, constant_on_one_side v (lower_con lb v).
Proof. intros. apply hom_index. Qed.
Lemma upper_one_side : forall ub v, constant_on_one_side v (upper_con ub v).
Proof. intros. apply hom_index. Qed.

Lemma scaled_inv : forall v t s i, t <> 0 -> scaled v t (scaled v (/ t) s) i = s i.
Proof.
  intros v t s i Ht. unfold scaled. destruct (Nat.eqb i v); [|reflexivity].
  rewrite map_map. rewrite <- (map_id (s i)) at 2. apply map_ext. intros. field. exact Ht.
Qed.

Lemma inner_minus_const : forall m r x, List.length m = List.length x ->
  inner (map (fun a => a - r) m) x = inner m x - r * total x.
Proof.
  induction m as [|a m IH]; destruct x as [|b x]; intros H; try discriminate; cbn; [lra|].
  injection H as H. rewrite IH by exact H. ring.
Qed.

(** unfolding of a call up to the solver *)
Lemma max_sharpe_run : forall sv w o u m rf r mx, open_ef w o u -> e_mu o = Some m ->
  target_of rf = Some r -> list_max m = Some mx -> r < mx ->
  Forall (fun ic => transformable (List.length (w_sizes w)) (snd ic)) u ->
  let k := List.length (w_sizes w) in
  exists w1 o1 i X l1 l2 l3 l4 l5, max_sharpe sv rf w o =
    bind (solve_opt sv) (fun s =>
      let kv := scalar (fst s k) in
      if Reqb kv 0 then raise FloatSpecial else
      bind (modify (fun o => put_weights (map (fun x => round16 (x / kv)) (fst s (e_w o))) o)) (fun _ => output)) w1 o1 /\
    w_sizes w1 = w_sizes w ++ [1%nat] /\ par_values w1 = par_values w /\ e_opt o1 = None /\ e_w o1 = e_w o /\
    b_tickers (e_base o1) = b_tickers (e_base o) /\ e_weights o1 = e_weights o /\
    e_obj o1 = Some (i, add_all (EQuad (e_cov o) (EVar (e_w o))) (e_add o)) /\
    e_cons o1 = (l1, CEq (EDot (map (fun x => x - r) m) (EVar (e_w o))) (EScalar 1)) ::
                (l2, CEq (ESum (EVar (e_w o))) (EVar k)) :: (l3, CIneq (EScalar 0) (EVar k)) ::
                (l4, CIneq (EMul (EConst (finite_vals (e_lb o))) (EVar k)) (EIndex (finite_ix (e_lb o)) (EVar (e_w o)))) ::
                (l5, CIneq (EIndex (finite_ix (e_ub o)) (EVar (e_w o))) (EMul (EConst (finite_vals (e_ub o))) (EVar k))) :: X /\
    Forall2 (fun ic ic' => transform_con k (snd ic) = Ok (snd ic')) u X.
Proof.
  intros sv w o u m rf r mx [Ho [[i [j Hc]] [Hl [Hu [Hn [Hq [Hm [Ha [Has Hus]]]]]]]]] Em Er Emx Hlt Hone k.
  set (w2 := mkWorld (w_sizes w ++ [1%nat]) (w_val w) (w_params w) (S (w_next w))).
  set (o2 := set_obj (Some (w_next w, add_all (EQuad (e_cov o) (EVar (e_w o))) (e_add o))) (set_rf (Some r) o)).
  assert (Hall : Forall (fun ic => transformable k (snd ic)) (e_cons o)).
  { rewrite Hc. constructor; [eexists; reflexivity|]. constructor; [eexists; reflexivity|]. exact Hone. }
  destruct (transform_all_run k (e_cons o) w2 o2 Hall) as [w3 [X0 [E [E1 [E2 E3]]]]].
  rewrite Hc in E3. inversion E3 as [|? [l4 c4] ? X1 T4 E4]; subst. inversion E4 as [|? [l5 c5] ? X T5 E5]; subst.
  clear E3 E4. cbn [snd transform_con lower_con upper_con] in T4, T5. inversion T4; subst c4. inversion T5; subst c5. clear T4 T5.
  assert (Eb : Rleb mx r = false) by (apply Rleb_false; exact Hlt).
  assert (Hrun : max_sharpe sv rf w o =
    (modify (set_rf (Some r)) ;; check_cov ;; k <- new_var 1 ;;
     set_objective_full (EQuad (e_cov o) (EVar (e_w o))) ;;
     new <- transform_all k (e_cons o) ;; need_mu ;;
     c1 <- with_id (CEq (EDot (map (fun x => x - r) m) (EVar (e_w o))) (EScalar 1)) ;;
     c2 <- with_id (CEq (ESum (EVar (e_w o))) (EVar k)) ;;
     c3 <- with_id (CIneq (EScalar 0) (EVar k)) ;;
     modify (set_cons (c1 :: c2 :: c3 :: new)) ;;
     s <- solve_opt sv ;;
     let kv := scalar (fst s k) in
     if Reqb kv 0 then raise FloatSpecial else
     modify (fun o => put_weights (map (fun x => round16 (x / kv)) (fst s (e_w o))) o) ;;
     output)%m w o).
  { unfold max_sharpe. destruct rf as [x|z|]; try discriminate Er; cbn [target_of] in Er; inversion Er; subst r;
      unfold bind at 1, get; rewrite Em, Emx, Eb; reflexivity. }
  rewrite Hrun. clear Hrun. unfold bind at 1, modify at 1. unfold bind at 1. rewrite check_cov_run by exact Hq.
  unfold bind at 1, new_var. unfold bind at 1. rewrite set_objective_full_run. cbn [w_sizes w_val w_params w_next e_add set_rf].
  fold k. fold w2. fold o2. unfold bind at 1. rewrite E.
  unfold bind at 1. rewrite (need_mu_run w3 o2 m Em) by (apply Hm; exact Em).
  unfold bind at 1, with_id at 1, bind at 1, new_id at 1, ret at 1.
  unfold bind at 1, with_id at 1, bind at 1, new_id at 1, ret at 1.
  unfold bind at 1, with_id at 1, bind at 1, new_id at 1, ret at 1.
  unfold bind at 1, modify at 1.
  eexists _, _, (w_next w), X, _, _, _, _, _. split; [reflexivity|]. cbn [w_sizes e_opt set_cons e_w e_base e_obj e_cons].
  split; [exact E1|]. split; [unfold par_values; cbn [w_params]; rewrite E2; reflexivity|].
  split; [exact Ho|]. split; [reflexivity|]. split; [reflexivity|]. split; [reflexivity|]. split; [reflexivity|]. split; [reflexivity|exact E5].
Qed.

(** what the constraints built by [max_sharpe] say *)
Lemma sharpe_cons_iff : forall w o u m r (l1 l2 l3 l4 l5 : nat) (X : list (nat * con)) s t,
  let k := List.length (w_sizes w) in let v := e_w o in
  List.length (e_lb o) = e_n o -> List.length (e_ub o) = e_n o -> nth_error (w_sizes w) v = Some (e_n o) ->
  List.length m = e_n o ->
  Forall (fun ic => constant_on_one_side v (snd ic)) u -> Forall (fun ic => known_vars k (snd ic)) u ->
  Forall2 (fun ic ic' => transform_con k (snd ic) = Ok (snd ic')) u X ->
  well_sized (w_sizes w ++ [1%nat]) s -> s k = [t] -> 0 < t ->
  (Forall (sat s (par_values w)) (map snd (
     (l1, CEq (EDot (map (fun x => x - r) m) (EVar v)) (EScalar 1)) ::
     (l2, CEq (ESum (EVar v)) (EVar k)) :: (l3, CIneq (EScalar 0) (EVar k)) ::
     (l4, CIneq (EMul (EConst (finite_vals (e_lb o))) (EVar k)) (EIndex (finite_ix (e_lb o)) (EVar v))) ::
     (l5, CIneq (EIndex (finite_ix (e_ub o)) (EVar v)) (EMul (EConst (finite_vals (e_ub o))) (EVar k))) :: X)) <->
   admissible w o u (e_lb o) (e_ub o) 1 (scaled v (/ t) s) /\ excess m r (scaled v (/ t) s v) * t = 1).
Proof.
  intros w o u m r l1 l2 l3 l4 l5 X s t k v Hl Hu Hn Hm Hone Hkn HX Hs Hk Ht.
  assert (Hv : (v < k)%nat) by (apply nth_error_Some; rewrite Hn; discriminate).
  assert (Hkv : k <> v) by lia.
  assert (Hws : well_sized (w_sizes w) (scaled v (/ t) s)).
  { intros i Hi. pose proof (Hs i ltac:(rewrite app_length; lia)) as H. rewrite app_nth1 in H by exact Hi.
    unfold scaled. destruct (Nat.eqb i v); [rewrite map_length|]; exact H. }
  set (x := scaled v (/ t) s) in *.
  assert (Hxv : x v = vscale (/ t) (s v)) by (unfold x, scaled; rewrite Nat.eqb_refl; reflexivity).
  assert (Hyv : s v = vscale t (x v)).
  { rewrite Hxv. unfold vscale. rewrite map_map. rewrite <- (map_id (s v)) at 1. apply map_ext. intros. field. lra. }
  assert (Hxk : x k = [t]).
  { unfold x, scaled. assert (E : Nat.eqb k v = false) by (apply Nat.eqb_neq; exact Hkv). rewrite E. exact Hk. }
  assert (Hxlen : List.length (x v) = e_n o) by (apply (well_sized_w w o x Hws Hn)).
  assert (Hback : forall c c', constant_on_one_side v c -> transform_con k c = Ok c' -> ~ In k (cvars c) ->
     (sat s (par_values w) c' <-> sat x (par_values w) c)).
  { intros c c' Hc E Hin. rewrite <- (transform_sat k v c c' x (par_values w) t Hc E Ht Hxk Hkv Hin).
    apply sat_agree. intros i _. symmetry. apply scaled_inv. lra. }
  cbn [map snd]. rewrite !Forall_cons_iff'.
  rewrite (Hback (lower_con (e_lb o) v) _ (lower_one_side _ _) eq_refl) by (cbn; intros [H|[]]; lia).
  rewrite (Hback (upper_con (e_ub o) v) _ (upper_one_side _ _) eq_refl) by (cbn; intros [H|[]]; lia).
  assert (HXu : Forall (sat s (par_values w)) (map snd X) <-> Forall (fun ic => sat x (par_values w) (snd ic)) u).
  { clear - HX Hback Hone Hkn. induction HX as [|[i c] [i' c'] u X E _ IH]; cbn [map snd]; [split; constructor|].
    inversion Hone; subst. inversion Hkn; subst. rewrite !Forall_cons_iff', IH by assumption. cbn [snd] in *.
    rewrite (Hback c c') ; [reflexivity|assumption|exact E|].
    intros Hin. unfold known_vars in *. rewrite Forall_forall in H3. specialize (H3 _ Hin). lia. }
  rewrite HXu. clear HXu.
  rewrite (sat_eq1 s (par_values w) (EDot _ _) (EScalar 1) (inner (map (fun y => y - r) m) (s v)) 1);
    [|cbn [eval]; rewrite dot_inner; reflexivity|reflexivity].
  rewrite (sat_eq1 s (par_values w) (ESum _) (EVar k) (total (s v)) t);
    [|cbn [eval]; rewrite vsum_total; reflexivity|exact Hk].
  rewrite (sat_ineq1 s (par_values w) (EScalar 0) (EVar k) 0 t); [|reflexivity|exact Hk].
  rewrite (admissible_iff w o u (e_lb o) (e_ub o) 1 x Hl Hu Hn Hws). fold v. rewrite sum_is_sat.
  rewrite inner_minus_const by (rewrite Hyv, vscale_length; congruence).
  rewrite Hyv, total_scale, inner_scale_r. unfold excess.
  assert (Ha : t * total (x v) = t <-> total (x v) = 1) by (split; intros; nra).
  rewrite Ha. assert (H0 : 0 <= t) by lra.
  split.
  - intros [H1 [H2 [_ [H4 [H5 H6]]]]]. rewrite H2 in H1. split; [tauto|]. nra.
  - intros [[H4 [H5 [H2 H6]]] H1]. rewrite H2. split; [nra|]. tauto.
Qed.

Lemma scaled_length : forall v t s i, List.length (scaled v t s i) = List.length (s i).
Proof. intros. unfold scaled. destruct (Nat.eqb i v); [apply map_length|reflexivity]. Qed.

(** C30 *)
Lemma max_sharpe_best : forall sv w o u rf w' o' d, exact_solver sv -> open_ef w o u -> e_add o = [] ->
  psd (e_n o) (e_cov o) ->
  Forall (fun ic => constant_on_one_side (e_w o) (snd ic)) u ->
  Forall (fun ic => known_vars (List.length (w_sizes w)) (snd ic)) u ->
  max_sharpe sv rf w o = (w', o', Ok d) ->
  exists m r, e_mu o = Some m /\ target_of rf = Some r /\
  exists s rr, e_weights o' = Some rr /\ Forall2 (rounded 16) (s (e_w o)) rr /\
    d = dict_of_pairs (combine (b_tickers (e_base o)) rr) /\
    admissible w o u (e_lb o) (e_ub o) 1 s /\
    0 < excess m r (s (e_w o)) /\
    forall s', admissible w o u (e_lb o) (e_ub o) 1 s' ->
      excess m r (s' (e_w o)) * sqrt (qform (e_cov o) (s (e_w o)))
      <= excess m r (s (e_w o)) * sqrt (qform (e_cov o) (s' (e_w o))).
Proof.
  intros sv w o u rf w' o' d Hsv Hop Hadd Hpsd Hone Hkn H.
  pose proof Hop as [Ho [[i0 [j0 Hc]] [Hl [Hu [Hn [Hq [Hm [Ha [Has Hus]]]]]]]]].
  assert (exists m r mx, e_mu o = Some m /\ target_of rf = Some r /\ list_max m = Some mx /\ r < mx) as [m [r [mx [Em [Er [Emx Hlt]]]]]].
  { unfold max_sharpe in H. destruct rf as [x|z|]; [| |discriminate H]; unfold bind at 1, get in H;
      destruct (e_mu o) as [m|]; try discriminate H; destruct (list_max m) as [mx|] eqn:Emx; try discriminate H.
    - exists m, x, mx. destruct (Rleb mx x) eqn:E; [discriminate H|]. apply Rleb_false in E. auto.
    - exists m, (IZR z), mx. destruct (Rleb mx (IZR z)) eqn:E; [discriminate H|]. apply Rleb_false in E. auto. }
  exists m, r. split; [exact Em|]. split; [exact Er|].
  assert (Htr : Forall (fun ic => transformable (List.length (w_sizes w)) (snd ic)) u).
  { eapply Forall_impl; [|exact Hone]. intros ic Hic. eapply one_side_transformable. exact Hic. }
  destruct (max_sharpe_run sv w o u m rf r mx Hop Em Er Emx Hlt Htr)
    as [w1 [o1 [i [X [l1 [l2 [l3 [l4 [l5 [E [S1 [S2 [S3 [S4 [S5 [S6 [S7 [S8 S9]]]]]]]]]]]]]]]]]].
  set (k := List.length (w_sizes w)) in *. set (v := e_w o) in *.
  rewrite E in H. clear E. unfold bind at 1 in H.
  destruct (solve_opt sv w1 o1) as [[w2 o2] [[s val]|x]] eqn:Es; [|discriminate H].
  apply (solve_open sv w1 o1 i _ w2 o2 _ S3 S7) in Es. destruct Es as [_ Es].
  rewrite Hadd in Es, S7. unfold add_all in Es, S7. cbn [fold_left] in Es, S7.
  destruct (sv (w_sizes w1) (par_values w1) (EQuad (e_cov o) (EVar v)) (map snd (e_cons o1))) as [s0 v0|upd|x0] eqn:Esv;
    [|destruct Es as [? [Es _]]; discriminate Es|destruct Es as [? [Es _]]; discriminate Es].
  destruct Es as [Es Eo2]. inversion Es; subst s0 v0. clear Es.
  destruct (Hsv _ _ _ _ _ _ Esv) as [[[Hfs Hfc] Hbest] _].
  rewrite S1, S2, S8 in *. fold v in Hbest, Hfc.
  cbn [fst] in H. cbv zeta in H.
  pose proof (Hfs k ltac:(rewrite app_length; unfold k; cbn; lia)) as Hk1.
  rewrite app_nth2 in Hk1 by (unfold k; lia). replace (k - List.length (w_sizes w))%nat with 0%nat in Hk1 by (unfold k; lia).
  cbn [nth] in Hk1. destruct (s k) as [|t [|]] eqn:Hk; try discriminate Hk1. clear Hk1. cbn [scalar hd] in H.
  destruct (Reqb t 0) eqn:Et; [discriminate H|]. apply Reqb_false in Et.
  assert (Ht : 0 < t).
  { cbn [map snd] in Hfc. rewrite !Forall_cons_iff' in Hfc. destruct Hfc as [_ [_ [H3 _]]].
    rewrite (sat_ineq1 s (par_values w) (EScalar 0) (EVar k) 0 t) in H3; [lra|reflexivity|exact Hk]. }
  pose proof (Hm m Em) as Hml.
  apply (sharpe_cons_iff w o u m r l1 l2 l3 l4 l5 X s t Hl Hu Hn Hml Hone Hkn S9 Hfs Hk Ht) in Hfc.
  fold v in Hfc. set (x := scaled v (/ t) s) in *. destruct Hfc as [Hadm Hex].
  assert (Hpos : 0 < excess m r (x v)) by nra.
  unfold bind, modify, output, get, lift_res in H. subst o2. cbn [e_base put_weights set_base set_opt b_weights make_output_weights] in H.
  exists x, (map (fun a => round16 (a / t)) (s v)).
  assert (Hxv : x v = map (fun a => a / t) (s v)).
  { unfold x, scaled. rewrite Nat.eqb_refl. apply map_ext. intros. unfold Rdiv. ring. }
  inversion H; subst w' o' d. clear H. rewrite S4. 
  split; [reflexivity|]. split.
  { rewrite Hxv. rewrite <- (map_map (fun a => a / t) round16). apply round16_rounded. }
  split; [cbn [b_tickers]; rewrite S5; reflexivity|]. split; [exact Hadm|]. split; [exact Hpos|].
  intros s' Hadm'. set (e' := excess m r (s' v)).
  pose proof (sqrt_pos (qform (e_cov o) (x v))) as Hq1. pose proof (sqrt_pos (qform (e_cov o) (s' v))) as Hq2.
  destruct (Rle_dec e' 0) as [Hneg|Hpos']; [nra|]. apply Rnot_le_lt in Hpos'.
  set (t' := / e'). assert (Ht' : 0 < t') by (apply Rinv_0_lt_compat; exact Hpos').
  set (s1 := fun i => if Nat.eqb i k then [t'] else s' i).
  set (s2 := scaled v t' s1).
  assert (Hv : (v < k)%nat) by (apply nth_error_Some; rewrite Hn; discriminate).
  assert (Evk : Nat.eqb v k = false) by (apply Nat.eqb_neq; lia).
  assert (Ekv : Nat.eqb k v = false) by (apply Nat.eqb_neq; lia).
  assert (H2k : s2 k = [t']) by (unfold s2, scaled, s1; rewrite Ekv, Nat.eqb_refl; reflexivity).
  assert (H2v : s2 v = vscale t' (s' v)) by (unfold s2, scaled, s1; rewrite Nat.eqb_refl, Evk; reflexivity).
  assert (Hw2 : well_sized (w_sizes w ++ [1%nat]) s2).
  { intros j Hj. unfold s2. rewrite scaled_length. unfold s1. destruct (Nat.eqb j k) eqn:Ejk.
    - apply Nat.eqb_eq in Ejk. subst j. rewrite app_nth2 by (unfold k; lia).
      replace (k - List.length (w_sizes w))%nat with 0%nat by (unfold k; lia). reflexivity.
    - apply Nat.eqb_neq in Ejk. rewrite app_length in Hj. cbn [List.length] in Hj. fold k in Hj.
      rewrite app_nth1 by (fold k; lia). destruct Hadm' as [Hw' _]. apply Hw'. fold k. lia. }
  assert (Hag : forall j, j <> k -> scaled v (/ t') s2 j = s' j).
  { intros j Hj. assert (Ej : Nat.eqb j k = false) by (apply Nat.eqb_neq; exact Hj).
    unfold s2, scaled, s1. destruct (Nat.eqb j v) eqn:Ejv; rewrite Ej; [|reflexivity].
    rewrite map_map. rewrite <- (map_id (s' j)) at 2. apply map_ext. intros. field. lra. }
  assert (Hadm2 : admissible w o u (e_lb o) (e_ub o) 1 (scaled v (/ t') s2)).
  { destruct Hadm' as [A1 [A2 [A3 A4]]]. fold v in A2, A3. split; [|split; [|split]].
    - intros j Hj. fold k in Hj. rewrite Hag by lia. apply A1. exact Hj.
    - fold v. rewrite Hag by lia. exact A2.
    - fold v. rewrite Hag by lia. exact A3.
    - rewrite Forall_forall in A4, Hkn |- *. intros ic Hic. apply (sat_agree s'); [|apply A4; exact Hic].
      intros j Hj. symmetry. apply Hag. specialize (Hkn ic Hic). unfold known_vars in Hkn. rewrite Forall_forall in Hkn.
      specialize (Hkn j Hj). lia. }
  assert (Hf2 : feasible (w_sizes w ++ [1%nat]) (par_values w) (map snd (
     (l1, CEq (EDot (map (fun x => x - r) m) (EVar v)) (EScalar 1)) ::
     (l2, CEq (ESum (EVar v)) (EVar k)) :: (l3, CIneq (EScalar 0) (EVar k)) ::
     (l4, CIneq (EMul (EConst (finite_vals (e_lb o))) (EVar k)) (EIndex (finite_ix (e_lb o)) (EVar v))) ::
     (l5, CIneq (EIndex (finite_ix (e_ub o)) (EVar v)) (EMul (EConst (finite_vals (e_ub o))) (EVar k))) :: X)) s2).
  { split; [exact Hw2|]. apply (sharpe_cons_iff w o u m r l1 l2 l3 l4 l5 X s2 t' Hl Hu Hn Hml Hone Hkn S9 Hw2 H2k Ht').
    split; [exact Hadm2|]. fold v. rewrite Hag by lia. fold e'. unfold t'. field. lra. }
  specialize (Hbest s2 Hf2). rewrite !evals_quad, H2v, qform_scale in Hbest.
  assert (Hsv' : s v = vscale t (x v)).
  { rewrite Hxv. unfold vscale. rewrite map_map. rewrite <- (map_id (s v)) at 1. apply map_ext. intros. field. lra. }
  rewrite Hsv', qform_scale in Hbest.
  destruct Hpsd as [_ Hpsd].
  assert (Hlx : List.length (x v) = e_n o) by (destruct Hadm as [A _]; apply (well_sized_w w o x A Hn)).
  assert (Hlx' : List.length (s' v) = e_n o) by (destruct Hadm' as [A _]; apply (well_sized_w w o s' A Hn)).
  pose proof (Hpsd _ Hlx) as Q1. pose proof (Hpsd _ Hlx') as Q2.
  apply Rsqr_incr_0_var; [|apply Rmult_le_pos; lra]. rewrite !Rsqr_mult, !Rsqr_sqrt by assumption. unfold Rsqr.
  set (q1 := qform (e_cov o) (x v)) in *. set (q2 := qform (e_cov o) (s' v)) in *. set (e1 := excess m r (x v)) in *.
  assert (Et1 : t = / e1). { apply (Rmult_eq_reg_l e1); [|lra]. rewrite Hex. field. lra. }
  rewrite Et1 in Hbest. unfold t' in Hbest.
  apply (Rmult_le_compat_l (e1 * e1 * e' * e')) in Hbest; [|repeat apply Rmult_le_pos; lra].
  replace (e1 * e1 * e' * e' * (/ e1 * / e1 * q1)) with (e' * e' * q1) in Hbest by (field; lra).
  replace (e1 * e1 * e' * e' * (/ e' * / e' * q2)) with (e1 * e1 * q2) in Hbest by (field; lra).
  exact Hbest.
Qed.
