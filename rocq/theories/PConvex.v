(** * Basic lemmas about expressions, constraints and the monad *)
From Coq Require Import ZArith List String Bool Reals Lra Lia.
From Verif Require Import Num Py RBase PyLemmas MBase MConvex MEF SLin SBase SConvex PBase.
Import ListNotations.
Local Open Scope R_scope.

Lemma bop_eq_length : forall f a b, List.length a = List.length b -> bop f a b = map2 f a b.
Proof.
  intros f a b H. unfold bop. destruct a as [|x [|x' a]]; destruct b as [|y [|y' b]]; try discriminate; reflexivity.
Qed.
Lemma map2_Forall : forall (f : R -> R -> R) (P : R -> Prop) a b,
  List.length a = List.length b -> (Forall P (map2 f a b) <-> Forall2 (fun x y => P (f x y)) a b).
Proof.
  induction a as [|x a IH]; destruct b as [|y b]; simpl; intros H; try discriminate.
  - split; constructor.
  - injection H as H. split; intros F; inversion F; subst; constructor; auto; apply IH; auto.
Qed.
Lemma Forall2_iff : forall {X Y} (P Q : X -> Y -> Prop) a b,
  (forall x y, P x y <-> Q x y) -> (Forall2 P a b <-> Forall2 Q a b).
Proof. intros X Y P Q a b H. split; intros F; induction F; constructor; auto; apply H; auto. Qed.

Lemma sat_ineq : forall s ps a b, List.length (eval s ps a) = List.length (eval s ps b) ->
  (sat s ps (CIneq a b) <-> Forall2 Rle (eval s ps a) (eval s ps b)).
Proof.
  intros s ps a b H. unfold sat. rewrite bop_eq_length, map2_Forall by exact H.
  apply Forall2_iff. intros; lra.
Qed.
Lemma sat_eq : forall s ps a b, List.length (eval s ps a) = List.length (eval s ps b) ->
  (sat s ps (CEq a b) <-> eval s ps a = eval s ps b).
Proof.
  intros s ps a b H. unfold sat. rewrite bop_eq_length, map2_Forall by exact H. split.
  - intros F. induction F; [reflexivity|]. f_equal; [lra|auto].
  - intros ->. generalize (eval s ps b). intros l; induction l; constructor; auto; lra.
Qed.
(** scalar forms *)
Lemma sat_ineq1 : forall s ps a b x y, eval s ps a = [x] -> eval s ps b = [y] ->
  (sat s ps (CIneq a b) <-> x <= y).
Proof.
  intros s ps a b x y Ha Hb. rewrite sat_ineq by (rewrite Ha, Hb; reflexivity). rewrite Ha, Hb.
  split; [intros F; inversion F; auto|intros H; constructor; [exact H|constructor]].
Qed.
Lemma sat_eq1 : forall s ps a b x y, eval s ps a = [x] -> eval s ps b = [y] ->
  (sat s ps (CEq a b) <-> x = y).
Proof.
  intros s ps a b x y Ha Hb. rewrite sat_eq by (rewrite Ha, Hb; reflexivity). rewrite Ha, Hb.
  split; [intros H; inversion H; auto|intros ->; reflexivity].
Qed.

(** ** Bounds *)
Lemma map_nth_seq : forall {X} (l : list X) d, map (fun i => nth i l d) (seq 0 (List.length l)) = l.
Proof.
  intros X l d. induction l as [|x l IH]; [reflexivity|].
  cbn [List.length seq map nth]. f_equal. rewrite <- seq_shift, map_map. exact IH.
Qed.
Lemma nth_error_nth_opt : forall {X} (l : list (option X)) i, nth i l None = match nth_error l i with Some x => x | None => None end.
Proof. induction l; destruct i; simpl; auto. Qed.

Lemma filter_seq_shift : forall (p : nat -> bool) n, filter p (seq 1 n) = map S (filter (fun i => p (S i)) (seq 0 n)).
Proof.
  intros p n. rewrite <- seq_shift. induction (seq 0 n) as [|i l IH]; [reflexivity|].
  cbn [map filter]. rewrite IH. destruct (p (S i)); reflexivity.
Qed.
Lemma finite_ix_cons : forall b bs, finite_ix (b :: bs) =
  match b with Some _ => [0%nat] | None => [] end ++ map S (finite_ix bs).
Proof.
  intros b bs. unfold finite_ix. cbn [List.length seq filter nth].
  rewrite filter_seq_shift. cbn [nth]. destruct b; reflexivity.
Qed.
Lemma finite_vals_cons : forall b bs, finite_vals (b :: bs) =
  match b with Some x => [x] | None => [] end ++ finite_vals bs.
Proof.
  intros b bs. unfold finite_vals. rewrite finite_ix_cons. rewrite map_app, map_map. cbn [nth].
  destruct b; reflexivity.
Qed.
Lemma finite_len : forall b, List.length (finite_vals b) = List.length (finite_ix b).
Proof. intros; unfold finite_vals; apply map_length. Qed.

Lemma finite_ge : forall lb x, List.length lb = List.length x ->
  (Forall2 Rle (finite_vals lb) (map (fun i => nth i x 0) (finite_ix lb)) <-> Forall2 above lb x).
Proof.
  induction lb as [|b lb IH]; destruct x as [|y x]; intros H; try discriminate.
  - split; constructor.
  - injection H as H. rewrite finite_ix_cons, finite_vals_cons, map_app, map_map. cbn [nth].
    specialize (IH x H). destruct b as [l|]; cbn [map app nth].
    + split; intros F; inversion F; subst; constructor; auto; apply IH; auto.
    + split; intros F; [constructor; [exact I|]; apply IH; exact F|].
      inversion F; subst. apply IH; auto.
Qed.
Lemma finite_le : forall ub x, List.length ub = List.length x ->
  (Forall2 Rle (map (fun i => nth i x 0) (finite_ix ub)) (finite_vals ub) <-> Forall2 below ub x).
Proof.
  induction ub as [|b ub IH]; destruct x as [|y x]; intros H; try discriminate.
  - split; constructor.
  - injection H as H. rewrite finite_ix_cons, finite_vals_cons, map_app, map_map. cbn [nth].
    specialize (IH x H). destruct b as [l|]; cbn [map app nth].
    + split; intros F; inversion F; subst; constructor; auto; apply IH; auto.
    + split; intros F; [constructor; [exact I|]; apply IH; exact F|].
      inversion F; subst. apply IH; auto.
Qed.
Lemma sat_lower : forall s ps lb v, List.length lb = List.length (s v) ->
  (sat s ps (lower_con lb v) <-> Forall2 above lb (s v)).
Proof.
  intros s ps lb v H. unfold lower_con. rewrite sat_ineq by (cbn [eval]; rewrite map_length; apply finite_len).
  cbn [eval]. apply finite_ge; exact H.
Qed.
Lemma sat_upper : forall s ps ub v, List.length ub = List.length (s v) ->
  (sat s ps (upper_con ub v) <-> Forall2 below ub (s v)).
Proof.
  intros s ps ub v H. unfold upper_con.
  rewrite sat_ineq by (cbn [eval]; rewrite map_length; symmetry; apply finite_len).
  cbn [eval]. apply finite_le; exact H.
Qed.

(** ** Construction *)
Definition init_world (w0 : world) (n : nat) : world :=
  mkWorld (w_sizes w0 ++ [n]) (w_val w0) (w_params w0) (S (S (w_next w0))).
Definition init_ef (m : mu_arg) (c : cov_arg) (lb ub : list (option R)) (w0 : world) : ef :=
  let v := List.length (w_sizes w0) in
  mkEF (mkBase (init_tickers m c) None) None v None []
    [(w_next w0, lower_con lb v); (S (w_next w0), upper_con ub v)] lb ub None (cov_values c)
    (mu_values m) None None.

Lemma ef_init_ok : forall m c b w0 lb ub, init_shape_ok m c ->
  read_bounds (List.length (init_tickers m c)) b = Ok (lb, ub) ->
  ef_init (MIn m) (CIn c) b w0 =
    (init_world w0 (List.length (init_tickers m c)), Ok (init_ef m c lb ub w0)).
Proof.
  intros m c b w0 lb ub Hs Hb. unfold ef_init. fold (init_tickers m c).
  assert (E : match mu_values m with
     | None => false
     | Some _ => negb ((List.length (cov_values c) =? match mu_values m with None => List.length (cov_values c) | Some l => List.length l end)%nat
         && (num_cols (cov_values c) =? match mu_values m with None => List.length (cov_values c) | Some l => List.length l end)%nat)
     end = false).
  { unfold init_shape_ok in Hs. destruct (mu_values m) as [l|]; [|reflexivity].
    destruct Hs as [H1 H2]. rewrite H1, H2, !Nat.eqb_refl. reflexivity. }
  rewrite E. unfold new_var. unfold map_bounds, bind, get, lift_res. cbn [e_n e_base b_tickers].
  unfold e_n at 1. cbn [e_base b_tickers]. rewrite Hb. reflexivity.
Qed.

Lemma columns_pairs : forall ps, ps <> [] ->
  columns (map (fun p => [fst p; snd p]) ps) = Ok (map fst ps, map snd ps).
Proof.
  intros [|[l u] ps] H; [congruence|]. unfold columns. cbn [map].
  assert (E : forallb (fun r => (List.length r =? List.length [fst (l, u); snd (l, u)])%nat)
     ([fst (l, u); snd (l, u)] :: map (fun p : bnum * bnum => [fst p; snd p]) ps) = true).
  { apply forallb_forall. intros r [<-|Hr]; [reflexivity|]. apply in_map_iff in Hr.
    destruct Hr as [p [<- _]]. reflexivity. }
  rewrite E. cbn. rewrite !map_map. cbn. reflexivity.
Qed.

(** the three ways to write the bounds are read alike *)
Lemma read_pairs : forall n (ps : list (R * R)), List.length ps = n -> (0 < n)%nat ->
  read_bounds n (BSeq true (map (fun p => [Some (fst p); Some (snd p)]) ps)) =
  Ok (map (fun p => Some (fst p)) ps, map (fun p => Some (snd p)) ps).
Proof.
  intros n ps El Hn. unfold read_bounds. rewrite map_length, El, Nat.eqb_refl.
  pose proof (columns_pairs (map (fun p => (Some (fst p), Some (snd p))) ps)) as H.
  rewrite !map_map in H. cbn [fst snd] in H. apply H. destruct ps; [simpl in El; lia|discriminate].
Qed.
Lemma read_arrays : forall n (ps : list (R * R)), List.length ps = n -> (0 < n)%nat -> n <> 2%nat ->
  read_bounds n (BSeq true [map (fun p => Some (fst p)) ps; map (fun p => Some (snd p)) ps]) =
  Ok (map (fun p => Some (fst p)) ps, map (fun p => Some (snd p)) ps).
Proof.
  intros n ps El Hn H2. unfold read_bounds. cbn [List.length].
  assert (E : (2 =? n)%nat = false) by (apply Nat.eqb_neq; congruence). rewrite E.
  rewrite !map_length, El, Nat.eqb_refl. cbn [andb]. rewrite !map_map. reflexivity.
Qed.
Lemma read_pair : forall n l u, read_bounds n (BPair (Some l) (Some u)) = Ok (repeat (Some l) n, repeat (Some u) n).
Proof. intros. unfold read_bounds. rewrite andb_false_r. reflexivity. Qed.

Lemma bounds_formats : forall m c w0 (ps : list (R * R)),
  init_shape_ok m c -> List.length (init_tickers m c) = List.length ps ->
  (0 < List.length ps)%nat -> List.length ps <> 2%nat ->
  let r := ef_init (MIn m) (CIn c) (BSeq true (map (fun p => [Some (fst p); Some (snd p)]) ps)) w0 in
  ef_init (MIn m) (CIn c) (BSeq true [map (fun p => Some (fst p)) ps; map (fun p => Some (snd p)) ps]) w0 = r /\
  (forall l u, ps = repeat (l, u) (List.length ps) ->
     ef_init (MIn m) (CIn c) (BPair (Some l) (Some u)) w0 = r) /\
  exists w1 o, r = (w1, Ok o) /\
    forall s params, List.length (s (e_w o)) = List.length ps ->
      (Forall (fun ic => sat s params (snd ic)) (e_cons o) <->
       Forall2 (fun p x => fst p <= x <= snd p) ps (s (e_w o))).
Proof.
  intros m c w0 ps Hs El Hn H2 r.
  assert (Er : r = (init_world w0 (List.length (init_tickers m c)),
     Ok (init_ef m c (map (fun p => Some (fst p)) ps) (map (fun p => Some (snd p)) ps) w0))).
  { apply ef_init_ok; [exact Hs|]. rewrite El. apply read_pairs; auto. }
  rewrite Er. split; [|split].
  - apply ef_init_ok; [exact Hs|]. rewrite El. apply read_arrays; auto.
  - intros l u Hrep. apply ef_init_ok; [exact Hs|]. rewrite El, read_pair.
    rewrite Hrep. rewrite repeat_length. generalize (List.length ps). intros k.
    do 2 f_equal; induction k; simpl; congruence.
  - eexists; eexists. split; [reflexivity|]. cbn [init_ef e_w e_cons]. intros s params Hlen.
    set (v := List.length (w_sizes w0)) in *.
    split.
    + intros F. inversion F as [|? ? F1 F']; subst. inversion F' as [|? ? F2 _]; subst. cbn [snd] in F1, F2.
      apply sat_lower in F1; [|rewrite map_length; auto]. apply sat_upper in F2; [|rewrite map_length; auto].
      clear - F1 F2. revert F1 F2. generalize (s v). induction ps as [|p ps IH]; intros x F1 F2.
      * inversion F1; constructor.
      * destruct x as [|y x]; [inversion F1|]. inversion F1; inversion F2; subst.
        constructor; [simpl in *; lra|apply IH; auto].
    + intros F. assert (Hall : Forall2 above (map (fun p => Some (fst p)) ps) (s v) /\ Forall2 below (map (fun p => Some (snd p)) ps) (s v)).
      { clear - F. induction F; simpl; split; constructor; simpl; try lra; tauto. }
      constructor; [|constructor; [|constructor]]; cbn [snd].
      * apply sat_lower; [rewrite map_length; auto|tauto].
      * apply sat_upper; [rewrite map_length; auto|tauto].
Qed.

(** two assets: the pair of arrays is transposed *)
Lemma bounds_two_assets : forall m c w0 l0 l1 u0 u1,
  init_shape_ok m c -> List.length (init_tickers m c) = 2%nat ->
  exists w1 o, ef_init (MIn m) (CIn c) (BSeq true [[Some l0; Some l1]; [Some u0; Some u1]]) w0 = (w1, Ok o) /\
    forall s params x0 x1, s (e_w o) = [x0; x1] ->
      (Forall (fun ic => sat s params (snd ic)) (e_cons o) <-> l0 <= x0 <= l1 /\ u0 <= x1 <= u1).
Proof.
  intros m c w0 l0 l1 u0 u1 Hs El.
  rewrite (ef_init_ok m c _ w0 [Some l0; Some u0] [Some l1; Some u1] Hs) by (rewrite El; reflexivity).
  eexists; eexists. split; [reflexivity|]. cbn [init_ef e_w e_cons]. intros s params x0 x1 E.
  set (v := List.length (w_sizes w0)) in *. split.
  - intros F. inversion F as [|? ? F1 F']; subst. inversion F' as [|? ? F2 _]; subst. cbn [snd] in F1, F2.
    apply sat_lower in F1; [|rewrite E; reflexivity]. apply sat_upper in F2; [|rewrite E; reflexivity].
    rewrite E in *. inversion F1 as [|? ? ? ? A1 F1']; subst. inversion F1' as [|? ? ? ? A2 _]; subst.
    inversion F2 as [|? ? ? ? A3 F2']; subst. inversion F2' as [|? ? ? ? A4 _]; subst. simpl in *. lra.
  - intros H. constructor; [|constructor; [|constructor]]; cbn [snd].
    + apply sat_lower; rewrite E; [reflexivity|]. constructor; [simpl; lra|constructor; [simpl; lra|constructor]].
    + apply sat_upper; rewrite E; [reflexivity|]. constructor; [simpl; lra|constructor; [simpl; lra|constructor]].
Qed.

(** None as the first of two scalars: fine except for two assets *)
Lemma bounds_none_two_assets : forall u, read_bounds 2 (BPair None u) = Err IndexError.
Proof. reflexivity. Qed.

(** ** Sectors *)
Lemma sector_sum : forall mapper sec ts x, List.length ts = List.length x ->
  total (map (fun i => nth i x 0) (sector_ix ts mapper sec)) = sector_weight mapper sec ts x.
Proof.
  induction ts as [|t ts IH]; destruct x as [|a x]; intros H; try discriminate; [reflexivity|].
  injection H as H. unfold sector_ix. cbn [List.length seq filter nth_error].
  rewrite filter_seq_shift. cbn [nth_error sector_weight]. specialize (IH x H). unfold sector_ix in IH.
  destruct (dget t mapper) as [s'|]; [destruct (String.eqb s' sec)|]; cbn [map total nth];
    rewrite map_map; cbn [nth]; rewrite IH; lra.
Qed.

Definition push_cons (fs : list (nat -> con)) (w : world) (o : ef) : world * ef :=
  (mkWorld (w_sizes w) (w_val w) (w_params w) (w_next w + List.length fs),
   set_cons (e_cons o ++ combine (seq (w_next w) (List.length fs)) (map (fun f => f (e_w o)) fs)) o).
Lemma add_constraint_open : forall f w o, e_opt o = None ->
  add_constraint (CFun f) w o =
  (mkWorld (w_sizes w) (w_val w) (w_params w) (S (w_next w)), set_cons (e_cons o ++ [(w_next w, f (e_w o))]) o, Ok tt).
Proof. intros f w o H. unfold add_constraint, bind, get. rewrite H. reflexivity. Qed.
Lemma set_cons_cons : forall x y o, set_cons x (set_cons y o) = set_cons x o.
Proof. reflexivity. Qed.
Lemma set_cons_same : forall o, set_cons (e_cons o) o = o.
Proof. intros []; reflexivity. Qed.
Lemma forM_add : forall {X} (f : X -> nat -> con) (l : list X) w o, e_opt o = None ->
  forM l (fun x => add_constraint (CFun (f x))) w o = (push_cons (map f l) w o, Ok tt).
Proof.
  induction l as [|x l IH]; intros w o Ho; cbn [forM].
  - unfold ret, push_cons. simpl. rewrite app_nil_r, set_cons_same, Nat.add_0_r. destruct w; reflexivity.
  - unfold bind. rewrite add_constraint_open by exact Ho. rewrite IH by exact Ho.
    unfold push_cons. cbn [w_next w_sizes w_val w_params map List.length seq combine].
    rewrite Nat.add_succ_r, set_cons_cons. cbn [e_cons set_cons e_w]. rewrite <- app_assoc. reflexivity.
Qed.

Lemma add_sector_ok : forall mapper lower upper w o, e_opt o = None ->
  exists w' new, add_sector_constraints mapper lower upper w o = (w', set_cons (e_cons o ++ new) o, Ok tt) /\
    forall s ps, List.length (s (e_w o)) = e_n o ->
      (Forall (fun ic => sat s ps (snd ic)) new <->
       (forall sec u, In (sec, u) upper -> sector_weight mapper sec (b_tickers (e_base o)) (s (e_w o)) <= u) /\
       (forall sec l, In (sec, l) lower -> l <= sector_weight mapper sec (b_tickers (e_base o)) (s (e_w o)))).
Proof.
  intros mapper lower upper w o Ho. unfold add_sector_constraints, bind, get.
  set (ts := b_tickers (e_base o)) in *.
  rewrite (forM_add (fun su v => CIneq (ESum (EIndex (sector_ix ts mapper (fst su)) (EVar v))) (EScalar (snd su)))) by exact Ho.
  unfold push_cons at 1.
  rewrite (forM_add (fun sl v => CIneq (EScalar (snd sl)) (ESum (EIndex (sector_ix ts mapper (fst sl)) (EVar v))))) by exact Ho.
  unfold push_cons. rewrite set_cons_cons. cbn [e_cons set_cons e_w]. rewrite <- app_assoc.
  eexists. eexists. split; [reflexivity|]. intros s ps Hlen.
  assert (Hup : forall su : string * R, sat s ps (CIneq (ESum (EIndex (sector_ix ts mapper (fst su)) (EVar (e_w o)))) (EScalar (snd su)))
     <-> sector_weight mapper (fst su) ts (s (e_w o)) <= snd su).
  { intros su. rewrite (sat_ineq1 s ps _ _ (sector_weight mapper (fst su) ts (s (e_w o))) (snd su)); [reflexivity| |reflexivity].
    cbn [eval]. rewrite vsum_total, sector_sum by (symmetry; exact Hlen). reflexivity. }
  assert (Hlo : forall su : string * R, sat s ps (CIneq (EScalar (snd su)) (ESum (EIndex (sector_ix ts mapper (fst su)) (EVar (e_w o)))))
     <-> snd su <= sector_weight mapper (fst su) ts (s (e_w o))).
  { intros su. rewrite (sat_ineq1 s ps _ _ (snd su) (sector_weight mapper (fst su) ts (s (e_w o)))); [reflexivity|reflexivity|].
    cbn [eval]. rewrite vsum_total, sector_sum by (symmetry; exact Hlen). reflexivity. }
  assert (Hc : forall (P : nat * con -> Prop) k fs, (forall i j c, P (i, c) <-> P (j, c)) ->
     (Forall P (combine (seq k (List.length fs)) (map (fun f : nat -> con => f (e_w o)) fs)) <->
      Forall (fun f => P (0%nat, f (e_w o))) fs)).
  { intros P k fs HP. revert k. induction fs as [|f fs IH]; intros k; simpl; [split; constructor|].
    split; intros F; inversion F; subst; constructor; try (eapply HP; eassumption); eapply IH; eassumption. }
  rewrite Forall_app.
  rewrite (Hc (fun ic => sat s ps (snd ic))) by (intros; reflexivity).
  rewrite (Hc (fun ic => sat s ps (snd ic))) by (intros; reflexivity). cbn [snd].
  rewrite !Forall_map, !Forall_forall. split.
  - intros [H1 H2]. split; intros sec x Hin.
    + apply (Hup (sec, x)). apply (H1 _ Hin).
    + apply (Hlo (sec, x)). apply (H2 _ Hin).
  - intros [H1 H2]. split; intros [sec x] Hin.
    + apply Hup. apply (H1 _ _ Hin).
    + apply Hlo. apply (H2 _ _ Hin).
Qed.
