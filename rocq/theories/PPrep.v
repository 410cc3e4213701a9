(** * Preparing an optimizer (C18, C102) *)
From Coq Require Import ZArith List String Bool Reals Lra Lia.
From Verif Require Import Num Py RBase PyLemmas SLin SBase MBase MConvex MEF SConvex SPrep PHRP2 PConvex PEF PEF2 PDown5.
Import ListNotations.
Local Open Scope R_scope.

(** ** bounds with gaps *)
Lemma init_bounds : forall mi ci b w0 w1 o, ef_init mi (CIn ci) b w0 = (w1, Ok o) ->
  exists lb ub, read_bounds (e_n o) b = Ok (lb, ub) /\ List.length lb = e_n o /\ List.length ub = e_n o /\
    forall s ps, List.length (s (e_w o)) = e_n o ->
      (Forall (fun ic => sat s ps (snd ic)) (e_cons o) <-> Forall2 above lb (s (e_w o)) /\ Forall2 below ub (s (e_w o))).
Proof.
  intros mi ci b w0 w1 o H. destruct (ef_init_inv _ _ _ _ _ _ H) as (m & lb & ub & -> & Hs & Hb & -> & ->).
  exists lb, ub. unfold e_n. cbn [init_ef e_base b_tickers e_w e_cons]. destruct (read_bounds_length _ _ _ _ Hb) as [L1 L2].
  split; [exact Hb|]. split; [exact L1|]. split; [exact L2|]. intros s ps Hl. split.
  - intros F. inversion F as [|? ? F1 F']; subst. inversion F' as [|? ? F2 _]; subst. cbn [snd] in F1, F2.
    apply sat_lower in F1; [|congruence]. apply sat_upper in F2; [|congruence]. auto.
  - intros [F1 F2]. constructor; [|constructor; [|constructor]]; cbn [snd]; [apply sat_lower|apply sat_upper]; congruence || assumption.
Qed.
Lemma within_pairs : forall (ps : list (option R * option R)) x,
  (Forall2 above (map fst ps) x /\ Forall2 below (map snd ps) x) <-> Forall2 (fun p v => above (fst p) v /\ below (snd p) v) ps x.
Proof.
  intros ps x. split.
  - revert x. induction ps as [|p ps IH]; intros x [F1 F2]; cbn [map] in *; [inversion F1; constructor|].
    destruct x as [|v x]; [inversion F1|]. inversion F1; inversion F2; subst. constructor; auto.
  - intros F. induction F as [|p v ps x [A B] F [G1 G2]]; cbn [map]; split; constructor; auto.
Qed.
Theorem missing_pairs : forall mi ci w0 w1 o is_list (ps : list (option R * option R)),
  ef_init mi (CIn ci) (BSeq is_list (map (fun p => [fst p; snd p]) ps)) w0 = (w1, Ok o) -> List.length ps = e_n o ->
  forall s params, List.length (s (e_w o)) = e_n o ->
    (Forall (fun ic => sat s params (snd ic)) (e_cons o) <-> Forall2 (fun p x => above (fst p) x /\ below (snd p) x) ps (s (e_w o))).
Proof.
  intros mi ci w0 w1 o is_list ps H Hn s params Hs. destruct (init_bounds _ _ _ _ _ _ H) as (lb & ub & Hb & _ & _ & F).
  rewrite (F s params Hs). unfold read_bounds in Hb. rewrite map_length, Hn, Nat.eqb_refl in Hb.
  destruct ps as [|p ps]; [discriminate Hb|]. rewrite columns_pairs in Hb by discriminate. injection Hb as <- <-. apply (within_pairs (p :: ps)).
Qed.
Lemma above_some : forall d b x, above (or_default d b) x <-> bound_or d b <= x.
Proof. intros d [b|] x; reflexivity. Qed.
Lemma below_some : forall d b x, below (or_default d b) x <-> x <= bound_or d b.
Proof. intros d [b|] x; reflexivity. Qed.
Theorem missing_arrays : forall mi ci w0 w1 o (ps : list (option R * option R)),
  ef_init mi (CIn ci) (BSeq true [map fst ps; map snd ps]) w0 = (w1, Ok o) -> e_n o <> 2%nat ->
  forall s params, List.length (s (e_w o)) = e_n o ->
    (Forall (fun ic => sat s params (snd ic)) (e_cons o) <-> Forall2 (fun p x => bound_or (-1) (fst p) <= x <= bound_or 1 (snd p)) ps (s (e_w o))).
Proof.
  intros mi ci w0 w1 o ps H Hn s params Hs. destruct (init_bounds _ _ _ _ _ _ H) as (lb & ub & Hb & _ & _ & F).
  rewrite (F s params Hs). unfold read_bounds in Hb. cbn [List.length] in Hb. destruct (2 =? e_n o)%nat eqn:E; [apply Nat.eqb_eq in E; congruence|].
  destruct (_ && _); [|discriminate Hb]. injection Hb as <- <-. rewrite !map_map.
  pose proof (within_pairs (map (fun p => (or_default (-1) (fst p), or_default 1 (snd p))) ps) (s (e_w o))) as W. rewrite !map_map in W. cbn [fst snd] in W. rewrite W.
  clear. generalize (s (e_w o)). induction ps as [|p ps IH]; intros x; cbn [map].
  - split; intros F; inversion F; constructor.
  - destruct x as [|v x]; [split; intros F; inversion F|]. split; intros F; inversion F as [|? ? ? ? A B]; subst; (constructor; [|apply IH; exact B]); cbn [fst snd] in *;
      rewrite above_some, below_some in *; exact A.
Qed.
Theorem missing_scalars : forall mi ci w0 w1 o l u, ef_init mi (CIn ci) (BPair l u) w0 = (w1, Ok o) ->
  forall s params, List.length (s (e_w o)) = e_n o ->
    (Forall (fun ic => sat s params (snd ic)) (e_cons o) <-> Forall (fun x => bound_or (-1) l <= x <= bound_or 1 u) (s (e_w o))).
Proof.
  intros mi ci w0 w1 o l u H s params Hs. destruct (init_bounds _ _ _ _ _ _ H) as (lb & ub & Hb & _ & _ & F).
  rewrite (F s params Hs). unfold read_bounds in Hb. destruct (_ && _); [discriminate Hb|]. injection Hb as <- <-. rewrite <- Hs. clear.
  generalize (s (e_w o)). induction l0 as [|v x IH]; cbn [List.length repeat]; [split; [constructor|split; constructor]|]. split.
  - intros [F1 F2]. inversion F1; inversion F2; subst. constructor; [rewrite above_some, below_some in *; auto|apply IH; auto].
  - intros F. inversion F as [|? ? [A B] G]; subst. apply IH in G. split; constructor; try apply above_some; try apply below_some; tauto.
Qed.
Theorem missing_two_assets : forall a b m1 m2 m3 m4 u w0, exists w1,
  ef_init (MIn (MuArray [a; b])) (CIn (CovArray [[m1; m2]; [m3; m4]])) (BPair None u) w0 = (w1, Err IndexError).
Proof. intros. eexists. reflexivity. Qed.

(** ** steps of preparation *)
Theorem not_callable : forall w o, add_constraint CNotCallable w o = (w, o, Err TypeError).
Proof. reflexivity. Qed.

Definition added_cons (k : nat) (w : world) (o : ef) (w2 : world) (o2 : ef) (new : list (nat * con)) : Prop :=
  exists adds, o2 = set_add (e_add o ++ adds) (set_cons (e_cons o ++ new) o) /\ w_sizes w2 = w_sizes w /\ w_params w2 = w_params w /\
    Forall scalar_expr adds /\ Forall (scoped_expr k) adds /\ Forall (fun ic => scoped_con k (snd ic)) new.
Lemma sector_new : forall mapper lower upper w o, e_opt o = None ->
  exists w' new, add_sector_constraints mapper lower upper w o = (w', set_cons (e_cons o ++ new) o, Ok tt) /\ w_sizes w' = w_sizes w /\ w_params w' = w_params w /\
    Forall (fun ic => scoped_con (List.length (w_params w)) (snd ic)) new /\
    forall s ps, List.length (s (e_w o)) = e_n o ->
      (Forall (fun ic => sat s ps (snd ic)) new <->
       (forall sec u, In (sec, u) upper -> sector_weight mapper sec (b_tickers (e_base o)) (s (e_w o)) <= u) /\
       (forall sec l, In (sec, l) lower -> l <= sector_weight mapper sec (b_tickers (e_base o)) (s (e_w o)))).
Proof.
  intros mapper lower upper w o Ho. destruct (add_sector_ok mapper lower upper w o Ho) as (w' & new & E & F).
  exists w', new. split; [exact E|]. 
  pose proof E as E'. unfold add_sector_constraints, bind, get in E'.
  set (ts := b_tickers (e_base o)) in *.
  rewrite (forM_add (fun su v => CIneq (ESum (EIndex (sector_ix ts mapper (fst su)) (EVar v))) (EScalar (snd su)))) in E' by exact Ho.
  unfold push_cons at 1 in E'.
  rewrite (forM_add (fun sl v => CIneq (EScalar (snd sl)) (ESum (EIndex (sector_ix ts mapper (fst sl)) (EVar v))))) in E' by exact Ho.
  unfold push_cons in E'. rewrite set_cons_cons in E'. cbn [e_cons set_cons e_w] in E'. rewrite <- app_assoc in E'.
  injection E' as E1 E2. rewrite <- E1. cbn [w_sizes w_params]. split; [reflexivity|]. split; [reflexivity|]. split; [|exact F].
  assert (En : new = combine (seq (w_next w) (List.length (map (fun (su : string * R) v => CIneq (ESum (EIndex (sector_ix ts mapper (fst su)) (EVar v))) (EScalar (snd su))) upper)))
     (map (fun f => f (e_w o)) (map (fun (su : string * R) v => CIneq (ESum (EIndex (sector_ix ts mapper (fst su)) (EVar v))) (EScalar (snd su))) upper)) ++
     combine (seq (w_next w + List.length (map (fun (su : string * R) v => CIneq (ESum (EIndex (sector_ix ts mapper (fst su)) (EVar v))) (EScalar (snd su))) upper)) (List.length (map (fun (sl : string * R) v => CIneq (EScalar (snd sl)) (ESum (EIndex (sector_ix ts mapper (fst sl)) (EVar v)))) lower)))
     (map (fun f => f (e_w o)) (map (fun (sl : string * R) v => CIneq (EScalar (snd sl)) (ESum (EIndex (sector_ix ts mapper (fst sl)) (EVar v)))) lower))).
  { apply (app_inv_head (e_cons o)). symmetry. exact E2. }
  rewrite En. clear. apply Forall_app. split; apply Forall_forall; intros [i c] Hc; apply in_combine_r in Hc; rewrite map_map in Hc; apply in_map_iff in Hc; destruct Hc as (x & <- & _);
    cbn [snd]; unfold scoped_con; cbn [cpars epars app]; repeat constructor.
Qed.

Theorem prepared : forall steps w o u, open_ef w o u -> Forall (sensible (e_w o) (List.length (w_params w))) steps ->
  exists w2 o2 u2, forM steps prepare w o = (w2, o2, Ok tt) /\ open_ef w2 o2 u2 /\
    w_sizes w2 = w_sizes w /\ w_params w2 = w_params w /\
    e_w o2 = e_w o /\ e_lb o2 = e_lb o /\ e_ub o2 = e_ub o /\ e_cov o2 = e_cov o /\ e_mu o2 = e_mu o /\ e_base o2 = e_base o /\
    (forall s ps, penalty s ps (e_add o2) = penalty s ps (e_add o) + total (map (extra_cost (e_w o) s ps) steps)) /\
    (forall s ps, List.length (s (e_w o)) = e_n o ->
      (Forall (fun ic => sat s ps (snd ic)) u2 <->
       Forall (fun ic => sat s ps (snd ic)) u /\ Forall (demanded (b_tickers (e_base o)) (e_w o) s ps) steps)).
Proof.
  induction steps as [|a steps IH]; intros w o u Ho Hs.
  - exists w, o, u. cbn [forM map total]. split; [reflexivity|]. split; [exact Ho|]. repeat (split; [reflexivity|]).
    split; [intros; lra|]. intros s ps _. split; [intros F; split; [exact F|constructor]|tauto].
  - inversion Hs as [|? ? Ha Hs']; subst.
    assert (Step : exists w1 o1 u1, prepare a w o = (w1, o1, Ok tt) /\ open_ef w1 o1 u1 /\
      w_sizes w1 = w_sizes w /\ w_params w1 = w_params w /\
      e_w o1 = e_w o /\ e_lb o1 = e_lb o /\ e_ub o1 = e_ub o /\ e_cov o1 = e_cov o /\ e_mu o1 = e_mu o /\ e_base o1 = e_base o /\
      (forall s ps, penalty s ps (e_add o1) = penalty s ps (e_add o) + extra_cost (e_w o) s ps a) /\
      (forall s ps, List.length (s (e_w o)) = e_n o ->
        (Forall (fun ic => sat s ps (snd ic)) u1 <-> Forall (fun ic => sat s ps (snd ic)) u /\ demanded (b_tickers (e_base o)) (e_w o) s ps a))).
    { destruct Ho as (O1 & (i & j & O2) & O3 & O4 & O5 & O6 & O7 & O8 & O9 & O10). destruct a as [f|f|mapper lower upper]; cbn [prepare sensible extra_cost demanded] in *.
      - unfold add_objective, bind, get, modify. rewrite O1. destruct Ha as [Ha1 Ha2]. eexists _, _, u. split; [reflexivity|].
        split; [|repeat (split; [reflexivity|])].
        + unfold open_ef, set_add, e_n in *. cbn [e_opt e_cons e_lb e_ub e_w e_base e_cov e_mu e_add]. split; [exact O1|]. split; [exists i, j; exact O2|].
          repeat (split; [assumption|]). split; [apply Forall_app; split; [assumption|constructor; [exact Ha1|constructor]]|]. split; [apply Forall_app; split; [assumption|constructor; [exact Ha2|constructor]]|assumption].
        + split; [intros s ps; unfold penalty; cbn [set_add e_add]; rewrite map_app, total_app; cbn [map total]; lra|]. intros; tauto.
      - rewrite add_constraint_open by exact O1. eexists _, _, (u ++ [(w_next w, f (e_w o))]). split; [reflexivity|].
        split; [|repeat (split; [reflexivity|])].
        + unfold open_ef, set_cons, e_n in *. cbn [e_opt e_cons e_lb e_ub e_w e_base e_cov e_mu e_add w_sizes w_params]. split; [exact O1|]. split; [exists i, j; rewrite O2; reflexivity|].
          repeat (split; [assumption|]). apply Forall_app; split; [assumption|constructor; [exact Ha|constructor]].
        + split; [intros s ps; cbn [set_cons e_add]; lra|]. intros s ps _. rewrite Forall_app. split; [intros [A B]; inversion B; auto|intros [A B]; repeat constructor; auto].
      - destruct (sector_new mapper lower upper w o O1) as (w1 & new & E & W1 & W2 & Sc & F). exists w1, (set_cons (e_cons o ++ new) o), (u ++ new). split; [exact E|].
        split; [|split; [exact W1|split; [exact W2|repeat (split; [reflexivity|])]]].
        + unfold open_ef, set_cons, e_n in *. cbn [e_opt e_cons e_lb e_ub e_w e_base e_cov e_mu e_add w_sizes w_params]. rewrite W1, W2. split; [exact O1|]. split; [exists i, j; rewrite O2; reflexivity|].
          repeat (split; [assumption|]). apply Forall_app; split; assumption.
        + split; [intros s ps; cbn [set_cons e_add]; lra|]. intros s ps Hl. rewrite Forall_app, (F s ps Hl). reflexivity. }
    destruct Step as (w1 & o1 & u1 & E & Ho1 & W1 & W2 & P1 & P2 & P3 & P4 & P5 & P6 & P7 & P8).
    destruct (IH w1 o1 u1 Ho1) as (w2 & o2 & u2 & E2 & Ho2 & X1 & X2 & Q1 & Q2 & Q3 & Q4 & Q5 & Q6 & Q7 & Q8); [rewrite P1, W2; exact Hs'|].
    exists w2, o2, u2. cbn [forM]. unfold bind. rewrite E. split; [exact E2|]. split; [exact Ho2|].
    rewrite P1, P6 in *. repeat (split; [congruence|]). split.
    + intros s ps. rewrite Q7, P7. cbn [map total]. lra.
    + intros s ps Hl. unfold e_n in *. rewrite P6 in *. rewrite (Q8 s ps Hl), (P8 s ps Hl). split; [intros [[A B] C]; split; [exact A|constructor; assumption]|intros [A B]; inversion B; auto].
Qed.

(** ** from the constructor to the answer *)
Theorem constructed : forall m c b w0 w1 o, ef_init (MIn m) (CIn c) b w0 = (w1, Ok o) -> square (List.length (cov_values c)) (cov_values c) ->
  List.length (cov_values c) = e_n o ->
  open_ef w1 o [] /\ e_add o = [] /\ e_cov o = cov_values c /\ e_mu o = mu_values m /\ e_mn o = None /\ e_obj o = None /\
  w_params w1 = w_params w0 /\ w_sizes w1 = w_sizes w0 ++ [e_n o] /\ e_w o = List.length (w_sizes w0).
Proof.
  intros m c b w0 w1 o H Hq Hn. destruct (ef_init_inv _ _ _ _ _ _ H) as (m' & lb & ub & Em & Hs & Hb & -> & ->). injection Em as <-.
  destruct (read_bounds_length _ _ _ _ Hb) as [L1 L2]. unfold e_n in *. cbn [init_ef e_base b_tickers] in *. rewrite Hn in Hq.
  pose proof (init_open m c lb ub w0 [] Hq Hs Hn L1 L2) as Ho. cbv zeta in Ho. rewrite app_nil_r in Ho. split; [exact Ho|]. repeat split.
Qed.
Lemma best_transfer : forall w o w2 o2 u2 steps lb ub sum ok cost ws d, open_ef w o [] -> e_add o = [] ->
  w_sizes w2 = w_sizes w -> w_params w2 = w_params w -> e_w o2 = e_w o -> e_base o2 = e_base o ->
  (forall s ps, penalty s ps (e_add o2) = penalty s ps (e_add o) + total (map (extra_cost (e_w o) s ps) steps)) ->
  (forall s ps, List.length (s (e_w o)) = e_n o ->
      (Forall (fun ic => sat s ps (snd ic)) u2 <->
       Forall (fun ic : nat * con => sat s ps (snd ic)) [] /\ Forall (demanded (b_tickers (e_base o)) (e_w o) s ps) steps)) ->
  best_portfolio w2 o2 u2 lb ub sum ok cost ws d ->
  best_prepared (b_tickers (e_base o)) (e_w o) (w_sizes w) (par_values w) lb ub sum steps ok cost ws d.
Proof.
  intros w o w2 o2 u2 steps lb ub sum ok cost ws d Ho Ha W1 W2 P1 P6 P7 P8 (s & r & E1 & E2 & E3 & E4 & E5 & E6).
  assert (Ep : par_values w2 = par_values w) by (unfold par_values; rewrite W2; reflexivity). rewrite Ep, P1, ?P6 in *.
  assert (Hiff : forall s', admissible w2 o2 u2 lb ub sum s' <-> allowed (b_tickers (e_base o)) (e_w o) (w_sizes w) (par_values w) lb ub sum steps s').
  { intros s'. unfold admissible, allowed. rewrite W1, P1, Ep.
    assert (Hl : well_sized (w_sizes w) s' -> List.length (s' (e_w o)) = e_n o).
    { intros Hw. destruct Ho as (_ & _ & _ & _ & Hn & _). rewrite Hw by (apply nth_error_Some; congruence). apply nth_error_nth. exact Hn. }
    split; intros (A & B & C & D); repeat (split; [assumption|]); apply (P8 s' (par_values w) (Hl A)) in D || apply (P8 s' (par_values w) (Hl A)); [apply D|split; [constructor|exact D]]. }
  exists s, r. split; [exact E1|]. split; [exact E2|]. split; [exact E3|]. split; [apply Hiff; exact E4|]. split; [exact E5|].
  intros s' H1 H2. pose proof (E6 s' (proj2 (Hiff s') H1) H2) as L. rewrite !P7, Ha in L. unfold penalty in L. cbn [map total] in L. lra.
Qed.

Section EndToEnd.
  Context (m : mu_arg) (c : cov_arg) (b : bounds_arg) (w0 w1 : world) (o : ef) (steps : list preparation) (w2 : world) (o2 : ef).
  Context (Hi : ef_init (MIn m) (CIn c) b w0 = (w1, Ok o)) (Hq : square (List.length (cov_values c)) (cov_values c))
    (Hn : List.length (cov_values c) = e_n o)
    (Hs : Forall (sensible (e_w o) (List.length (w_params w1))) steps)
    (Hp : forM steps prepare w1 o = (w2, o2, Ok tt)).
  Let tickers := b_tickers (e_base o).
  Let V := cov_values c.

  Lemma ready : exists u2, open_ef w2 o2 u2 /\ e_lb o2 = e_lb o /\ e_ub o2 = e_ub o /\ e_cov o2 = V /\ e_mu o2 = mu_values m /\ e_n o2 = e_n o /\ w_params w2 = w_params w0 /\
    forall lb ub sum ok cost ws d, best_portfolio w2 o2 u2 lb ub sum ok cost ws d -> best_prepared tickers (e_w o) (w_sizes w1) (par_values w0) lb ub sum steps ok cost ws d.
  Proof.
    destruct (constructed _ _ _ _ _ _ Hi Hq Hn) as (Ho & Ha & Hc & Hm & _ & _ & Hw & _).
    destruct (prepared steps w1 o [] Ho Hs) as (w2' & o2' & u2 & E & Ho2 & W1 & W2 & P1 & P2 & P3 & P4 & P5 & P6 & P7 & P8).
    rewrite Hp in E. injection E as <- <-. exists u2. split; [exact Ho2|]. split; [exact P2|]. split; [exact P3|]. split; [rewrite P4; exact Hc|]. split; [rewrite P5; exact Hm|].
    split; [unfold e_n; rewrite P6; reflexivity|]. split; [congruence|]. intros.
    replace (par_values w0) with (par_values w1) by (unfold par_values; rewrite Hw; reflexivity).
    eapply best_transfer; eassumption.
  Qed.
  Lemma no_name : forall name, Forall (fun q => p_name q <> name) (w_params w0) -> fresh_name w2 o2 name.
  Proof.
    intros name H p _. destruct ready as (u2 & _ & _ & _ & _ & _ & _ & Hw & _). unfold named. rewrite Hw. destruct (nth_error (w_params w0) p) as [q|] eqn:E; [|reflexivity].
    apply String.eqb_neq. apply nth_error_In in E. rewrite Forall_forall in H. apply H. exact E.
  Qed.
  Lemma force_same : forall mn lb ub, e_lb o2 = e_lb o -> e_ub o2 = e_ub o -> e_n o2 = e_n o -> bounds_in_force mn o2 lb ub -> bounds_in_force mn o lb ub.
  Proof. intros mn lb ub A B C. unfold bounds_in_force. rewrite A, B, C. auto. Qed.
  Theorem e2e_min_volatility : forall sv w3 o3 d, exact_solver sv -> min_volatility sv w2 o2 = (w3, o3, Ok d) ->
    best_prepared tickers (e_w o) (w_sizes w1) (par_values w0) (e_lb o) (e_ub o) 1 steps (fun _ => True) (qform V) (e_weights o3) d.
  Proof.
    intros sv w3 o3 d Hsv H. destruct ready as (u2 & Ho & Hl & Hu & Hc & Hm & Hn2 & Hw & T). pose proof (min_volatility_best sv w2 o2 u2 w3 o3 d Hsv Ho H) as Bp.
    rewrite Hl, Hu, Hc in Bp. apply T. exact Bp.
  Qed.
  Theorem e2e_utility : forall sv mu ra mn w3 o3 d, exact_solver sv -> mu_values m = Some mu -> Forall (fun q => p_name q <> "risk_aversion"%string) (w_params w0) ->
    max_quadratic_utility sv ra mn w2 o2 = (w3, o3, Ok d) ->
    exists lb ub, bounds_in_force mn o lb ub /\ best_prepared tickers (e_w o) (w_sizes w1) (par_values w0) lb ub (if mn then 0 else 1) steps (fun _ => True)
      (fun x => - (inner mu x - ra / 2 * qform V x)) (e_weights o3) d.
  Proof.
    intros sv mu ra mn w3 o3 d Hsv Hmu Hf H. destruct ready as (u2 & Ho & Hl & Hu & Hc & Hm & Hn2 & Hw & T). rewrite Hmu in Hm.
    destruct (utility_best sv w2 o2 u2 mu ra mn w3 o3 d Hsv Ho Hm (no_name _ Hf) H) as (_ & lb & ub & B & Bp). rewrite Hc in Bp.
    exists lb, ub. split; [apply force_same; assumption|apply T; exact Bp].
  Qed.
  Theorem e2e_efficient_risk : forall sv pinv mu tg mn w3 o3 d, exact_solver sv -> mu_values m = Some mu -> Forall (fun q => p_name q <> "target_variance"%string) (w_params w0) ->
    efficient_risk sv pinv tg mn w2 o2 = (w3, o3, Ok d) ->
    exists t lb ub, target_of tg = Some t /\ 0 <= t /\ bounds_in_force mn o lb ub /\ best_prepared tickers (e_w o) (w_sizes w1) (par_values w0) lb ub (if mn then 0 else 1) steps
      (fun x => qform V x <= t * t) (fun x => - inner mu x) (e_weights o3) d.
  Proof.
    intros sv pinv mu tg mn w3 o3 d Hsv Hmu Hf H. destruct ready as (u2 & Ho & Hl & Hu & Hc & Hm & Hn2 & Hw & T). rewrite Hmu in Hm.
    destruct (efficient_risk_best sv pinv w2 o2 u2 mu tg mn w3 o3 d Hsv Ho Hm (no_name _ Hf) H) as (t & lb & ub & Et & Ht & B & Bp). rewrite Hc in Bp.
    exists t, lb, ub. split; [exact Et|]. split; [exact Ht|]. split; [apply force_same; assumption|apply T; exact Bp].
  Qed.
  Theorem e2e_efficient_return : forall sv mu tg mn w3 o3 d, exact_solver sv -> mu_values m = Some mu -> Forall (fun q => p_name q <> "target_return"%string) (w_params w0) ->
    efficient_return sv tg mn w2 o2 = (w3, o3, Ok d) ->
    exists t lb ub, tg = NFloat t /\ bounds_in_force mn o lb ub /\ best_prepared tickers (e_w o) (w_sizes w1) (par_values w0) lb ub (if mn then 0 else 1) steps
      (fun x => t <= inner mu x) (qform V) (e_weights o3) d.
  Proof.
    intros sv mu tg mn w3 o3 d Hsv Hmu Hf H. destruct ready as (u2 & Ho & Hl & Hu & Hc & Hm & Hn2 & Hw & T). rewrite Hmu in Hm.
    destruct (efficient_return_best sv w2 o2 u2 mu tg mn w3 o3 d Hsv Ho Hm (no_name _ Hf) H) as (t & lb & ub & Et & B & Bp). rewrite Hc in Bp.
    exists t, lb, ub. split; [exact Et|]. split; [apply force_same; assumption|apply T; exact Bp].
  Qed.
End EndToEnd.

(** ** parameters of the user with a reserved name *)
Lemma clash_param : forall w o name, (2 <= List.length (filter (named w name) (all_params o)))%nat -> is_parameter_defined name w o = (w, o, Err InstantiationError).
Proof. intros w o name H. unfold is_parameter_defined, bind, get, world_get. destruct (List.length _) as [|[|n]]; [lia|lia|]. reflexivity. Qed.
Lemma clash_one : forall w o name, List.length (filter (named w name) (all_params o)) = 1%nat -> is_parameter_defined name w o = (w, o, Ok true).
Proof. intros w o name H. unfold is_parameter_defined, bind, get, world_get. rewrite H. reflexivity. Qed.
Lemma clash_neutral : forall w o mn, e_mn o = None -> validate_market_neutral mn w o = (w, o, Err InstantiationError).
Proof. intros w o mn H. unfold validate_market_neutral, bind, get. rewrite H. reflexivity. Qed.
Lemma clash_cases : forall w o name, clashes w o name -> is_parameter_defined name w o = (w, o, Err InstantiationError) \/ (is_parameter_defined name w o = (w, o, Ok true) /\ e_mn o = None).
Proof.
  intros w o name [H|[H Hm]]; [left; apply clash_param; exact H|]. destruct (List.length (filter (named w name) (all_params o))) as [|[|n]] eqn:E; [lia| |left; apply clash_param; lia].
  right. split; [apply clash_one; exact E|exact Hm].
Qed.
Theorem clash_utility : forall sv ra mn w o, 0 < ra -> clashes w o "risk_aversion" -> max_quadratic_utility sv ra mn w o = (w, o, Err InstantiationError).
Proof.
  intros sv ra mn w o Hr H. unfold max_quadratic_utility. rewrite (proj2 (Rleb_false ra 0)) by lra. unfold bind at 1.
  destruct (clash_cases _ _ _ H) as [E|[E Hm]]; rewrite E; [reflexivity|]. unfold bind. rewrite clash_neutral by exact Hm. reflexivity.
Qed.
Theorem clash_risk : forall sv pinv tg t mn w o, target_of tg = Some t -> 0 <= t -> below_global_min pinv (e_cov o) t = false -> clashes w o "target_variance" ->
  efficient_risk sv pinv tg mn w o = (w, o, Err InstantiationError).
Proof.
  intros sv pinv tg t mn w o Et Ht Hb H. unfold efficient_risk. rewrite Et. rewrite (proj2 (Rltb_false t 0)) by lra. unfold bind at 1, get. rewrite Hb. unfold bind at 1.
  destruct (clash_cases _ _ _ H) as [E|[E Hm]]; rewrite E; [reflexivity|]. unfold bind. rewrite clash_neutral by exact Hm. reflexivity.
Qed.
Theorem clash_return : forall sv t v mn w o, e_maxret o = Some v -> v <> 0 -> t <= v -> clashes w o "target_return" ->
  efficient_return sv (NFloat t) mn w o = (w, o, Err InstantiationError).
Proof.
  intros sv t v mn w o Ev Hv Ht H. unfold efficient_return, bind at 1, get. rewrite Ev. unfold falsy. assert (Reqb v 0 = false) as -> by (apply Reqb_false; exact Hv).
  unfold when, bind at 1, ret. unfold bind at 1. rewrite Ev. rewrite (proj2 (Rltb_false v t)) by lra. unfold bind at 1.
  destruct (clash_cases _ _ _ H) as [E|[E Hm]]; rewrite E; [reflexivity|]. unfold bind. rewrite clash_neutral by exact Hm. reflexivity.
Qed.
