(** * Further demands never improve an answer (C134) *)
From Coq Require Import ZArith List String Bool Reals Lra Lia.
From Verif Require Import Num Py RBase PyLemmas MBase MConvex MEF MDown SLin SBase SHRP SObj SConvex SDown SCurve SUnique SMore Sums PBase PConvex PObj PRisk PEF PEF2 PEF3 PEF4 PEFW PDown2 PDown4 PDown5 PPerm2 PPerm4 PCurve PDown3 PDown6 PCurve2 PUnique.
Import ListNotations.
Local Open Scope R_scope.

(** ** where tighter problems come from *)
Lemma constraints_added : forall ks w o u w1 o1, open_ef w o u ->
  Forall (fun k => scoped_con (List.length (w_params w)) (k (e_w o))) ks ->
  forM ks (fun k => add_constraint (CFun k)) w o = (w1, o1, Ok tt) ->
  exists u1, open_ef w1 o1 u1 /\ map snd u1 = map snd u ++ map (fun k => k (e_w o)) ks /\ forall mn, tighter mn w o u w1 o1 u1.
Proof.
  induction ks as [|k ks IH]; intros w o u w1 o1 Ho Hk E.
  - cbn in E. injection E as <- <-. exists u. split; [exact Ho|]. split; [rewrite app_nil_r; reflexivity|].
    intros mn. unfold tighter. do 7 (split; [reflexivity|]). split; [apply incl_refl|left; split; reflexivity].
  - inversion Hk as [|? ? Hk1 Hk2]; subst. cbn [forM] in E. unfold bind at 1 in E. rewrite add_constraint_open in E by exact (proj1 Ho).
    pose proof (fun A B => IH _ _ (u ++ [(w_next w, k (e_w o))]) _ _ A B E) as IH'. destruct IH' as [u1 [O1 [M1 T1]]].
    + destruct Ho as (A1 & (i & j & A2) & A3 & A4 & A5 & A6 & A7 & A8 & A9 & A10). split; [exact A1|]. split; [exists i, j; cbn [set_cons e_cons e_lb e_ub e_w]; rewrite A2; reflexivity|].
      split; [exact A3|]. split; [exact A4|]. split; [exact A5|]. split; [exact A6|]. split; [exact A7|]. split; [exact A8|]. split; [exact A9|].
      apply Forall_app. split; [exact A10|constructor; [exact Hk1|constructor]].
    + exact Hk2.
    + exists u1. split; [exact O1|]. split; [rewrite M1, map_app; cbn [map snd set_cons e_w]; rewrite <- app_assoc; reflexivity|].
      intros mn. destruct (T1 mn) as (B1 & B2 & B3 & B4 & B5 & B6 & B7 & B8 & B9).
      split; [exact B1|]. split; [exact B2|]. split; [exact B3|]. split; [exact B4|]. split; [exact B5|]. split; [exact B6|]. split; [exact B7|].
      split; [|exact B9]. intros c Hc. apply B8. rewrite map_app. apply in_or_app. left. exact Hc.
Qed.

Section Core.
  Variables (w : world) (o : ef) (u : list (nat * con)) (w1 : world) (o1 : ef) (u1 : list (nat * con)) (mn : bool).
  Hypothesis Ht : tighter mn w o u w1 o1 u1.
  Lemma same_values : par_values w1 = par_values w.
  Proof. destruct Ht as (_ & B2 & _). unfold par_values. rewrite B2. reflexivity. Qed.
  Lemma same_n : e_n o1 = e_n o.
  Proof. destruct Ht as (_ & _ & _ & B4 & _). unfold e_n. rewrite B4. reflexivity. Qed.
  Lemma tight_adm : forall lb ub lb1 ub1 sum s, bounds_in_force mn o lb ub -> bounds_in_force mn o1 lb1 ub1 ->
    admissible w1 o1 u1 lb1 ub1 sum s -> admissible w o u lb ub sum s /\ meets w o o1 u1 s.
  Proof.
    intros lb ub lb1 ub1 sum s B B1 [As [Aw [At Au]]]. rewrite same_values in Au.
    pose proof Ht as (B1' & _ & Ew & _ & _ & _ & _ & Hi & Hb). rewrite B1' in As. rewrite Ew in Aw, At.
    assert (W : within lb ub (s (e_w o)) /\ (same_bounds o o1 \/ within (e_lb o1) (e_ub o1) (s (e_w o)))).
    { destruct Hb as [[L U]|[M Hn]].
      - split; [|left; split; assumption]. assert (B1s : bounds_in_force mn o lb1 ub1).
        { unfold bounds_in_force in *. rewrite L, U, same_n in B1. exact B1. }
        destruct (in_force_unique _ _ _ _ _ _ B B1s) as [-> ->]. exact Aw.
      - destruct B as [[X _]|[_ [-> ->]]]; [congruence|]. destruct B1 as [[X _]|[_ [-> ->]]]; [congruence|]. split; [apply Hn; exact Aw|right; exact Aw]. }
    split; [|split; [exact Au|exact (proj2 W)]].
    split; [exact As|]. split; [exact (proj1 W)|]. split; [exact At|]. apply Forall_forall. intros ic Hic.
    assert (Hin : In (snd ic) (map snd u1)) by (apply Hi, in_map; exact Hic). apply in_map_iff in Hin. destruct Hin as [jc [Ej Hj]].
    rewrite <- Ej. exact (proj1 (Forall_forall _ _) Au jc Hj).
  Qed.
  Lemma tight_adm_back : forall lb ub lb1 ub1 sum s, bounds_in_force mn o lb ub -> bounds_in_force mn o1 lb1 ub1 ->
    admissible w o u lb ub sum s -> meets w o o1 u1 s -> admissible w1 o1 u1 lb1 ub1 sum s.
  Proof.
    intros lb ub lb1 ub1 sum s B B1 [As [Aw [At Au]]] [Mu Mb].
    pose proof Ht as (B1' & _ & Ew & _ & _ & _ & _ & Hi & Hb). unfold admissible. rewrite same_values, B1', Ew.
    split; [exact As|]. split; [|split; [exact At|exact Mu]].
    assert (Hsame : same_bounds o o1 -> within lb1 ub1 (s (e_w o))).
    { intros [L U]. assert (B1s : bounds_in_force mn o lb1 ub1).
      { unfold bounds_in_force in *. rewrite L, U, same_n in B1. exact B1. }
      destruct (in_force_unique _ _ _ _ _ _ B B1s) as [<- <-]. exact Aw. }
    destruct Hb as [Hs|[M Hn]]; [exact (Hsame Hs)|]. destruct Mb as [Hs|Mb]; [exact (Hsame Hs)|].
    destruct B1 as [[X _]|[_ [-> ->]]]; [congruence|]. exact Mb.
  Qed.

  Definition answer_at (w : world) (o : ef) (u : list (nat * con)) (ok : list R -> Prop) (cost : list R -> R) (ws : option (list R)) (d : dict R) (s : env) : Prop :=
    exists lb ub, bounds_in_force mn o lb ub /\ best_at w o u lb ub (if mn then 0 else 1) ok cost ws d s.

  Variables (ok : list R -> Prop) (cost : list R -> R).
  Lemma force_exists : forall o, exists lb ub, bounds_in_force mn o lb ub.
  Proof.
    intros o0. destruct mn; [|exists (e_lb o0), (e_ub o0); right; auto].
    assert (D : no_short_allowed (e_lb o0) \/ ~ no_short_allowed (e_lb o0)).
    { unfold no_short_allowed. destruct (Forall_dec (fun b : option R => match b with Some l => 0 <= l | None => False end)) with (l := e_lb o0) as [H|H]; [|left; exact H|right; exact H].
      intros [l|]; [destruct (Rle_dec 0 l); auto|auto]. }
    destruct D as [D|D]; [exists (repeat (Some (-1)) (e_n o0)), (repeat (Some 1) (e_n o0)); left; auto|exists (e_lb o0), (e_ub o0); right; auto].
  Qed.
  Lemma still_best : forall ws d s, answer_at w o u ok cost ws d s -> meets w o o1 u1 s -> answer_at w1 o1 u1 ok cost ws d s.
  Proof.
    intros ws d s [lb [ub [B (r & W & F & D & A & O & L)]]] M. destruct (force_exists o1) as [lb1 [ub1 B1]]. exists lb1, ub1. split; [exact B1|].
    pose proof Ht as (B1' & _ & Ew & Eb & _ & _ & Ea & _ & _). exists r. rewrite Ew, Eb, Ea, same_values.
    split; [exact W|]. split; [exact F|]. split; [exact D|]. split; [exact (tight_adm_back _ _ _ _ _ _ B B1 A M)|]. split; [exact O|].
    intros s' A' O'. exact (L s' (proj1 (tight_adm _ _ _ _ _ _ B B1 A')) O').
  Qed.
  Lemma gain_core : forall ws d s ws' d' s', answer_at w o u ok cost ws d s -> answer_at w1 o1 u1 ok cost ws' d' s' ->
    meets w o o1 u1 s' /\ value w o cost s <= value w o cost s' /\ (meets w o o1 u1 s -> value w o cost s' = value w o cost s).
  Proof.
    intros ws d s ws' d' s' A A'. pose proof A as A0. destruct A as [lb [ub [B (r & _ & _ & _ & Ad & O & L)]]].
    destruct A' as [lb1 [ub1 [B1 (r' & _ & _ & _ & Ad' & O' & L')]]].
    pose proof Ht as (_ & _ & Ew & _ & _ & _ & Ea & _ & _). rewrite Ew, Ea, same_values in L'. rewrite Ew in O'.
    destruct (tight_adm _ _ _ _ _ _ B B1 Ad') as [Q M']. split; [exact M'|]. unfold value.
    pose proof (L s' Q O') as Le. split; [exact Le|]. intros M.
    pose proof (L' s (tight_adm_back _ _ _ _ _ _ B B1 Ad M) O). lra.
  Qed.

  Variables before after : world * ef * res (dict R).
  Hypothesis Hb : forall w' o' d, before = (w', o', Ok d) -> answer w o u mn ok cost (e_weights o') d.
  Hypothesis Ha : forall w' o' d, after = (w', o', Ok d) -> answer w1 o1 u1 mn ok cost (e_weights o') d.
  Lemma no_gain_from : no_gain w o o1 u1 cost before after.
  Proof.
    destruct before as [[wb ob] [db|eb]]; destruct after as [[wa oa] [da|ea]]; cbn [no_gain]; try exact I.
    destruct (Hb _ _ _ eq_refl) as [lb [ub [B [s A]]]]. destruct (Ha _ _ _ eq_refl) as [lb1 [ub1 [B1 [s' A']]]].
    exists s, s'. destruct (gain_core (e_weights ob) db s (e_weights oa) da s') as [M [V1 V2]]; [exists lb, ub; auto|exists lb1, ub1; auto|].
    destruct A as (r & W & F & D & _). destruct A' as (r' & W' & F' & D' & _). pose proof Ht as (_ & _ & Ew & Eb & _). rewrite Ew in F'. rewrite Eb in D'.
    split; [exists r; auto|]. split; [exists r'; auto|]. auto.
  Qed.
  Hypothesis Hp : convex_problem w1 o1 u1.
  Hypothesis Hok : convex_set o1 ok.
  Hypothesis Hd : decides w1 o1 cost.
  Lemma idle_from : idle w o o1 u1 before after.
  Proof.
    destruct before as [[wb ob] [db|eb]]; destruct after as [[wa oa] [da|ea]]; cbn [idle]; try exact I.
    destruct (Hb _ _ _ eq_refl) as [lb [ub [B [s A]]]]. pose proof (Ha _ _ _ eq_refl) as A'.
    exists s. split; [destruct A as (r & W & F & D & _); exists r; auto|]. intros M. cbn [same_answer].
    destruct (still_best (e_weights ob) db s) as [lb1 [ub1 [B1 S]]]; [exists lb, ub; auto|exact M|].
    apply (answer_unique w1 o1 u1 mn ok cost Hp Hok Hd); [exists lb1, ub1; split; [exact B1|exists s; exact S]|exact A'].
  Qed.
End Core.

Lemma forM_app : forall S X (l l' : list X) (f : X -> M S unit) w o, forM (l ++ l') f w o = bind (forM l f) (fun _ => forM l' f) w o.
Proof.
  intros S X l l' f. induction l as [|x l IH]; intros w o; [reflexivity|]. cbn [forM app]. unfold bind in *.
  destruct (f x w o) as [[w1 o1] [t|e]]; [apply IH|reflexivity].
Qed.
Lemma forM_map : forall S X Y (g : X -> Y) (l : list X) (f : Y -> M S unit) w o, forM (map g l) f w o = forM l (fun x => f (g x)) w o.
Proof.
  intros S X Y g l f. induction l as [|x l IH]; intros w o; [reflexivity|]. cbn [forM map]. unfold bind in *.
  destruct (f (g x) w o) as [[w1 o1] [t|e]]; [apply IH|reflexivity].
Qed.
Lemma sectors_added : forall mapper lower upper w o u w1 o1, open_ef w o u -> add_sector_constraints mapper lower upper w o = (w1, o1, Ok tt) ->
  exists u1, open_ef w1 o1 u1 /\ forall mn, tighter mn w o u w1 o1 u1.
Proof.
  intros mapper lower upper w o u w1 o1 Ho E.
  set (up := fun su : string * R => fun v => CIneq (ESum (EIndex (sector_ix (b_tickers (e_base o)) mapper (fst su)) (EVar v))) (EScalar (snd su))).
  set (lo := fun sl : string * R => fun v => CIneq (EScalar (snd sl)) (ESum (EIndex (sector_ix (b_tickers (e_base o)) mapper (fst sl)) (EVar v)))).
  assert (E' : forM (map up upper ++ map lo lower) (fun k => add_constraint (CFun k)) w o = (w1, o1, Ok tt)).
  { rewrite forM_app. unfold bind at 1. rewrite forM_map. unfold add_sector_constraints in E. unfold bind at 1, get in E. unfold bind at 1 in E.
    unfold up. destruct (forM upper _ w o) as [[w2 o2] [t|e]]; [|discriminate E]. rewrite forM_map. exact E. }
  pose proof (fun A => constraints_added _ _ _ _ _ _ Ho A E') as X. destruct X as [u1 [O [_ T]]].
  - apply Forall_app. split; apply Forall_map, Forall_forall; intros; unfold scoped_con; cbn; constructor.
  - exists u1. auto.
Qed.
Lemma bounds_narrowed : forall m c b b1 v w o w1 o1, ef_init m (CIn c) b v = (w, Ok o) -> ef_init m (CIn c) b1 v = (w1, Ok o1) ->
  (forall x, within (e_lb o1) (e_ub o1) x -> within (e_lb o) (e_ub o) x) -> tighter false w o [] w1 o1 [].
Proof.
  intros m c b b1 v w o w1 o1 E E1 H. destruct (ef_init_inv _ _ _ _ _ _ E) as (mm & lb & ub & Em & _ & _ & -> & ->).
  destruct (ef_init_inv _ _ _ _ _ _ E1) as (mm' & lb' & ub' & Em' & _ & _ & -> & ->). rewrite Em in Em'. injection Em' as <-.
  unfold tighter. do 7 (split; [reflexivity|]). split; [apply incl_refl|]. right. split; [reflexivity|exact H].
Qed.

Section MeanVariance.
  Variables (w : world) (o : ef) (u : list (nat * con)) (w1 : world) (o1 : ef) (u1 : list (nat * con)) (sv sv' : solver_t).
  Hypothesis Ho : open_ef w o u.
  Hypothesis Ho1 : open_ef w1 o1 u1.
  Hypothesis Hsv : exact_solver sv.
  Hypothesis Hsv' : exact_solver sv'.

  Lemma minvol_answer : forall sv w o u w' o' d, exact_solver sv -> open_ef w o u -> min_volatility sv w o = (w', o', Ok d) ->
    answer w o u false (fun _ => True) (qform (e_cov o)) (e_weights o') d.
  Proof.
    intros v w0 o0 u0 w' o' d X Y E. exists (e_lb o0), (e_ub o0). split; [right; auto|]. exact (min_volatility_best v w0 o0 u0 w' o' d X Y E).
  Qed.
  Lemma more_min_volatility : tighter false w o u w1 o1 u1 ->
    no_gain w o o1 u1 (qform (e_cov o)) (min_volatility sv w o) (min_volatility sv' w1 o1) /\
    (convex_problem w1 o1 u1 -> definite (e_n o) (e_cov o) \/ psd (e_n o) (e_cov o) /\ regularised w1 o1 -> idle w o o1 u1 (min_volatility sv w o) (min_volatility sv' w1 o1)).
  Proof.
    intros Ht. pose proof (same_n _ _ _ _ _ _ _ Ht) as En. pose proof Ht as (_ & _ & _ & _ & Ec & _).
    assert (Hb : forall w' o' d, min_volatility sv w o = (w', o', Ok d) -> answer w o u false (fun _ => True) (qform (e_cov o)) (e_weights o') d)
      by (intros w' o' d E; exact (minvol_answer _ _ _ _ _ _ _ Hsv Ho E)).
    assert (Ha : forall w' o' d, min_volatility sv' w1 o1 = (w', o', Ok d) -> answer w1 o1 u1 false (fun _ => True) (qform (e_cov o)) (e_weights o') d)
      by (rewrite <- Ec; intros w' o' d E; exact (minvol_answer _ _ _ _ _ _ _ Hsv' Ho1 E)).
    split; [exact (no_gain_from w o u w1 o1 u1 false Ht (fun _ => True) _ _ _ Hb Ha)|]. intros Hp Hd.
    apply (idle_from w o u w1 o1 u1 false Ht (fun _ => True) (qform (e_cov o)) _ _ Hb Ha Hp (set_true o1)). rewrite <- Ec. apply decides_qform. rewrite En, Ec. exact Hd.
  Qed.

  Variables (mn : bool) (m : list R).
  Hypothesis Ht : tighter mn w o u w1 o1 u1.
  Hypothesis Hm : e_mu o = Some m.
  Lemma Hm1 : e_mu o1 = Some m.
  Proof. destruct Ht as (_ & _ & _ & _ & _ & Em & _). congruence. Qed.
  Lemma Ec : e_cov o1 = e_cov o. Proof. destruct Ht as (_ & _ & _ & _ & Ec & _). exact Ec. Qed.

  Lemma more_utility : forall ra, fresh_name w o "risk_aversion" -> fresh_name w1 o1 "risk_aversion" ->
    no_gain w o o1 u1 (fun x => - (inner m x - ra / 2 * qform (e_cov o) x)) (max_quadratic_utility sv ra mn w o) (max_quadratic_utility sv' ra mn w1 o1) /\
    (convex_problem w1 o1 u1 -> definite (e_n o) (e_cov o) \/ psd (e_n o) (e_cov o) /\ regularised w1 o1 ->
       idle w o o1 u1 (max_quadratic_utility sv ra mn w o) (max_quadratic_utility sv' ra mn w1 o1)).
  Proof.
    intros ra Hf Hf1. pose proof (same_n _ _ _ _ _ _ _ Ht) as En.
    assert (Hb : forall w' o' d, max_quadratic_utility sv ra mn w o = (w', o', Ok d) -> 0 < ra /\ answer w o u mn (fun _ => True) (fun x => - (inner m x - ra / 2 * qform (e_cov o) x)) (e_weights o') d)
      by (intros w' o' d E; exact (utility_best sv w o u m ra mn w' o' d Hsv Ho Hm Hf E)).
    assert (Ha : forall w' o' d, max_quadratic_utility sv' ra mn w1 o1 = (w', o', Ok d) -> 0 < ra /\ answer w1 o1 u1 mn (fun _ => True) (fun x => - (inner m x - ra / 2 * qform (e_cov o) x)) (e_weights o') d)
      by (rewrite <- Ec; intros w' o' d E; exact (utility_best sv' w1 o1 u1 m ra mn w' o' d Hsv' Ho1 Hm1 Hf1 E)).
    split; [exact (no_gain_from w o u w1 o1 u1 mn Ht (fun _ => True) _ _ _ (fun a b c E => proj2 (Hb a b c E)) (fun a b c E => proj2 (Ha a b c E)))|]. intros Hp Hd.
    destruct (max_quadratic_utility sv ra mn w o) as [[wb ob] [db|eb]]; [|exact I].
    apply (idle_from w o u w1 o1 u1 mn Ht (fun _ => True) (fun x => - (inner m x - ra / 2 * qform (e_cov o) x)) _ _ (fun a b c E => proj2 (Hb a b c E)) (fun a b c E => proj2 (Ha a b c E)) Hp (set_true o1)).
    rewrite <- Ec. apply decides_utility; [exact (proj1 (Hb _ _ _ eq_refl))|]. rewrite En, Ec. exact Hd.
  Qed.
  Lemma more_return : forall t, fresh_name w o "target_return" -> fresh_name w1 o1 "target_return" ->
    no_gain w o o1 u1 (qform (e_cov o)) (efficient_return sv (NFloat t) mn w o) (efficient_return sv' (NFloat t) mn w1 o1) /\
    (convex_problem w1 o1 u1 -> definite (e_n o) (e_cov o) \/ psd (e_n o) (e_cov o) /\ regularised w1 o1 ->
       idle w o o1 u1 (efficient_return sv (NFloat t) mn w o) (efficient_return sv' (NFloat t) mn w1 o1)).
  Proof.
    intros t Hf Hf1. pose proof (same_n _ _ _ _ _ _ _ Ht) as En.
    assert (Hb : forall w' o' d, efficient_return sv (NFloat t) mn w o = (w', o', Ok d) -> answer w o u mn (fun x => t <= inner m x) (qform (e_cov o)) (e_weights o') d).
    { intros w' o' d E. destruct (efficient_return_best sv w o u m (NFloat t) mn w' o' d Hsv Ho Hm Hf E) as [t' [lb [ub [T X]]]]. injection T as <-. exists lb, ub. exact X. }
    assert (Ha : forall w' o' d, efficient_return sv' (NFloat t) mn w1 o1 = (w', o', Ok d) -> answer w1 o1 u1 mn (fun x => t <= inner m x) (qform (e_cov o)) (e_weights o') d).
    { rewrite <- Ec. intros w' o' d E. destruct (efficient_return_best sv' w1 o1 u1 m (NFloat t) mn w' o' d Hsv' Ho1 Hm1 Hf1 E) as [t' [lb [ub [T X]]]]. injection T as <-. exists lb, ub. exact X. }
    split; [exact (no_gain_from w o u w1 o1 u1 mn Ht (fun x => t <= inner m x) _ _ _ Hb Ha)|]. intros Hp Hd.
    apply (idle_from w o u w1 o1 u1 mn Ht _ _ _ _ Hb Ha Hp (set_above o1 m t)). rewrite <- Ec. apply decides_qform. rewrite En, Ec. exact Hd.
  Qed.
  Lemma more_risk : forall pinv pinv' t, fresh_name w o "target_variance" -> fresh_name w1 o1 "target_variance" ->
    no_gain w o o1 u1 (fun x => - inner m x) (efficient_risk sv pinv (NFloat t) mn w o) (efficient_risk sv' pinv' (NFloat t) mn w1 o1) /\
    (convex_problem w1 o1 u1 -> psd (e_n o) (e_cov o) -> regularised w1 o1 ->
       idle w o o1 u1 (efficient_risk sv pinv (NFloat t) mn w o) (efficient_risk sv' pinv' (NFloat t) mn w1 o1)).
  Proof.
    intros pinv pinv' t Hf Hf1. pose proof (same_n _ _ _ _ _ _ _ Ht) as En.
    assert (Hb : forall w' o' d, efficient_risk sv pinv (NFloat t) mn w o = (w', o', Ok d) -> answer w o u mn (fun x => qform (e_cov o) x <= t * t) (fun x => - inner m x) (e_weights o') d).
    { intros w' o' d E. destruct (efficient_risk_best sv pinv w o u m (NFloat t) mn w' o' d Hsv Ho Hm Hf E) as [t' [lb [ub [T [_ X]]]]]. injection T as <-. exists lb, ub. exact X. }
    assert (Ha : forall w' o' d, efficient_risk sv' pinv' (NFloat t) mn w1 o1 = (w', o', Ok d) -> answer w1 o1 u1 mn (fun x => qform (e_cov o) x <= t * t) (fun x => - inner m x) (e_weights o') d).
    { rewrite <- Ec. intros w' o' d E. destruct (efficient_risk_best sv' pinv' w1 o1 u1 m (NFloat t) mn w' o' d Hsv' Ho1 Hm1 Hf1 E) as [t' [lb [ub [T [_ X]]]]]. injection T as <-. exists lb, ub. exact X. }
    split; [exact (no_gain_from w o u w1 o1 u1 mn Ht (fun x => qform (e_cov o) x <= t * t) _ _ _ Hb Ha)|]. intros Hp HP HR.
    apply (idle_from w o u w1 o1 u1 mn Ht _ _ _ _ Hb Ha Hp).
    - apply set_below, qform_convex. rewrite En. exact HP.
    - apply regular_decides; [apply linear_convex|exact HR].
  Qed.
End MeanVariance.

(** ** max_sharpe *)
Lemma more_sharpe : forall w o u w1 o1 u1 sv sv' r m, exact_solver sv -> exact_solver sv' -> open_ef w o u -> open_ef w1 o1 u1 -> tighter false w o u w1 o1 u1 ->
  e_mu o = Some m -> e_add o = [] -> psd (e_n o) (e_cov o) ->
  Forall (fun ic => constant_on_one_side (e_w o) (snd ic)) u1 -> Forall (fun ic => known_vars (List.length (w_sizes w)) (snd ic)) u1 ->
  no_ratio_gain w o o1 u1 m r (max_sharpe sv (NFloat r) w o) (max_sharpe sv' (NFloat r) w1 o1) /\
  (definite (e_n o) (e_cov o) -> Forall (fun ic => convex_con (w_sizes w) (par_values w) (snd ic)) u1 ->
     idle w o o1 u1 (max_sharpe sv (NFloat r) w o) (max_sharpe sv' (NFloat r) w1 o1)).
Proof.
  intros w o u w1 o1 u1 sv sv' r m Hsv Hsv' Ho Ho1 Ht Hm Ha HP H1 Hk.
  pose proof (same_n _ _ _ _ _ _ _ Ht) as En. pose proof (same_values _ _ _ _ _ _ _ Ht) as Ev.
  pose proof Ht as (Es & _ & Ew & Eb & Ec & Em & Ea & Hi & Hbd).
  assert (Sub : forall (P : con -> Prop), Forall (fun ic => P (snd ic)) u1 -> Forall (fun ic => P (snd ic)) u).
  { intros P H. apply Forall_forall. intros ic Hic. assert (Hin : In (snd ic) (map snd u1)) by (apply Hi, in_map; exact Hic). apply in_map_iff in Hin.
    destruct Hin as [jc [Ej Hj]]. rewrite <- Ej. exact (proj1 (Forall_forall _ _) H jc Hj). }
  assert (Before : forall w' o' d, max_sharpe sv (NFloat r) w o = (w', o', Ok d) -> exists s, reported o s o' d /\ admissible w o u (e_lb o) (e_ub o) 1 s /\ 0 < excess m r (s (e_w o)) /\
      forall s', admissible w o u (e_lb o) (e_ub o) 1 s' -> excess m r (s' (e_w o)) * sqrt (qform (e_cov o) (s (e_w o))) <= excess m r (s (e_w o)) * sqrt (qform (e_cov o) (s' (e_w o)))).
  { intros w' o' d E. destruct (max_sharpe_best sv w o u (NFloat r) w' o' d Hsv Ho Ha HP (Sub _ H1) (Sub _ Hk) E) as [m' [r' [X [Y [s [rr [W [F [D [A [P B]]]]]]]]]]].
    rewrite Hm in X. injection X as <-. injection Y as <-. exists s. split; [exists rr; auto|]. auto. }
  assert (After : forall w' o' d, max_sharpe sv' (NFloat r) w1 o1 = (w', o', Ok d) -> exists s, reported o s o' d /\ admissible w1 o1 u1 (e_lb o1) (e_ub o1) 1 s /\ 0 < excess m r (s (e_w o)) /\
      forall s', admissible w1 o1 u1 (e_lb o1) (e_ub o1) 1 s' -> excess m r (s' (e_w o)) * sqrt (qform (e_cov o) (s (e_w o))) <= excess m r (s (e_w o)) * sqrt (qform (e_cov o) (s' (e_w o)))).
  { intros w' o' d E. destruct (max_sharpe_best sv' w1 o1 u1 (NFloat r) w' o' d Hsv' Ho1) as [m' [r' [X [Y [s [rr [W [F [D [A [P B]]]]]]]]]]];
      [congruence|rewrite En, Ec; exact HP|rewrite Ew; exact H1|rewrite Es; exact Hk|exact E|].
    assert (X' : m' = m) by congruence. subst m'. injection Y as <-. rewrite Ew, Ec in *. rewrite Eb in D. exists s. split; [exists rr; auto|]. auto. }
  assert (F : bounds_in_force false o (e_lb o) (e_ub o)) by (right; auto). assert (F1 : bounds_in_force false o1 (e_lb o1) (e_ub o1)) by (right; auto).
  destruct (max_sharpe sv (NFloat r) w o) as [[wb ob] [db|eb]]; [|split; [exact I|intros; exact I]].
  destruct (max_sharpe sv' (NFloat r) w1 o1) as [[wa oa] [da|ea]]; [|split; [exact I|intros; exact I]].
  destruct (Before _ _ _ eq_refl) as [s [R [A [P B]]]]. destruct (After _ _ _ eq_refl) as [s' [R' [A' [P' B']]]].
  destruct (tight_adm w o u w1 o1 u1 false Ht _ _ _ _ _ _ F F1 A') as [Q M']. split.
  - exists s, s'. split; [exact R|]. split; [exact R'|]. split; [exact M'|]. cbv zeta. pose proof (B _ Q) as Le. split; [exact Le|]. intros Ms.
    pose proof (B' _ (tight_adm_back w o u w1 o1 u1 false Ht _ _ _ _ _ _ F F1 A Ms)). lra.
  - intros HD Hcx. exists s. split; [exact R|]. intros Ms. pose proof (B' _ (tight_adm_back w o u w1 o1 u1 false Ht _ _ _ _ _ _ F F1 A Ms)) as Bs.
    assert (Hp : convex_problem w o u) by (split; [exact Ho|split; [exact (Sub _ Hcx)|rewrite Ha; constructor]]).
    assert (E : s (e_w o) = s' (e_w o)).
    { apply (ratio_unique (e_n o) (e_cov o) m r); try assumption.
      - exact (adm_length w o u _ _ _ Hp s A).
      - exact (adm_length w o u _ _ _ Hp s' Q).
      - exact (proj1 (proj2 (proj2 A))).
      - exact (proj1 (proj2 (proj2 Q))).
      - intros k Hkk z. exact (B _ (adm_mix w o u _ _ _ Hp s s' k Hkk A Q)). }
    destruct R as (q & W1 & F2 & D1). destruct R' as (q' & W2 & F2' & D2). rewrite <- E in F2'. pose proof (rounded_list_unique _ _ _ F2 F2'). subst.
    cbn [same_answer]. rewrite W1, W2. split; reflexivity.
Qed.
