(** * Views rescaled, repeated, and given as a dictionary (C122) *)
From Coq Require Import List Reals Lra Lia Arith Bool Permutation FinFun.
From Verif Require Import Num Py RBase PyLemmas MBase SLin SBL Sums Mat MRisk MBL PCov1 PCov2 PHRP2 PBL1 PBL2 PBL3 PBL4 PBL5 PBL6 PBL8 PBL9 SViews PViews1 PViews2 PViews3.
Import ListNotations.
Local Open Scope R_scope.

(** ** Uncertain views: the system is solved exactly apart from views on portfolios without risk *)
Lemma masked_solution : forall n k o f, regular n k o -> (forall x a, (a < k)%nat -> app k (entry (bl_omega o)) x a = f a * x a) ->
  (forall a, (a < k)%nat -> 0 <= f a) -> (forall a, (a < k)%nat -> f a = 0 -> bil n (oS o) (entry (bl_P o) a) (entry (bl_P o) a) = 0) ->
  forall s, (forall a, (a < k)%nat -> app k (oA o) (fun c => app k (oA o) s c - ob o c) a = 0) ->
  forall a, (a < k)%nat -> app k (oA o) s a = if Reqb (f a) 0 then 0 else ob o a.
Proof.
  intros n k o f Hr Hf Hf0 Hfz s Hs a Ha. pose proof (oS_sym n k o Hr) as SS. pose proof (oS_psd n k o Hr) as SP.
  destruct (Reqb (f a) 0) eqn:E.
  - apply Reqb_true in E. rewrite (oA_core n k o Hr), A_apply. rewrite Hf, E by exact Ha.
    assert (Z : app n (entry (bl_P o)) (app n (oS o) (rows k (entry (bl_P o)) s)) a = 0); [|lra].
    change (sumn n (fun j => entry (bl_P o) a j * app n (oS o) (rows k (entry (bl_P o)) s) j) = 0). rewrite <- bil_app.
    rewrite bil_sym by exact SS. apply null_bil; [exact SP|exact SS|exact (Hfz a Ha E)].
  - apply Reqb_false in E. set (r := fun c => app k (oA o) s c - ob o c) in *.
    assert (B : bil k (oA o) r r = 0) by (rewrite bil_app; apply sumn_zero; intros c Hc; rewrite Hs by exact Hc; ring).
    rewrite (oA_core n k o Hr), A_bil in B. pose proof (SP (rows k (entry (bl_P o)) r)). pose proof (oOm_psd n k o Hr r).
    assert (B0 : bil k (entry (bl_omega o)) r r = 0) by lra. rewrite bil_app in B0.
    rewrite (sumn_ext k _ (fun c => f c * (r c * r c))) in B0 by (intros c Hc; rewrite Hf by exact Hc; ring).
    assert (Hn : forall c, (c < k)%nat -> 0 <= f c * (r c * r c)) by (intros c Hc; apply Rmult_le_pos; [apply Hf0, Hc|apply Rle_0_sqr]).
    pose proof (sumn_term_le k (fun c => f c * (r c * r c)) a Hn Ha) as L. cbv beta in L. rewrite B0 in L. pose proof (Hn a Ha).
    assert (Z : f a * (r a * r a) = 0) by lra. destruct (Rmult_integral _ _ Z) as [Z1|Z1]; [contradiction|].
    assert (r a = 0) by (destruct (Rmult_integral _ _ Z1); assumption). unfold r in *. lra.
Qed.

Lemma scaled_length : forall c x, length c = length x -> length (scaled c x) = length x.
Proof. induction c as [|a c IH]; intros [|b x] H; cbn in *; try discriminate; try reflexivity. f_equal. apply IH. congruence. Qed.
Lemma scaled_vec : forall c x i, length c = length x -> vec (scaled c x) i = vec c i * vec x i.
Proof.
  unfold vec. induction c as [|a c IH]; intros [|b x] i H; cbn in *; try discriminate; [destruct i; ring|]. destruct i; [reflexivity|]. apply IH. congruence.
Qed.
Lemma scaled_rows_shaped : forall c k n M, length c = k -> shaped k n M -> shaped k n (scaled_rows c M).
Proof.
  intros c k n M H [L HF]. assert (HL : length c = length M) by congruence. clear H. split; [rewrite <- L; clear L HF; revert M HL; induction c as [|a c IH]; intros [|r M] HL; cbn in *; try discriminate; auto|].
  clear L. revert M HL HF. induction c as [|a c IH]; intros [|r M] HL HF; cbn in *; try discriminate; [constructor|]. inversion HF; subst. constructor; [apply map_length|]. apply IH; auto.
Qed.
Lemma scaled_rows_entry : forall c M i j, length c = length M -> entry (scaled_rows c M) i j = vec c i * entry M i j.
Proof.
  unfold vec, entry. induction c as [|a c IH]; intros [|r M] i j H; cbn in *; try discriminate; [destruct i, j; cbn; ring|]. destruct i; [|apply IH; congruence].
  rewrite <- (Rmult_0_r a) at 1. apply (map_nth (Rmult a)).
Qed.

Theorem rescaled : forall la a Q P om c o cs, exact_linalg la -> bl_init (with_views a Q P om c) = Ok o ->
  psd (bl_n o) (bl_sigma o) -> symmetric (bl_n o) (bl_sigma o) ->
  om = OmDefault \/ (om = OmIdzorek /\ forall i, (i < length Q)%nat -> 0 < nth i (conf_list c) 0) ->
  length cs = length Q -> Forall (fun x => x <> 0) cs ->
  exists o', bl_init (with_views a (scaled cs Q) (scaled_rows cs P) om c) = Ok o' /\ same_covariance la o o' /\
    (answerable o \/ uncertain om c (length Q) -> same_returns la o o').
Proof.
  intros la a Q P om c o cs Hla H Hp Hs Hom Lc Hc. pose proof (init_views _ _ H) as HV. unfold views_of in HV. cbn in HV. injection HV as EQ EP.
  pose proof (init_wf _ _ H) as W. set (n := bl_n o) in *. set (k := length Q) in *.
  assert (Hk : length (bl_Q o) = k) by (rewrite <- EQ; reflexivity). rewrite Hk in W.
  assert (HPs : shaped k n P) by (rewrite EP; apply (wf_P n k o W)).
  assert (LQ : length (scaled cs Q) = k) by (apply scaled_length; exact Lc).
  assert (HP' : shaped k n (scaled_rows cs P)) by (apply scaled_rows_shaped; assumption).
  assert (LP : length cs = length P) by (rewrite Lc; symmetry; apply HPs).
  assert (Hcn : forall x, (x < k)%nat -> vec cs x <> 0) by (intros x Hx; rewrite Forall_forall in Hc; apply Hc, nth_In; rewrite Lc; exact Hx).
  assert (HVV : forall x, (x < k)%nat -> view_variance n (bl_sigma o) (scaled_rows cs P) x x = vec cs x * vec cs x * view_variance n (bl_sigma o) P x x).
  { intros x Hx. apply view_variance_mono. intros j _. apply scaled_rows_entry, LP. }
  assert (Hsf : scale_free (with_views a Q P om c) (length (bl_Q o))) by (rewrite Hk; exact Hom).
  set (f := fun i => bl_tau o * rel_omega (with_views a Q P om c) n (bl_sigma o) P i).
  assert (EO : bl_omega o = diag_matrix k f) by (rewrite (omega_scale_free _ _ H Hsf), Hk, <- EP; reflexivity).
  assert (Hf0 : forall i, (i < k)%nat -> 0 <= f i).
  { intros i Hi. unfold f. apply Rmult_le_pos; [pose proof (wf_tau n k o W); lra|]. unfold n. rewrite EP. apply (rel_omega_nonneg _ _ H Hsf Hp). rewrite Hk. exact Hi. }
  assert (Hkind : om = OmDefault \/ om = OmIdzorek) by (destruct Hom as [E|[E _]]; auto).
  pose proof (init_regular _ _ H Hkind Hp Hs) as Hr. fold n in Hr. rewrite Hk in Hr.
  pose proof (rg_omega _ _ _ Hr) as Hop. pose proof (rg_omega_sym _ _ _ Hr) as Hos.
  set (Om' := diag_matrix k (fun i => vec cs i * vec cs i * f i)).
  assert (HO1 : set_omega n (bl_sigma o) (scaled cs Q) (scaled_rows cs P) (bl_tau o) om c = Ok Om').
  { destruct (bl_init_inv _ _ H) as (_ & _ & _ & _ & _ & _ & _ & _ & _ & _ & HO & _). pose proof (omega_inv _ _ H) as HI. cbn [with_views a_omega a_conf] in HO, HI.
    rewrite Hk in HI. fold n in HI.
    assert (HD : forall g, (forall x, (x < k)%nat -> g x = vec cs x * vec cs x * f x) -> diag_matrix k g = Om').
    { intros g Hg. unfold Om', diag_matrix, array. apply map_ext_in. intros x Hx. apply map_ext_in. intros y _. apply in_seq in Hx. destruct (Nat.eqb x y); [apply Hg; lia|reflexivity]. }
    unfold set_omega. cbv zeta. rewrite LQ. destruct Hom as [->|[-> Hpos]].
    - cbn [rbind]. unfold default_omega. rewrite HD; [unfold Om'; rewrite diag_shape; reflexivity|]. intros x Hx. rewrite HVV by exact Hx. unfold f, rel_omega. cbn [with_views a_omega]. ring.
    - destruct (idzorek_inv _ _ _ _ _ _ _ HI) as (HL & HR & _). pose proof (idzorek_conv n k (bl_sigma o) (scaled_rows cs P) (bl_tau o) _ HL HR) as EI. rewrite HD in EI.
      + assert (EC : match c with ConfNone => Err ValueError | ConfList q => if Nat.eqb (length q) k then Ok q else Err ValueError | ConfArr q => Ok q end = Ok (conf_list c)).
        { unfold set_omega in HO. cbv zeta in HO. rewrite <- EQ in HO. fold k in HO. destruct c as [|q|q]; [discriminate HO| |reflexivity]. cbn [rbind conf_list] in *. destruct (Nat.eqb (length q) k); [reflexivity|discriminate HO]. }
        rewrite EC. cbn [rbind]. rewrite EI. cbn [rbind]. unfold Om'. rewrite diag_shape. reflexivity.
      + intros x Hx. specialize (Hpos x Hx). rewrite (proj2 (Reqb_false (nth x (conf_list c) 0) 0)) by lra. rewrite HVV by exact Hx.
        unfold f, rel_omega. cbn [with_views a_omega a_conf]. ring. }
  assert (HO2 : shaped k k Om') by (apply square_shaped, diag_square).
  set (D := mono (vec cs) (fun x => x)).
  assert (FQ : forall x, (x < k)%nat -> vec (scaled cs Q) x = app k D (vec (bl_Q o)) x).
  { intros x Hx. unfold D. rewrite mono_app by exact Hx. rewrite scaled_vec by exact Lc. rewrite EQ. reflexivity. }
  assert (FP : forall x j, (x < k)%nat -> (j < n)%nat -> entry (scaled_rows cs P) x j = sumn k (fun b => D x b * entry (bl_P o) b j)).
  { intros x j Hx Hj. unfold D. rewrite (mono_P k _ _ (entry (bl_P o))) by exact Hx. rewrite scaled_rows_entry by exact LP. rewrite EP. reflexivity. }
  assert (FO : forall x y, (x < k)%nat -> (y < k)%nat -> entry Om' x y = sumn k (fun i => D x i * sumn k (fun j => entry (bl_omega o) i j * D y j))).
  { intros x y Hx Hy. unfold D. rewrite mono_O by assumption. unfold Om'. rewrite EO, !diag_entry by assumption. destruct (Nat.eqb_spec x y) as [->|_]; ring. }
  assert (FI : forall x, (forall i, (i < k)%nat -> app k D x i = 0) -> forall b, (b < k)%nat -> x b = 0).
  { apply mono_inj; [intros x Hx; split; [exact Hx|apply Hcn, Hx]|]. intros b Hb. exists b. auto. }
  eexists. split; [|split].
  - apply (init_change _ o _ (scaled cs Q) (scaled_rows cs P) Om' H); [reflexivity|reflexivity|rewrite LQ; exact HP'|exact HO1].
  - apply (pair_cov la _ o _ _ _ D Hla H); rewrite ?Hk, ?LQ; assumption.
  - intros [Ha|Hu]; [apply (pair_returns la _ o _ _ _ D Hla H); rewrite ?Hk, ?LQ; assumption|].
    set (o' := mkBL (bl_base o) (bl_sigma o) (bl_n o) (scaled cs Q) (scaled_rows cs P) (bl_pi o) Om' (bl_tau o) (bl_ra o) None None None None).
    assert (W' : wf n k o').
    { constructor; unfold o'; cbn; try apply W; try reflexivity; try assumption. }
    assert (Hca : caches_ok la o) by exact (init_caches la _ o H).
    assert (Hca' : caches_ok la o') by (unfold caches_ok, o'; cbn; auto).
    assert (Hr' : regular n k o') by exact (restated_regular n k k o o' D Hr W' eq_refl FO).
    assert (Hz : forall i, (i < k)%nat -> f i = 0 -> bil n (oS o) (entry (bl_P o) i) (entry (bl_P o) i) = 0).
    { intros i Hi E. rewrite oS_bil. rewrite <- view_variance_bil. unfold f, rel_omega in E. cbn [with_views a_omega a_conf] in E. rewrite <- EP.
      destruct Hom as [->|[-> Hpos]]; [exact E|]. destruct Hu as [Hu|Hu]; [discriminate|]. specialize (Hpos i Hi). specialize (Hu i Hi).
      set (ci := nth i (conf_list c) 0) in *. assert (0 < idz ci) by (unfold idz; apply Rdiv_lt_0_compat; lra).
      pose proof (wf_tau n k o W). assert (Z : bl_tau o * idz ci * view_variance n (bl_sigma o) P i i = 0) by lra.
      destruct (Rmult_integral _ _ Z) as [Z1|Z1]; [|rewrite Z1; ring]. exfalso. assert (0 < bl_tau o * idz ci) by (apply Rmult_lt_0_compat; lra). lra. }
    apply (pair_weights la _ o _ _ _ Hla H); rewrite ?Hk, ?LQ; try assumption.
    destruct (returns_char la n k o Hla Hr Hca) as (s & Hsn & _ & HL & Hv).
    destruct (returns_char la n k o' Hla Hr' Hca') as (s' & Hsn' & _ & HL' & Hv'). fold o'.
    apply (vec_ext n); [exact HL'|exact HL|]. intros i Hi. rewrite Hv, Hv' by exact Hi. change (bl_pi o') with (bl_pi o). f_equal.
    rewrite (oT_same n k k o o' D Hr W' eq_refl eq_refl FO). rewrite (oT_core n k o Hr).
    set (b := fun x => if Reqb (f x) 0 then 0 else ob o x).
    apply (same_solution n k k (oS o) (entry (bl_P o)) (entry (bl_omega o)) (entry (scaled_rows cs P)) (entry Om') D
      (oS_sym n k o Hr) (oS_psd n k o Hr) (oOm_psd n k o Hr) FP FO FI b); [| |exact Hi].
    + intros x Hx. rewrite <- (oA_core n k o Hr). apply (masked_solution n k o f Hr); try assumption. intros y z Hy. rewrite EO. apply diag_app, Hy.
    + intros x Hx. change (entry (scaled_rows cs P)) with (entry (bl_P o')). change (entry Om') with (entry (bl_omega o')).
      rewrite <- (oA_same n k k o o' D Hr W' eq_refl eq_refl FO).
      rewrite (masked_solution n k o' (fun i => vec cs i * vec cs i * f i) Hr'); try assumption.
      * unfold D. rewrite mono_app by exact Hx. unfold b. pose proof (Hcn x Hx) as Hnx.
        rewrite (ob_same n k k o o' D Hr W' eq_refl FQ FP x Hx). unfold D. rewrite mono_app by exact Hx.
        destruct (Reqb (f x) 0) eqn:E; [apply Reqb_true in E; rewrite E, Rmult_0_r, (proj2 (Reqb_true 0 0)) by reflexivity; ring|].
        apply Reqb_false in E. rewrite (proj2 (Reqb_false _ 0)); [reflexivity|]. apply Rmult_integral_contrapositive_currified; [|exact E]. apply Rmult_integral_contrapositive_currified; assumption.
      * intros y z Hy. change (bl_omega o') with Om'. unfold Om'. apply diag_app, Hy.
      * intros y Hy. apply Rmult_le_pos; [apply Rle_0_sqr|apply Hf0, Hy].
      * intros y Hy E. pose proof (Hcn y Hy) as Hny. destruct (Rmult_integral _ _ E) as [E1|E1]; [destruct (Rmult_integral _ _ E1); contradiction|].
        change (bl_P o') with (scaled_rows cs P).
        assert (EB : bil n (oS o') (entry (scaled_rows cs P) y) (entry (scaled_rows cs P) y) = vec cs y * (vec cs y * bil n (oS o) (entry (bl_P o) y) (entry (bl_P o) y))).
        { rewrite <- bil_scal_r, <- bil_scal_l. unfold oS. change (bl_tau o') with (bl_tau o). change (bl_sigma o') with (bl_sigma o).
          apply bil_ext; intros j Hj; rewrite scaled_rows_entry by exact LP; rewrite EP; reflexivity. }
        rewrite EB. rewrite (Hz y Hy E1). ring.
Qed.

(** ** A view stated several times counts several times *)
Theorem repeated : forall la a p q c m o, exact_linalg la -> bl_init (with_views a (repeat q m) (repeat p m) OmDefault c) = Ok o ->
  psd (bl_n o) (bl_sigma o) -> symmetric (bl_n o) (bl_sigma o) -> 0 < qform (bl_sigma o) p -> (0 < m)%nat ->
  inner p (snd (bl_returns la o)) = inner p (bl_pi o) + INR m / (INR m + 1) * (q - inner p (bl_pi o)).
Proof.
  intros la a p q c m o Hla H Hp Hs Hv Hm. pose proof (init_views _ _ H) as HV. unfold views_of in HV. cbn in HV. injection HV as EQ EP.
  assert (Hk : length (bl_Q o) = m) by (rewrite <- EQ; apply repeat_length).
  pose proof (init_regular _ _ H (or_introl eq_refl) Hp Hs) as Hr. rewrite Hk in Hr. set (n := bl_n o) in *. pose proof (rg_wf n m o Hr) as W.
  pose proof (omega_inv _ _ H) as EO. cbn [with_views a_omega] in EO. fold n in EO. rewrite Hk in EO.
  assert (Hrow : forall i j, (i < m)%nat -> entry (bl_P o) i j = vec p j).
  { intros i j Hi. unfold entry, vec. rewrite <- EP. f_equal. rewrite (nth_indep _ [] p) by (rewrite repeat_length; exact Hi). apply nth_repeat. }
  assert (Lp : length p = n).
  { pose proof (wf_P n m o W) as HP. pose proof (shaped_row m n _ O HP Hm) as L. rewrite <- EP in L. destruct m; [lia|exact L]. }
  assert (Lpi : length (bl_pi o) = n) by apply (wf_pi n m o W).
  set (v := qform (bl_sigma o) p) in *. set (t := bl_tau o). pose proof (wf_tau n m o W) as Ht. fold t in Ht.
  assert (QS : square n (bl_sigma o)) by apply Hp.
  assert (Ev : bil n (oS o) (vec p) (vec p) = t * v) by (rewrite oS_bil; unfold v; rewrite (qform_bil n) by assumption; reflexivity).
  set (g := q - inner p (bl_pi o)).
  assert (Eb : forall i, (i < m)%nat -> ob o i = g).
  { intros i Hi. unfold ob, g. rewrite <- EQ. f_equal.
    - unfold vec. rewrite (nth_indep _ 0 q) by (rewrite repeat_length; exact Hi). apply nth_repeat.
    - fold n. rewrite (inner_vec n) by assumption. unfold app. apply sumn_ext. intros j Hj. rewrite Hrow by exact Hi. reflexivity. }
  assert (Hrows : forall x, forall j, (j < n)%nat -> rows m (entry (bl_P o)) (fun _ => x) j = INR m * x * vec p j).
  { intros x j Hj. unfold rows. rewrite (sumn_ext m _ (fun _ => vec p j * x)) by (intros i Hi; rewrite Hrow by exact Hi; reflexivity). rewrite sumn_const. ring. }
  set (y := g / (t * v * (INR m + 1))).
  assert (Hm0 : 0 < INR m) by (apply lt_0_INR; lia). assert (Htv : 0 < t * v) by (apply Rmult_lt_0_compat; lra).
  assert (HA : forall i, (i < m)%nat -> app m (oA o) (fun _ => y) i = ob o i).
  { intros i Hi. rewrite Eb by exact Hi. rewrite (oA_core n m o Hr), A_apply.
    assert (E1 : app n (entry (bl_P o)) (app n (oS o) (rows m (entry (bl_P o)) (fun _ => y))) i = INR m * y * (t * v)).
    { rewrite <- Ev, <- bil_scal_r, bil_app. unfold app at 1. apply sumn_ext. intros j Hj. rewrite Hrow by exact Hi. f_equal. apply app_ext. intros l Hl. apply Hrows, Hl. }
    rewrite E1. rewrite EO. unfold default_omega. rewrite diag_app by exact Hi. rewrite view_variance_bil.
    rewrite (bil_ext n _ _ _ (vec p) (vec p)) by (intros j Hj; apply Hrow, Hi). fold t.
    assert (E2 : bil n (entry (bl_sigma o)) (vec p) (vec p) = v) by (unfold v; rewrite (qform_bil n) by assumption; reflexivity). rewrite E2. unfold y. field. lra. }
  destruct (returns_char la n m o Hla Hr (init_caches la _ o H)) as (s & _ & Hss & HL & Hvv). specialize (Hss (ex_intro _ _ HA)).
  assert (ET : forall i, (i < n)%nat -> app m (oT o) s i = app m (oT o) (fun _ => y) i).
  { intros i Hi. rewrite (oT_core n m o Hr). apply (T_unique n m (oS o) (entry (bl_P o)) (entry (bl_omega o)) (oS_sym n m o Hr) (oS_psd n m o Hr) (oOm_psd n m o Hr)); [|exact Hi].
    intros x Hx. rewrite <- (oA_core n m o Hr). rewrite Hss, HA by exact Hx. reflexivity. }
  rewrite (inner_vec n) by assumption. rewrite (sumn_ext n _ (fun i => vec p i * vec (bl_pi o) i + vec p i * app n (oS o) (fun j => INR m * y * vec p j) i)).
  2: { intros i Hi. rewrite Hvv, ET by exact Hi. rewrite (oT_core n m o Hr), T_apply. rewrite Rmult_plus_distr_l. f_equal. f_equal. apply app_ext. intros j Hj. apply Hrows, Hj. }
  rewrite sumn_plus. rewrite <- (inner_vec n) by assumption. f_equal. rewrite <- bil_app, bil_scal_r, Ev. unfold y. fold g. field. lra.
Qed.
