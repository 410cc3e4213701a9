(** * Units of measurement: money (C129) *)
From Coq Require Import ZArith List String Bool Reals Lra Lia.
From Verif Require Import Num Py RBase PyLemmas QRBase MAlloc SAlloc PAlloc MFrame SUnits.
Import ListNotations.
Local Open Scope R_scope.

Section Money.
  Variable k : R.
  Hypothesis Hk : 0 < k.
  Let pt (ps : dict R) : dict R := map (fun tp => (fst tp, k * snd tp)) ps.

  Lemma eqb0_times : forall x, Reqb (k * x) 0 = Reqb x 0.
  Proof.
    intros x. destruct (Reqb x 0) eqn:E; [apply Reqb_true in E; subst; rewrite Rmult_0_r; apply Reqb_true; reflexivity|].
    destruct (Reqb (k * x) 0) eqn:F; [|reflexivity]. apply Reqb_true in F. apply Rmult_integral in F as [F|F]; [lra|]. apply Reqb_true in F. congruence.
  Qed.
  Lemma leb_times : forall x y, Rleb (k * x) (k * y) = Rleb x y.
  Proof.
    intros x y. destruct (Rleb x y) eqn:E.
    - apply Rleb_true in E. apply Rleb_true. apply Rmult_le_compat_l; lra.
    - destruct (Rleb (k * x) (k * y)) eqn:F; [|reflexivity]. apply Rleb_true in F. apply Rmult_le_reg_l in F; [|exact Hk]. apply Rleb_true in F. congruence.
  Qed.
  Lemma ltb_times : forall x y, Rltb (k * x) (k * y) = Rltb x y.
  Proof.
    intros x y. destruct (Rltb x y) eqn:E.
    - apply Rltb_true in E. apply Rltb_true. apply Rmult_lt_compat_l; lra.
    - destruct (Rltb (k * x) (k * y)) eqn:F; [|reflexivity]. apply Rltb_true in F. apply Rmult_lt_reg_l in F; [|exact Hk]. apply Rltb_true in F. congruence.
  Qed.
  Lemma ltb0_times : forall x, Rltb 0 (k * x) = Rltb 0 x.
  Proof. intros x. rewrite <- (Rmult_0_r k) at 1. apply ltb_times. Qed.
  Lemma dgetE_pt : forall t ps, dgetE t (pt ps) = qmap (Rmult k) (dgetE t ps).
  Proof. intros t ps. unfold dgetE, pt. induction ps as [|[u p] ps IH]; [reflexivity|]. cbn [map fst snd dget]. destruct (label_eqb t u); [reflexivity|exact IH]. Qed.
  Lemma keys_pt : forall ps, map fst (pt ps) = map fst ps.
  Proof. intros. unfold pt. rewrite map_map. reflexivity. Qed.

  Lemma first_times : forall ps T ws av, first_round (pt ps) (k * T) ws (k * av) =
    qmap (fun r => let '(a, ss, bs) := r in (k * a, ss, map (Rmult k) bs)) (first_round ps T ws av).
  Proof.
    intros ps T. induction ws as [|[t w] ws IH]; intros av; [reflexivity|]. cbn [first_round]. rewrite dgetE_pt.
    destruct (dgetE t ps) as [p|]; cbn [qmap rbind]; [|reflexivity]. runfold. rewrite eqb0_times.
    replace (w * (k * T)) with (k * (w * T)) by ring. rewrite eqb0_times.
    destruct (Reqb p 0) eqn:E; [destruct (Reqb (w * T) 0); reflexivity|].
    assert (Hp : p <> 0) by (rprop; exact E). replace (k * (w * T) / (k * p)) with (w * T / p) by (field; split; [exact Hp|lra]).
    set (n := Rtrunc (w * T / p)). replace (IZR n * (k * p)) with (k * (IZR n * p)) by ring. rewrite leb_times.
    destruct (Rleb _ av); [|reflexivity]. rewrite <- Rmult_minus_distr_l, IH. destruct (first_round ps T ws _) as [[[a ss] bs]|]; reflexivity.
  Qed.
  Lemma cur_times : forall bs ss, map2 (fun p n => p * IZR n) (map (Rmult k) bs) ss = map (Rmult k) (map2 (fun p n => p * IZR n) bs ss).
  Proof. induction bs as [|b bs IH]; intros [|s ss]; try reflexivity. cbn [map map2]. rewrite IH, Rmult_assoc. reflexivity. Qed.
  Lemma total_times : forall l, vsum (map (Rmult k) l) = k * vsum l.
  Proof. induction l as [|x l IH]; [cbn [map]; rewrite vsum_nil; ring|]. cbn [map]. rewrite !vsum_cons, IH. ring. Qed.
  Lemma deficits_times : forall ws bs ss, deficits ws (map (Rmult k) bs) ss = deficits ws bs ss.
  Proof.
    intros ws bs ss. unfold deficits. runfold. rewrite cur_times, total_times, eqb0_times. set (cur := map2 _ bs ss).
    destruct (Reqb (vsum cur) 0) eqn:E.
    - replace (forallb (fun c => Reqb c 0) (map (Rmult k) cur)) with (forallb (fun c => Reqb c 0) cur); [reflexivity|].
      clear E. clearbody cur. induction cur as [|c cur IH]; [reflexivity|]. cbn [map forallb]. rewrite eqb0_times, IH. reflexivity.
    - f_equal. assert (Hs : vsum cur <> 0) by (rprop; exact E). revert Hs. clear E. generalize (vsum cur). intros s Hs. clearbody cur. revert cur.
      induction ws as [|w ws IH]; intros [|c cur]; try reflexivity. cbn [map map2]. rewrite IH. do 3 f_equal. field. split; [exact Hs|lra].
  Qed.
  Lemma inner_times_money : forall fuel ws ps av df i p c, inner fuel ws (pt ps) (k * av) df i (k * p) c =
    qmap (fun r => let '(d, j, q, c) := r in (d, j, k * q, c)) (inner fuel ws ps av df i p c).
  Proof.
    induction fuel as [|fuel IH]; intros ws ps av df i p c; [reflexivity|]. cbn [inner]. runfold. rewrite ltb_times. destruct (Rltb av p); [|reflexivity].
    destruct (_ || _); [reflexivity|]. destruct (nth_error ws _) as [[t x]|]; [|reflexivity]. rewrite dgetE_pt. destruct (dgetE t ps); cbn [qmap rbind]; [|reflexivity]. apply IH.
  Qed.
  Lemma second_times : forall fuel ip ws ps bs ss av, second_round fuel ip ws (pt ps) (map (Rmult k) bs) ss (k * av) =
    qmap (fun r => (k * fst r, snd r)) (second_round fuel ip ws ps bs ss av).
  Proof.
    induction fuel as [|fuel IH]; intros ip ws ps bs ss av; [reflexivity|]. cbn [second_round]. runfold. rewrite ltb0_times. destruct (Rltb 0 av); [|reflexivity].
    destruct ip; [reflexivity|]. rewrite deficits_times. destruct (deficits ws bs ss) as [df|]; cbn [qmap rbind]; [|reflexivity].
    destruct (nth_error ws _) as [[t x]|]; [|reflexivity]. rewrite dgetE_pt. destruct (dgetE t ps) as [p|]; cbn [qmap rbind]; [|reflexivity].
    rewrite inner_times_money. destruct (inner inner_fuel ws ps av df _ p 0) as [[[[d j] q] c]|]; cbn [qmap rbind]; [|reflexivity].
    destruct (_ || _); [reflexivity|]. rewrite <- Rmult_minus_distr_l. apply IH.
  Qed.
  Lemma long_times : forall fuel d, greedy_long fuel (da_times k d) = money k (greedy_long fuel d).
  Proof.
    intros fuel d. unfold greedy_long, da_times. cbn [da_prices da_total da_weights da_int]. fold (pt (da_prices d)). rewrite first_times.
    destruct (first_round _ _ _ _) as [[[av ss] bs]|]; cbn [qmap rbind]; [|reflexivity]. rewrite second_times. destruct (second_round _ _ _ _ _ _ _) as [[a s]|]; reflexivity.
  Qed.
  Lemma select_times : forall ps ts, select_prices (pt ps) ts = qmap pt (select_prices ps ts).
  Proof.
    intros ps. unfold select_prices. induction ts as [|t ts IH]; [reflexivity|]. cbn [mapM]. rewrite dgetE_pt. destruct (dgetE t ps); cbn [qmap rbind]; [|reflexivity].
    rewrite IH. destruct (mapM (fun k0 : label => rbind (dgetE k0 ps) (fun v => Ok (k0, v))) ts); reflexivity.
  Qed.
  Lemma some_times : forall ps, MAlloc.all_some (map (fun tp => (fst tp, option_map (Rmult k) (snd tp))) ps) = option_map pt (MAlloc.all_some ps).
  Proof. induction ps as [|[t [p|]] ps IH]; [reflexivity| |reflexivity]. cbn [map fst snd option_map MAlloc.all_some]. rewrite IH. destruct (MAlloc.all_some ps); reflexivity. Qed.
  Lemma leb0_times : forall x, Rleb (k * x) 0 = Rleb x 0.
  Proof. intros x. pose proof (leb_times x 0) as E. rewrite Rmult_0_r in E. exact E. Qed.
  Theorem units_constructor : forall w p total sr, da_init w (series_times k p) (k * total) sr = qmap (da_times k) (da_init w p total sr).
  Proof.
    intros [d|] [b s|] total sr; unfold da_init, series_times; try reflexivity; try (destruct (MAlloc.all_some d); reflexivity).
    destruct (MAlloc.all_some d) as [ws|]; [|reflexivity]. rewrite some_times. destruct (MAlloc.all_some s) as [ps|]; cbn [option_map]; [|reflexivity]. runfold. rewrite leb0_times.
    destruct (Rleb total 0); [reflexivity|]. destruct sr as [r|]; [|reflexivity]. destruct (Rltb r 0); reflexivity.
  Qed.
  Lemma sub_times : forall d w T, sub_da (da_times k d) w (k * T) = qmap (da_times k) (sub_da d w T).
  Proof.
    intros d w T. unfold sub_da. cbn [da_times da_prices da_int]. fold (pt (da_prices d)). rewrite select_times. destruct (select_prices _ _) as [ps|]; cbn [qmap rbind]; [|reflexivity].
    rewrite <- units_constructor. f_equal. unfold series_times, some_dict, pt. rewrite !map_map. reflexivity.
  Qed.
  Lemma value_times : forall (r : bool) T s, (if r then k * T + k * T * s else k * T) = k * (if r then T + T * s else T).
  Proof. intros [|] T s; ring. Qed.
  Lemma greedy_at_times : forall depth fuel d r, greedy_at depth fuel (da_times k d) r = (da_times k (fst (greedy_at depth fuel d r)), money k (snd (greedy_at depth fuel d r))).
  Proof.
    induction depth as [|depth IH]; intros fuel d r; [reflexivity|]. cbn [greedy_at].
    change (set_weights_da (da_times k d) (sort_weights (da_weights (da_times k d)))) with (da_times k (set_weights_da d (sort_weights (da_weights d)))).
    set (d' := set_weights_da d _). change (da_weights (da_times k d')) with (da_weights d'). change (da_short_ratio (da_times k d')) with (da_short_ratio d'). change (da_total (da_times k d')) with (k * da_total d').
    destruct (last_weight (da_weights d')) as [wl|]; [|reflexivity]. runfold. destruct (Rltb wl 0).
    - destruct (normalise (longs_of _)) as [longs|]; cbn [rbind]; [|reflexivity]. destruct (normalise (shorts_of _)) as [shorts|]; cbn [rbind]; [|reflexivity].
      rewrite value_times, sub_times. destruct (sub_da d' longs _) as [da1|]; cbn [qmap rbind]; [|reflexivity]. rewrite IH. cbn [snd].
      destruct (snd (greedy_at depth fuel da1 false)) as [[al lo]|]; cbn [money rbind]; [|reflexivity].
      rewrite Rmult_assoc, sub_times. destruct (sub_da d' shorts _) as [da2|]; cbn [qmap rbind]; [|reflexivity]. rewrite IH. cbn [snd].
      destruct (snd (greedy_at depth fuel da2 false)) as [[sl so]|]; cbn [money rbind]; [|reflexivity]. rewrite <- Rmult_plus_distr_l. reflexivity.
    - rewrite long_times. destruct (greedy_long fuel d') as [[al lo]|]; reflexivity.
  Qed.
  Theorem units_greedy : forall fuel d r, greedy_portfolio fuel (da_times k d) r = (da_times k (fst (greedy_portfolio fuel d r)), money k (snd (greedy_portfolio fuel d r))).
  Proof. intros. apply greedy_at_times. Qed.

  Lemma dot_times : forall p x, dot (map (Rmult k) p) x = k * dot p x.
  Proof.
    intros p x. unfold dot. rewrite <- total_times. f_equal. revert x. induction p as [|a p IH]; intros [|b x]; try reflexivity. cbn [map map2]. rewrite IH. f_equal. runfold. ring.
  Qed.
  Lemma inv_map : forall l, map (Rmult (/ k)) (map (Rmult k) l) = l.
  Proof. intros l. rewrite map_map. rewrite <- (map_id l) at 2. apply map_ext. intros x. field. lra. Qed.
  Lemma map_inv : forall l, map (Rmult k) (map (Rmult (/ k)) l) = l.
  Proof. intros l. rewrite map_map. rewrite <- (map_id l) at 2. apply map_ext. intros x. field. lra. Qed.
  Lemma lp_long_times : forall solver d, lp_long (in_units k solver) (da_times k d) = money k (lp_long solver d).
  Proof.
    intros solver d. unfold lp_long, in_units. cbn [da_times da_prices da_weights da_total lp_p lp_w lp_T].
    replace (map snd (map (fun tp : label * R => (fst tp, k * snd tp)) (da_prices d))) with (map (Rmult k) (map snd (da_prices d))) by (rewrite !map_map; reflexivity).
    rewrite inv_map, map_length. replace (/ k * (k * da_total d)) with (da_total d) by (field; lra).
    destruct (negb _); [reflexivity|]. destruct (solver _) as [x u| |e]; try reflexivity. cbn [money]. f_equal. f_equal. unfold lp_r. cbn [lp_T lp_p]. rewrite dot_times. runfold. ring.
  Qed.
  Lemma lp_at_times : forall depth solver d r, lp_at depth (in_units k solver) (da_times k d) r = (da_times k (fst (lp_at depth solver d r)), money k (snd (lp_at depth solver d r))).
  Proof.
    induction depth as [|depth IH]; intros solver d r; [reflexivity|]. cbn [lp_at].
    change (da_weights (da_times k d)) with (da_weights d). change (da_short_ratio (da_times k d)) with (da_short_ratio d). change (da_total (da_times k d)) with (k * da_total d).
    destruct (existsb _ _).
    - destruct (normalise (longs_of _)) as [longs|]; cbn [rbind]; [|reflexivity]. destruct (normalise (shorts_of _)) as [shorts|]; cbn [rbind]; [|reflexivity].
      runfold. rewrite value_times, sub_times. destruct (sub_da d longs _) as [da1|]; cbn [qmap rbind]; [|reflexivity]. rewrite IH. cbn [snd].
      destruct (snd (lp_at depth solver da1 false)) as [[al lo]|]; cbn [money rbind]; [|reflexivity].
      rewrite Rmult_assoc, sub_times. destruct (sub_da d shorts _) as [da2|]; cbn [qmap rbind]; [|reflexivity]. rewrite IH. cbn [snd].
      destruct (snd (lp_at depth solver da2 false)) as [[sl so]|]; cbn [money rbind]; [|reflexivity]. rewrite <- Rmult_plus_distr_l. reflexivity.
    - rewrite lp_long_times. destruct (lp_long solver d) as [[al lo]|]; reflexivity.
  Qed.
  Theorem units_lp : forall solver d r, lp_portfolio (in_units k solver) (da_times k d) r = (da_times k (fst (lp_portfolio solver d r)), money k (snd (lp_portfolio solver d r))).
  Proof. intros. apply lp_at_times. Qed.

  Definition P' (P : lp (A := R)) : lp := mkLP (map (Rmult k) (lp_p P)) (lp_w P) (k * lp_T P).
  Lemma eta_times : forall P x, lp_eta (P' P) x = map (Rmult k) (lp_eta P x).
  Proof.
    intros [p w T] x. unfold lp_eta, P'. cbn [lp_p lp_w lp_T]. runfold. revert p x. induction w as [|v w IH]; intros [|a p] [|b x]; try reflexivity. cbn [map map2]. rewrite IH. f_equal. ring.
  Qed.
  Lemma r_times : forall P x, lp_r (P' P) x = k * lp_r P x.
  Proof. intros [p w T] x. unfold lp_r, P'. cbn [lp_p lp_w lp_T]. rewrite dot_times. runfold. ring. Qed.
  Lemma below_times : forall e u, Forall2 (fun e ui => e <= ui) e u <-> Forall2 (fun e ui => e <= ui) (map (Rmult k) e) (map (Rmult k) u).
  Proof.
    induction e as [|a e IH]; intros [|b u]; cbn [map]; split; intros F; inversion F; subst; constructor; try (apply IH; assumption).
    - apply Rmult_le_compat_l; lra.
    - eapply Rmult_le_reg_l; eauto.
  Qed.
  Lemma above_times : forall e u, Forall2 (fun e ui => - ui <= e) e u <-> Forall2 (fun e ui => - ui <= e) (map (Rmult k) e) (map (Rmult k) u).
  Proof.
    induction e as [|a e IH]; intros [|b u]; cbn [map]; split; intros F; inversion F; subst; constructor; try (apply IH; assumption).
    - rewrite Ropp_mult_distr_r. apply Rmult_le_compat_l; lra.
    - eapply Rmult_le_reg_l; [exact Hk|]. rewrite <- Ropp_mult_distr_r. assumption.
  Qed.
  Lemma feasible_times : forall P x u, lp_feasible P x u <-> lp_feasible (P' P) x (map (Rmult k) u).
  Proof.
    intros P x u. unfold lp_feasible. rewrite eta_times, r_times, <- below_times, <- above_times. cbn [P' lp_p]. rewrite !map_length.
    assert (0 <= lp_r P x <-> 0 <= k * lp_r P x) as ->; [|tauto]. split; intros H; [apply Rmult_le_pos; lra|]. eapply Rmult_le_reg_l; [exact Hk|]. lra.
  Qed.
  Lemma objective_times : forall P x u, lp_objective (P' P) x (map (Rmult k) u) = k * lp_objective P x u.
  Proof. intros. unfold lp_objective. rewrite total_times, r_times. ring. Qed.
  Lemma in_units_arg : forall P, P' (mkLP (map (Rmult (/ k)) (lp_p P)) (lp_w P) (/ k * lp_T P)) = P.
  Proof. intros [p w T]. unfold P'. cbn [lp_p lp_w lp_T]. rewrite map_inv. f_equal. field. lra. Qed.
  Theorem units_exact : forall solver, exact_milp solver -> exact_milp (in_units k solver).
  Proof.
    intros solver H P x u E. unfold in_units in E. set (P1 := mkLP _ _ _) in E. assert (HP : P' P1 = P) by apply in_units_arg.
    destruct (solver P1) as [x1 u1| |] eqn:E1; try discriminate. injection E as <- <-. apply H in E1 as [F O]. rewrite <- HP. split; [apply -> feasible_times; exact F|].
    intros x' u' F'. rewrite <- (map_inv u') in F' |- *. rewrite !objective_times. apply Rmult_le_compat_l; [lra|]. apply O. apply <- feasible_times. exact F'.
  Qed.
  Theorem units_solvers : forall solver P, in_units k (in_units (/ k) solver) P = solver P.
  Proof.
    intros solver P. unfold in_units. cbn [lp_p lp_w lp_T]. rewrite Rinv_inv, map_inv. replace (k * (/ k * lp_T P)) with (lp_T P) by (field; lra).
    destruct P as [p w T]. cbn [lp_p lp_w lp_T]. destruct (solver _) as [x u| |]; [rewrite map_inv|..]; reflexivity.
  Qed.
End Money.
