(** * Greedy allocation: the rational run is the real run *)
From Coq Require Import ZArith QArith Qreals List Bool Reals Lra Lia.
From Verif Require Import Num Py MAlloc SAlloc RBase PyLemmas QRBase PAlloc.
Import ListNotations.
Local Open Scope R_scope.

Local Notation QN := QNum.

Definition qda (d : @da Q) : @da R :=
  mkDA (qdict (da_weights d)) (qdict (da_prices d)) (da_int d) (Q2R (da_total d))
       (Q2R (da_short_ratio d)) (da_alloc d).

Lemma first_round_QR : forall prices T ws av,
  first_round (qdict prices) (Q2R T) (qdict ws) (Q2R av) =
  qmap (fun r => let '(a, ss, ps) := r in (Q2R a, ss, map Q2R ps)) (@first_round Q QN prices T ws av).
Proof.
  intros prices T. induction ws as [|[t w] ws IH]; intros av; [reflexivity|].
  cbn [first_round qdict map fst snd]. rewrite dgetE_qdict.
  destruct (dgetE t prices) as [p|e]; cbn [qmap rbind]; [|reflexivity].
  change (@n0 R RNum) with 0. runfold. rewrite <- QR_0, QR_eqb.
  destruct (@neqb Q QN p (@n0 Q QN)) eqn:Ep.
  - rewrite <- QR_mul, QR_eqb. destruct (@neqb Q QN (@nmul Q QN w T) (@n0 Q QN)); reflexivity.
  - assert (Hp : Q2R p <> 0) by (rewrite <- QR_eqb in Ep; rprop; rewrite QR_0 in Ep; exact Ep).
    rewrite <- QR_mul, <- QR_div by assumption. rewrite QR_trunc.
    rewrite <- QR_ofZ, <- QR_mul, QR_leb.
    destruct (@nleb Q QN _ av); [|reflexivity].
    rewrite <- QR_sub. fold (qdict ws). rewrite IH.
    destruct (@first_round Q QN prices T ws _) as [[[a ss] ps]|e]; reflexivity.
Qed.

Lemma argmax_QR : forall l, argmax (map (option_map Q2R) l) = @argmax Q QN l.
Proof.
  assert (H : forall l i b bi, argmax_go (map (option_map Q2R) l) i (option_map Q2R b) bi = @argmax_go Q QN l i b bi).
  { induction l as [|[x|] l IH]; intros i [b|] bi; try reflexivity.
    cbn [map option_map argmax_go]. runfold. rewrite QR_leb.
    destruct (@nleb Q QN x b); [apply (IH (S i) (Some b) bi)|apply (IH (S i) (Some x) i)]. }
  intros [|x l]; [reflexivity|]. unfold argmax. cbn [map]. apply H.
Qed.

Lemma fneg_QR : forall x, fneg (option_map Q2R x) = @fneg Q QN x.
Proof. intros [x|]; [|reflexivity]. cbn [option_map fneg]. runfold. rewrite <- QR_0. apply QR_ltb. Qed.
Lemma fnonpos_QR : forall x, fnonpos (option_map Q2R x) = @fnonpos Q QN x.
Proof. intros [x|]; [|reflexivity]. cbn [option_map fnonpos]. runfold. rewrite <- QR_0. apply QR_leb. Qed.
Lemma at_idx_QR : forall d i, at_idx (map (option_map Q2R) d) i = option_map Q2R (@at_idx Q QN d i).
Proof.
  intros d i. unfold at_idx. runfold. rewrite <- QR_0.
  change (Some (Q2R (@n0 Q QN))) with (option_map Q2R (Some (@n0 Q QN))). apply map_nth.
Qed.

Lemma qda_map2 : forall ps ss,
  map2 (fun p n => p * IZR n) (map Q2R ps) ss = map Q2R (map2 (fun p n => @nmul Q QN p (@nofZ Q QN n)) ps ss).
Proof.
  induction ps as [|p ps IH]; intros [|s ss]; simpl; [reflexivity..|].
  rewrite IH. f_equal. rewrite <- QR_ofZ, <- QR_mul. reflexivity.
Qed.

Lemma deficits_QR : forall ws ps ss,
  deficits (qdict ws) (map Q2R ps) ss = qmap (map (option_map Q2R)) (@deficits Q QN ws ps ss).
Proof.
  intros ws ps ss. unfold deficits. runfold. rewrite qda_map2, vsum_Q2R.
  set (cur := map2 _ ps ss). rewrite <- QR_0, QR_eqb.
  destruct (@neqb Q QN (@vsum Q QN cur) (@n0 Q QN)) eqn:Es.
  - assert (Hf : forallb (fun c => Reqb c (Q2R (@n0 Q QN))) (map Q2R cur) =
                 forallb (fun c => @neqb Q QN c (@n0 Q QN)) cur).
    { induction cur as [|c cur IH]; [reflexivity|]. cbn [map forallb]. rewrite QR_eqb.
      clear Es. f_equal. clear -cur. induction cur as [|c' cur' IH']; [reflexivity|].
      cbn [map forallb]. rewrite QR_eqb, IH'. reflexivity. }
    rewrite Hf. destruct (forallb _ cur); [|reflexivity]. cbn [qmap]. f_equal.
    unfold qdict. rewrite !map_map. reflexivity.
  - assert (Hs : Q2R (@vsum Q QN cur) <> 0) by (rewrite <- QR_eqb in Es; rprop; rewrite QR_0 in Es; exact Es).
    cbn [qmap]. f_equal. clear Es. revert Hs. generalize (@vsum Q QN cur). intros s Hs.
    clearbody cur. revert cur. induction ws as [|[t w] ws IH]; intros [|c cur]; try reflexivity.
    cbn [qdict map map2 fst snd option_map]. fold (qdict ws). rewrite IH.
    rewrite <- QR_div by assumption. rewrite <- QR_sub. reflexivity.
Qed.

Lemma inner_QR : forall fuel ws prices av df idx price c,
  inner fuel (qdict ws) (qdict prices) (Q2R av) (map (option_map Q2R) df) idx (Q2R price) c =
  qmap (fun r => let '(d, i, p, c) := r in (map (option_map Q2R) d, i, Q2R p, c))
       (@inner Q QN fuel ws prices av df idx price c).
Proof.
  induction fuel as [|fuel IH]; intros ws prices av df idx price c; [reflexivity|].
  cbn [inner]. runfold. rewrite QR_ltb. destruct (@nltb Q QN av price); [|reflexivity].
  assert (Hset : list_set idx (Some 0) (map (option_map Q2R) df) =
                 map (option_map Q2R) (list_set idx (Some (@n0 Q QN)) df)).
  { rewrite <- list_set_map. cbn [option_map]. rewrite QR_0. reflexivity. }
  rewrite Hset, argmax_QR, at_idx_QR, fneg_QR.
  destruct (_ || _); [reflexivity|].
  set (i := @argmax Q QN _).
  assert (Hn : nth_error (qdict ws) i = option_map (fun kv => (fst kv, Q2R (snd kv))) (nth_error ws i)).
  { clear. unfold qdict. generalize i. clear i. induction ws as [|kv ws IH]; intros [|i]; simpl; auto. }
  rewrite Hn. destruct (nth_error ws i) as [[t w]|]; [|reflexivity].
  cbn [option_map fst snd]. rewrite dgetE_qdict.
  destruct (dgetE t prices) as [p|]; cbn [qmap rbind]; [|reflexivity].
  apply IH.
Qed.

Lemma second_round_QR : forall fuel ip ws prices ps ss av,
  second_round fuel ip (qdict ws) (qdict prices) (map Q2R ps) ss (Q2R av) =
  qmap (fun r => (Q2R (fst r), snd r)) (@second_round Q QN fuel ip ws prices ps ss av).
Proof.
  induction fuel as [|fuel IH]; intros ip ws prices ps ss av; [reflexivity|].
  cbn [second_round]. runfold. rewrite <- QR_0, QR_ltb.
  destruct (@nltb Q QN (@n0 Q QN) av); [|reflexivity].
  destruct ip; [reflexivity|]. rewrite deficits_QR.
  destruct (@deficits Q QN ws ps ss) as [df|]; cbn [qmap rbind]; [|reflexivity].
  rewrite argmax_QR. set (i := @argmax Q QN df).
  assert (Hn : nth_error (qdict ws) i = option_map (fun kv => (fst kv, Q2R (snd kv))) (nth_error ws i)).
  { clear. unfold qdict. generalize i. clear i. induction ws as [|kv ws IH]; intros [|i]; simpl; auto. }
  rewrite Hn. destruct (nth_error ws i) as [[t w]|]; [|reflexivity].
  cbn [option_map fst snd]. rewrite dgetE_qdict.
  destruct (dgetE t prices) as [p|]; cbn [qmap rbind]; [|reflexivity].
  rewrite inner_QR.
  destruct (@inner Q QN inner_fuel ws prices av df i p 0) as [[[[df' i'] p'] c']|]; cbn [qmap rbind]; [|reflexivity].
  rewrite at_idx_QR, fnonpos_QR. destruct (_ || _); [reflexivity|].
  rewrite <- QR_sub. apply IH.
Qed.

Lemma greedy_long_QR : forall fuel d,
  greedy_long fuel (qda d) = qmap (fun r => (fst r, Q2R (snd r))) (@greedy_long Q QN fuel d).
Proof.
  intros fuel d. unfold greedy_long. cbn [qda da_prices da_total da_weights da_int].
  rewrite first_round_QR.
  destruct (@first_round Q QN _ _ _ _) as [[[av ss] ps]|]; cbn [qmap rbind]; [|reflexivity].
  rewrite second_round_QR, qdict_keys.
  destruct (@second_round Q QN _ _ _ _ _ _ _) as [[av' ss']|]; reflexivity.
Qed.

Lemma sort_weights_QR : forall w, sort_weights (qdict w) = qdict (@sort_weights Q QN w).
Proof.
  intros w. unfold sort_weights, qdict. apply isort_map. intros [a x] [b y]. cbn [snd]. runfold. apply QR_leb.
Qed.

Lemma last_weight_QR : forall w, last_weight (qdict w) = option_map Q2R (@last_weight Q w).
Proof.
  intros w. unfold last_weight, qdict. rewrite <- map_rev. destruct (rev w); reflexivity.
Qed.

(** long-only runs: real result = image of the rational result *)
Lemma greedy_QR : forall fuel d r,
  (match @last_weight Q (@sort_weights Q QN (da_weights d)) with
   | Some x => @nltb Q QN x (@n0 Q QN) = false | None => True end) ->
  snd (greedy_portfolio fuel (qda d) r) =
  qmap (fun x => (fst x, Q2R (snd x))) (snd (@greedy_portfolio Q QN fuel d r)).
Proof.
  intros fuel d r H. unfold greedy_portfolio. cbn [greedy_at set_weights_da da_weights qda].
  cbn [set_weights_da da_weights da_prices da_int da_total da_short_ratio da_alloc] in *.
  rewrite sort_weights_QR, last_weight_QR.
  destruct (@last_weight Q (@sort_weights Q QN (da_weights d))) as [x|]; cbn [option_map]; [|reflexivity].
  runfold. rewrite <- QR_0, QR_ltb, H.
  pose proof (greedy_long_QR fuel (set_weights_da d (@sort_weights Q QN (da_weights d)))) as Hg.
  unfold qda, set_weights_da in Hg. cbn [da_weights da_prices da_int da_total da_short_ratio da_alloc] in Hg.
  unfold set_weights_da, qda.
  cbn [da_weights da_prices da_int da_total da_short_ratio da_alloc].
  rewrite Hg.
  destruct (@greedy_long Q QN fuel _) as [[al lo]|]; reflexivity.
Qed.
