(** * Keyword arguments reach the estimators *)
From Coq Require Import ZArith List String Bool Reals.
From Verif Require Import Num Py MFrame MHRP MReturns MRisk MKwargs SKwargs.
Import ListNotations.
Local Open Scope R_scope.
Local Open Scope string_scope.

Lemma kwget_given : forall kw name v, distinct kw -> In (name, v) kw -> kwget kw name = Some v.
Proof.
  unfold distinct, kwget. induction kw as [|[k x] kw IH]; intros name v Hd H; [destruct H|]. cbn [map fst] in Hd. inversion Hd as [|? ? N D]; subst. cbn [find fst].
  destruct (String.eqb_spec k name) as [->|Hk].
  - destruct H as [H|H]; [injection H as ->; reflexivity|]. exfalso. apply N. apply (in_map fst) in H. exact H.
  - destruct H as [H|H]; [injection H as -> _; congruence|]. apply IH; assumption.
Qed.
Lemma kwget_absent : forall kw name, ~ In name (map fst kw) -> kwget kw name = None.
Proof.
  unfold kwget. induction kw as [|[k x] kw IH]; intros name H; [reflexivity|]. cbn [find fst]. destruct (String.eqb_spec k name) as [->|Hk]; [exfalso; apply H; left; reflexivity|].
  apply IH. intros K. apply H. right. exact K.
Qed.
Lemma bool_gets : forall kw name d v, distinct kw -> gets KBool kw name d v -> kw_bool kw name d = Ok v.
Proof. intros kw name d v Hd [H|[H ->]]; unfold kw_bool; [rewrite (kwget_given _ _ _ Hd H)|rewrite (kwget_absent _ _ H)]; reflexivity. Qed.
Lemma num_gets : forall kw name d v, distinct kw -> gets KNum kw name d v -> kw_num kw name d = Ok v.
Proof. intros kw name d v Hd [H|[H ->]]; unfold kw_num; [rewrite (kwget_given _ _ _ Hd H)|rewrite (kwget_absent _ _ H)]; reflexivity. Qed.
Lemma str_gets : forall kw name d v, distinct kw -> gets KStr kw name d v -> kw_str kw name d = Ok v.
Proof. intros kw name d v Hd [H|[H ->]]; unfold kw_str; [rewrite (kwget_given _ _ _ Hd H)|rewrite (kwget_absent _ _ H)]; reflexivity. Qed.
Lemma table_gets : forall kw name v, distinct kw -> gets KTable kw name None v -> kw_table kw name = Ok v.
Proof. intros kw name v Hd [H|[H ->]]; unfold kw_table; [rewrite (kwget_given _ _ _ Hd H)|rewrite (kwget_absent _ _ H)]; reflexivity. Qed.
Lemma accepts_only : forall ps kw, only ps kw -> accepts ps kw = Ok tt.
Proof.
  intros ps kw H. unfold accepts. replace (forallb _ kw) with true; [reflexivity|]. symmetry. apply forallb_forall. intros p Hp. apply existsb_exists.
  exists (fst p). split; [apply H; apply in_map; exact Hp|apply String.eqb_refl].
Qed.
Lemma accepts_not : forall ps kw k, In k (map fst kw) -> ~ In k ps -> accepts ps kw = Err TypeError.
Proof.
  intros ps kw k Hk Hn. unfold accepts. destruct (forallb _ kw) eqn:F; [|reflexivity]. exfalso. apply in_map_iff in Hk. destruct Hk as [p [<- Hp]].
  rewrite forallb_forall in F. specialize (F p Hp). apply existsb_exists in F. destruct F as [s [Hs E]]. apply String.eqb_eq in E. subst s. exact (Hn Hs).
Qed.
Ltac args := repeat (match goal with
  | Hd : distinct _, H : gets KBool _ _ _ _ |- _ => rewrite (bool_gets _ _ _ _ Hd H); clear H
  | Hd : distinct _, H : gets KNum _ _ _ _ |- _ => rewrite (num_gets _ _ _ _ Hd H); clear H
  | Hd : distinct _, H : gets KStr _ _ _ _ |- _ => rewrite (str_gets _ _ _ _ Hd H); clear H
  | Hd : distinct _, H : gets KTable _ _ _ _ |- _ => rewrite (table_gets _ _ _ Hd H); clear H
  | H : only _ _ |- _ => rewrite (accepts_only _ _ H); clear H
  end; cbn [rbind]).

Section Risk.
  Context (eigh : eigh_oracle) (sk_lw sk_oas : shrink_oracle) (prices : frame (option R)) (kw : kwargs) (Hd : distinct kw).
  Theorem kw_sample : forall rd fr lg fm, gets KBool kw "returns_data" false rd -> gets KNum kw "frequency" 252 fr ->
    gets KBool kw "log_returns" false lg -> gets KStr kw "fix_method" "spectral" fm ->
    risk_matrix_kw eigh sk_lw sk_oas prices "sample_cov" kw = sample_cov eigh prices rd fr lg fm.
  Proof. intros rd fr lg fm H1 H2 H3 H4. unfold risk_matrix_kw. cbn [String.eqb Ascii.eqb Bool.eqb orb]. unfold sample_cov_kw. args. reflexivity. Qed.
  Theorem kw_semi : forall m rd bm fr lg fm, m = "semicovariance" \/ m = "semivariance" ->
    gets KBool kw "returns_data" false rd -> gets KNum kw "benchmark" (79 / 10 ^ 6) bm -> gets KNum kw "frequency" 252 fr ->
    gets KBool kw "log_returns" false lg -> gets KStr kw "fix_method" "spectral" fm ->
    risk_matrix_kw eigh sk_lw sk_oas prices m kw = semicovariance eigh prices rd bm fr lg fm.
  Proof.
    intros m rd bm fr lg fm Hm H1 H2 H3 H4 H5. unfold risk_matrix_kw.
    destruct Hm as [-> | ->]; cbn [String.eqb Ascii.eqb Bool.eqb orb]; unfold semicovariance_kw; args; reflexivity.
  Qed.
  Theorem kw_exp : forall rd sp fr lg fm, gets KBool kw "returns_data" false rd -> gets KNum kw "span" 180 sp -> gets KNum kw "frequency" 252 fr ->
    gets KBool kw "log_returns" false lg -> gets KStr kw "fix_method" "spectral" fm ->
    risk_matrix_kw eigh sk_lw sk_oas prices "exp_cov" kw = exp_cov eigh prices rd sp fr lg fm.
  Proof. intros rd sp fr lg fm H1 H2 H3 H4 H5. unfold risk_matrix_kw. cbn [String.eqb Ascii.eqb Bool.eqb orb]. unfold exp_cov_kw. args. reflexivity. Qed.
  Theorem kw_shrink : forall m rd fr lg, In m ["ledoit_wolf"; "ledoit_wolf_constant_variance"; "ledoit_wolf_single_factor"; "ledoit_wolf_constant_correlation"; "oracle_approximating"] ->
    only ["returns_data"; "frequency"; "log_returns"] kw ->
    gets KBool kw "returns_data" false rd -> gets KNum kw "frequency" 252 fr -> gets KBool kw "log_returns" false lg ->
    risk_matrix_kw eigh sk_lw sk_oas prices m kw = match shrinkage_init prices rd fr lg with
                                                   | Ok sh => match shrink_with eigh sk_lw sk_oas m sh with Ok r => Ok (fst r) | Err e => Err e end
                                                   | Err e => Err e
                                                   end.
  Proof.
    intros m rd fr lg Hm Ho H1 H2 H3. unfold risk_matrix_kw.
    destruct Hm as [<-|[<-|[<-|[<-|[<-|[]]]]]]; cbn [String.eqb Ascii.eqb Bool.eqb orb]; unfold shrinkage_kw; args;
      (destruct (shrinkage_init prices rd fr lg) as [sh|e]; [|reflexivity]); cbn [rbind]; unfold shrink_with; cbn [String.eqb Ascii.eqb Bool.eqb];
      match goal with |- rbind ?x _ = _ => destruct x end; reflexivity.
  Qed.
End Risk.
(** no keywords: the defaults *)
Theorem kw_none : forall eigh sk_lw sk_oas prices m, risk_matrix_kw eigh sk_lw sk_oas prices m [] = risk_matrix eigh sk_lw sk_oas prices m.
Proof. reflexivity. Qed.
Theorem kw_none_return : forall prices m, return_model_kw prices m [] = return_model prices m.
Proof. reflexivity. Qed.
(** misspelt keywords *)
Lemma kwget_insert : forall a b k v name, k <> name -> kwget (a ++ (k, v) :: b)%list name = kwget (a ++ b)%list name.
Proof.
  unfold kwget. induction a as [|[x y] a IH]; intros b k v name H; cbn [app find fst].
  - destruct (String.eqb_spec k name); [congruence|reflexivity].
  - destruct (String.eqb x name); [reflexivity|]. apply IH. exact H.
Qed.
Theorem kw_ignored : forall eigh sk_lw sk_oas prices m a b k v, In m ["sample_cov"; "semicovariance"; "semivariance"; "exp_cov"] ->
  ~ In k ["returns_data"; "benchmark"; "span"; "frequency"; "log_returns"; "fix_method"] ->
  risk_matrix_kw eigh sk_lw sk_oas prices m (a ++ (k, v) :: b)%list = risk_matrix_kw eigh sk_lw sk_oas prices m (a ++ b)%list.
Proof.
  intros eigh sk_lw sk_oas prices m a b k v Hm Hk.
  assert (N : forall name, In name ["returns_data"; "benchmark"; "span"; "frequency"; "log_returns"; "fix_method"] -> kwget (a ++ (k, v) :: b)%list name = kwget (a ++ b)%list name).
  { intros name Hn. apply kwget_insert. intros ->. exact (Hk Hn). }
  unfold risk_matrix_kw. destruct Hm as [<-|[<-|[<-|[<-|[]]]]]; cbn [String.eqb Ascii.eqb Bool.eqb orb];
    unfold sample_cov_kw, semicovariance_kw, exp_cov_kw, kw_bool, kw_num, kw_str; rewrite !N by (cbn; auto 10); reflexivity.
Qed.
Theorem kw_refused : forall eigh sk_lw sk_oas prices m kw k,
  In m ["ledoit_wolf"; "ledoit_wolf_constant_variance"; "ledoit_wolf_single_factor"; "ledoit_wolf_constant_correlation"; "oracle_approximating"] ->
  In k (map fst kw) -> ~ In k ["returns_data"; "frequency"; "log_returns"] ->
  risk_matrix_kw eigh sk_lw sk_oas prices m kw = Err TypeError.
Proof.
  intros eigh sk_lw sk_oas prices m kw k Hm Hk Hn. unfold risk_matrix_kw.
  destruct Hm as [<-|[<-|[<-|[<-|[<-|[]]]]]]; cbn [String.eqb Ascii.eqb Bool.eqb orb]; unfold shrinkage_kw; rewrite (accepts_not _ _ _ Hk Hn); reflexivity.
Qed.
Theorem kw_unknown_method : forall eigh sk_lw sk_oas prices m kw,
  ~ In m ["sample_cov"; "semicovariance"; "semivariance"; "exp_cov"; "ledoit_wolf"; "ledoit_wolf_constant_variance"; "ledoit_wolf_single_factor"; "ledoit_wolf_constant_correlation"; "oracle_approximating"] ->
  risk_matrix_kw eigh sk_lw sk_oas prices m kw = Err NotImplementedError.
Proof.
  intros eigh sk_lw sk_oas prices m kw H. unfold risk_matrix_kw.
  repeat match goal with |- context [String.eqb m ?s] => destruct (String.eqb_spec m s) as [->|_]; [exfalso; apply H; cbn; auto 10|] end. reflexivity.
Qed.

Section Returns.
  Context (prices : frame (option R)) (kw : kwargs) (Hd : distinct kw).
  Theorem kw_mean : forall rd c fr lg, only ["returns_data"; "compounding"; "frequency"; "log_returns"] kw ->
    gets KBool kw "returns_data" false rd -> gets KBool kw "compounding" true c -> gets KNum kw "frequency" 252 fr -> gets KBool kw "log_returns" false lg ->
    return_model_kw prices "mean_historical_return" kw = mean_historical_return prices rd c fr lg.
  Proof. intros rd c fr lg Ho H1 H2 H3 H4. unfold return_model_kw. cbn [String.eqb Ascii.eqb Bool.eqb]. unfold mean_historical_return_kw. args. reflexivity. Qed.
  Theorem kw_ema : forall rd c sp fr lg, only ["returns_data"; "compounding"; "span"; "frequency"; "log_returns"] kw ->
    gets KBool kw "returns_data" false rd -> gets KBool kw "compounding" true c -> gets KNum kw "span" 500 sp -> gets KNum kw "frequency" 252 fr ->
    gets KBool kw "log_returns" false lg ->
    return_model_kw prices "ema_historical_return" kw = ema_historical_return prices rd c sp fr lg.
  Proof. intros rd c sp fr lg Ho H1 H2 H3 H4 H5. unfold return_model_kw. cbn [String.eqb Ascii.eqb Bool.eqb]. unfold ema_historical_return_kw. args. reflexivity. Qed.
  Theorem kw_capm : forall m rd rf c fr lg, only ["market_prices"; "returns_data"; "risk_free_rate"; "compounding"; "frequency"; "log_returns"] kw ->
    gets KTable kw "market_prices" None m -> gets KBool kw "returns_data" false rd -> gets KNum kw "risk_free_rate" 0 rf ->
    gets KBool kw "compounding" true c -> gets KNum kw "frequency" 252 fr -> gets KBool kw "log_returns" false lg ->
    return_model_kw prices "capm_return" kw = snd (capm_return prices m rd rf c fr lg).
  Proof. intros m rd rf c fr lg Ho H1 H2 H3 H4 H5 H6. unfold return_model_kw. cbn [String.eqb Ascii.eqb Bool.eqb]. unfold capm_return_kw. args. reflexivity. Qed.
End Returns.
Theorem kw_return_refused : forall prices m kw k, In (m, k) [("mean_historical_return", "span"); ("mean_historical_return", "risk_free_rate"); ("ema_historical_return", "risk_free_rate"); ("capm_return", "span")] \/
    In m ["mean_historical_return"; "ema_historical_return"; "capm_return"] /\
    ~ In k ["market_prices"; "returns_data"; "risk_free_rate"; "compounding"; "span"; "frequency"; "log_returns"] ->
  In k (map fst kw) -> return_model_kw prices m kw = Err TypeError.
Proof.
  intros prices m kw k H Hk. unfold return_model_kw.
  assert (G : forall ps, ~ In k ps -> accepts ps kw = Err TypeError) by (intros ps Hn; exact (accepts_not ps kw k Hk Hn)).
  destruct H as [H|[Hm Hn]].
  - cbn [In] in H. destruct H as [H|[H|[H|[H|[]]]]]; injection H as <- <-; cbn [String.eqb Ascii.eqb Bool.eqb];
      unfold mean_historical_return_kw, ema_historical_return_kw, capm_return_kw; rewrite G; try reflexivity; cbn; intuition discriminate.
  - destruct Hm as [<-|[<-|[<-|[]]]]; cbn [String.eqb Ascii.eqb Bool.eqb];
      unfold mean_historical_return_kw, ema_historical_return_kw, capm_return_kw; (rewrite G; [reflexivity|]); intros K; apply Hn; cbn in *; tauto.
Qed.
Theorem kw_return_unknown : forall prices m kw, ~ In m ["mean_historical_return"; "ema_historical_return"; "capm_return"] -> return_model_kw prices m kw = Err NotImplementedError.
Proof.
  intros prices m kw H. unfold return_model_kw.
  repeat match goal with |- context [String.eqb m ?s] => destruct (String.eqb_spec m s) as [->|_]; [exfalso; apply H; cbn; auto 10|] end. reflexivity.
Qed.
