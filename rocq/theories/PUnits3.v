(** * Units of measurement: prices (C129) *)
From Coq Require Import ZArith List String Bool Reals Lra Lia.
From Verif Require Import Num Py RBase PyLemmas MFrame MReturns MRisk SUnits.
Import ListNotations.
Local Open Scope R_scope.
Notation reprice := (map2 (fun k x => option_map (Rmult k) x)).

Lemma pct_cell_units : forall k a b, k <> 0 -> pct_cell (option_map (Rmult k) a) (option_map (Rmult k) b) = pct_cell a b.
Proof.
  intros k [a|] [b|] Hk; try reflexivity. cbn [option_map pct_cell].
  assert (Z : forall x, Reqb (k * x) 0 = Reqb x 0).
  { intros x. destruct (Reqb x 0) eqn:E; [apply Reqb_true in E; subst; rewrite Rmult_0_r; apply Reqb_true; reflexivity|].
    destruct (Reqb (k * x) 0) eqn:F; [|reflexivity]. apply Reqb_true in F. apply Rmult_integral in F as [F|F]; [contradiction|]. apply Reqb_true in F. congruence. }
  rewrite !Z. destruct (Reqb a 0) eqn:E; [reflexivity|]. do 2 f_equal. assert (a <> 0) by (intros ->; rewrite (proj2 (Reqb_true 0 0) eq_refl) in E; discriminate). field. auto.
Qed.
Lemma pct_row_units : forall ks p c, Forall (fun k => k <> 0) ks -> List.length p = List.length ks -> List.length c = List.length ks ->
  pct_row (reprice ks p) (reprice ks c) = pct_row p c.
Proof.
  induction ks as [|k ks IH]; intros [|a p] [|b c] F Lp Lc; try discriminate; [reflexivity|]. inversion F; subst. cbn [map2 pct_row].
  rewrite pct_cell_units by assumption. rewrite IH; auto.
Qed.
Lemma pct_rows_units : forall ks rows prev, Forall (fun k => k <> 0) ks -> List.length prev = List.length ks -> Forall (fun r => List.length r = List.length ks) rows ->
  pct_rows (reprice ks prev) (map (reprice ks) rows) = pct_rows prev rows.
Proof.
  intros ks. induction rows as [|r rows IH]; intros prev F Lp Fr; [reflexivity|]. inversion Fr; subst. cbn [map pct_rows]. rewrite pct_row_units by assumption. rewrite IH; auto.
Qed.
Lemma reprice_nones : forall ks r, List.length r = List.length ks -> map (fun _ : option R => @None R) (reprice ks r) = map (fun _ => None) r.
Proof. induction ks as [|k ks IH]; intros [|x r] L; try discriminate; [reflexivity|]. cbn [map2 map]. rewrite IH; [reflexivity|]. cbn in L. lia. Qed.
Lemma pct_change_units : forall ks f, price_units ks f -> f_rows f <> [] -> pct_change (repriced ks f) = pct_change f.
Proof.
  intros ks f [F Fr] Hne. unfold pct_change, repriced. cbn [f_rows f_index f_cols]. destruct (f_rows f) as [|r rows] eqn:E; [contradiction|].
  inversion Fr; subst. cbn [map]. rewrite pct_rows_units, reprice_nones by assumption. reflexivity.
Qed.
Theorem units_returns : forall ks f log, price_units ks f -> returns_from_prices (repriced ks f) log = returns_from_prices f log.
Proof.
  intros ks f log H. unfold returns_from_prices. destruct (f_rows f) as [|r rows] eqn:E.
  - destruct f as [ix cl rw]. cbn in E. subst rw. reflexivity.
  - rewrite pct_change_units; [reflexivity|exact H|congruence].
Qed.
Lemma units_get_returns : forall ks f log, price_units ks f -> get_returns (repriced ks f) false log = get_returns f false log.
Proof. intros. apply units_returns. assumption. Qed.

Theorem units_return_estimates : forall ks f, price_units ks f ->
  (forall compounding frequency log, mean_historical_return (repriced ks f) false compounding frequency log = mean_historical_return f false compounding frequency log) /\
  (forall compounding span frequency log, ema_historical_return (repriced ks f) false compounding span frequency log = ema_historical_return f false compounding span frequency log) /\
  (forall rf compounding frequency log, snd (capm_return (repriced ks f) None false rf compounding frequency log) = snd (capm_return f None false rf compounding frequency log)) /\
  (forall km mk rf compounding frequency log, price_units km mk ->
     snd (capm_return (repriced ks f) (Some (repriced km mk)) false rf compounding frequency log) = snd (capm_return f (Some mk) false rf compounding frequency log)) /\
  (forall method, return_model (repriced ks f) method = return_model f method).
Proof.
  intros ks f H.
  assert (A : forall compounding frequency log, mean_historical_return (repriced ks f) false compounding frequency log = mean_historical_return f false compounding frequency log)
    by (intros; unfold mean_historical_return; rewrite units_returns by exact H; reflexivity).
  assert (B : forall compounding span frequency log, ema_historical_return (repriced ks f) false compounding span frequency log = ema_historical_return f false compounding span frequency log)
    by (intros; unfold ema_historical_return; rewrite units_returns by exact H; reflexivity).
  assert (C : forall rf compounding frequency log, snd (capm_return (repriced ks f) None false rf compounding frequency log) = snd (capm_return f None false rf compounding frequency log))
    by (intros; unfold capm_return; cbn [snd]; rewrite units_returns by exact H; reflexivity).
  split; [exact A|]. split; [exact B|]. split; [exact C|]. split.
  - intros km mk rf compounding frequency log Hm. unfold capm_return. cbn [snd]. rewrite !units_returns by assumption. reflexivity.
  - intros method. unfold return_model. rewrite A, B, C. reflexivity.
Qed.
Theorem units_risk_estimates : forall ks f, price_units ks f -> forall eigh,
  (forall frequency log fx, sample_cov eigh (repriced ks f) false frequency log fx = sample_cov eigh f false frequency log fx) /\
  (forall benchmark frequency log fx, semicovariance eigh (repriced ks f) false benchmark frequency log fx = semicovariance eigh f false benchmark frequency log fx) /\
  (forall span frequency log fx, exp_cov eigh (repriced ks f) false span frequency log fx = exp_cov eigh f false span frequency log fx) /\
  (forall frequency log, shrinkage_init (repriced ks f) false frequency log = shrinkage_init f false frequency log) /\
  (forall sk_lw sk_oas method, risk_matrix eigh sk_lw sk_oas (repriced ks f) method = risk_matrix eigh sk_lw sk_oas f method).
Proof.
  intros ks f H eigh.
  assert (A : forall frequency log fx, sample_cov eigh (repriced ks f) false frequency log fx = sample_cov eigh f false frequency log fx)
    by (intros; unfold sample_cov; rewrite units_get_returns by exact H; reflexivity).
  assert (B : forall benchmark frequency log fx, semicovariance eigh (repriced ks f) false benchmark frequency log fx = semicovariance eigh f false benchmark frequency log fx)
    by (intros; unfold semicovariance; rewrite units_get_returns by exact H; reflexivity).
  assert (C : forall span frequency log fx, exp_cov eigh (repriced ks f) false span frequency log fx = exp_cov eigh f false span frequency log fx)
    by (intros; unfold exp_cov; rewrite units_get_returns by exact H; reflexivity).
  assert (D : forall frequency log, shrinkage_init (repriced ks f) false frequency log = shrinkage_init f false frequency log)
    by (intros; unfold shrinkage_init; rewrite units_get_returns by exact H; reflexivity).
  split; [exact A|]. split; [exact B|]. split; [exact C|]. split; [exact D|]. intros sk_lw sk_oas method. unfold risk_matrix. rewrite A, B, C, D. reflexivity.
Qed.
