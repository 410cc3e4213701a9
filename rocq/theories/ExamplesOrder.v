(** * Concrete cases for the theorems in PropertiesOrder.v *)
From Coq Require Import ZArith List String Bool Reals Lra Lia Permutation.
From Verif Require Import Num Py RBase PyLemmas MBase MFrame MHRP MReturns MRisk SLin SHRP SHRP3 SHRP2 SReturns SRisk SShrink SPerm MAlloc SAlloc SOrder PPerm POrder3 ExamplesHRP ExamplesNames PropertiesOrder.
Import ListNotations.
Local Open Scope R_scope.

(** three assets on five dates, listed as A, B, C and as C, A, B *)
Definition turned := [2; 0; 1]%nat.
Example ex_c128_table : price_table 4 dates5 n3 p5 /\ ordering (List.length n3) turned /\ pick (LInt 0) turned n3 = [tC; tA; tB].
Proof.
  destruct ex_c98_prices as (H1 & H2 & H3 & H4 & H5 & _). split; [|split; [|reflexivity]].
  - split; [exact H1|]. split; [exact H2|]. split; [exact H3|]. intros t Ht. auto.
  - unfold ordering, turned. cbn. apply (Permutation_trans (l' := [0; 2; 1]%nat)); [apply perm_swap|]. apply perm_skip, perm_swap.
Qed.
(** the other hypotheses for these data *)
Example ex_c128_returns : (forall t, In t n3 -> -1 < ema_value 500 (simple_returns (p5 t))) /\ ~ In (LStr "mkt") n3 /\
  let mk := market 4 n3 (fun t => simple_returns (p5 t)) in sample_covariance mk mk <> 0 /\ Forall (fun v => -1 < v) mk.
Proof.
  split; [exact ex_c98_ema|]. split; [apply ex_c98_prices|]. cbv zeta. change (fun t => simple_returns (p5 t)) with x4. rewrite market4. destruct ex_c99_market as (_ & E & F). rewrite E. split; [lra|exact F].
Qed.
Example ex_c128_single_factor : forall eigh sk1 sk2, covariances_reordered eigh sk1 sk2 4 dates5 n3 p5 turned "ledoit_wolf_single_factor".
Proof.
  intros eigh sk1 sk2. apply c128_single_factor; try apply ex_c128_table.
  - apply ex_c128_returns.
  - exact ex_c99_gamma_market.
Qed.
Example ex_c128_constant : forall eigh sk1 sk2, covariances_reordered eigh sk1 sk2 4 dates5 n3 p5 turned "ledoit_wolf_constant_correlation".
Proof.
  intros eigh sk1 sk2. apply c128_constant_correlation; try apply ex_c128_table.
  - cbn; lia.
  - exact ex_c98_varies.
  - change (List.length n3) with 3%nat. change (fun t => simple_returns (p5 t)) with x4. rewrite ex_c99_mean_correlation. intros E. pose proof ex_c99_gamma as G. cbv zeta in G. unfold x4 in G. rewrite G in E. lra.
Qed.
(** different weights in another order *)
Example ex_c128_greedy : Permutation [(tA, 2/3); (tB, 1/3)] [(tB, 1/3); (tA, 2/3)] /\ NoDup (map (@snd label R) [(tA, 2/3); (tB, 1/3)]).
Proof. split; [apply perm_swap|]. cbn [map snd]. constructor; [intros [H|[]]; lra|]. constructor; [intros []|constructor]. Qed.
(** a linkage function that answers with the linkage of the five assets *)
Example ex_c128_linkage : exists lk : linkage_oracle, linkage_valid lk "single" 5 /\ lk "single"%string (pair_distances five_distance five) = five_link.
Proof. exists (fun _ _ => five_link). split; [intros d; exact five_valid|reflexivity]. Qed.
