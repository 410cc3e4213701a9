(** * A rounding in the sense of C118: 53 binary digits, to nearest, ties to even *)
From Coq Require Import ZArith List Reals Lra Lia Psatz.
From Flocq Require Import Core Relative.
From Verif Require Import SRound.
Local Open Scope R_scope.

Local Instance prec53 : Prec_gt_0 53%Z. Proof. unfold Prec_gt_0. lia. Qed.

Definition b53 (x : R) : R := round radix2 (FLX_exp 53) ZnearestE x.

Lemma b53_fixed : forall m e, (Z.abs m < 2 ^ 53)%Z -> b53 (IZR m * bpow radix2 e) = IZR m * bpow radix2 e.
Proof.
  intros m e H. unfold b53. apply round_generic; [apply valid_rnd_N|]. apply generic_format_FLX. exists (Float radix2 m e); [reflexivity|exact H].
Qed.
Lemma b53_int : forall m, (Z.abs m < 2 ^ 53)%Z -> b53 (IZR m) = IZR m.
Proof. intros m H. pose proof (b53_fixed m 0 H) as E. cbn [bpow] in E. rewrite Rmult_1_r in E. exact E. Qed.
Lemma b53_quarter : forall m, (Z.abs m < 2 ^ 53)%Z -> b53 (IZR m / 4) = IZR m / 4.
Proof. intros m H. pose proof (b53_fixed m (-2) H) as E. replace (bpow radix2 (-2)) with (/ 4) in E by (cbn; lra). exact E. Qed.

Lemma b53_rounding : rounding b53.
Proof.
  split; [|split; [|split]].
  - intros x y H. apply round_le; [apply FLX_exp_valid, prec53|apply valid_rnd_N|exact H].
  - intros x. unfold b53. apply round_generic; [apply valid_rnd_N|]. apply generic_format_round; [apply FLX_exp_valid, prec53|apply valid_rnd_N].
  - apply (b53_int 0). reflexivity.
  - apply (b53_int 1). reflexivity.
Qed.
Lemma b53_accurate : accurate (/ 2 ^ 53) b53.
Proof.
  intros x. unfold b53. eapply Rle_trans; [apply relative_error_N_FLX; lia|]. apply Rmult_le_compat_r; [apply Rabs_pos|].
  unfold u_ro. change (1 - 53)%Z with (-52)%Z. cbn. lra.
Qed.
