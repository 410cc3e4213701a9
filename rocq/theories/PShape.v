(** * A covariance of the wrong shape *)
From Coq Require Import ZArith List String Bool Reals Lia Arith.
From Verif Require Import Num Py MBase MConvex MEF SLin.
Import ListNotations.

Theorem min_volatility_shape : forall sv w o, ~ square (e_n o) (e_cov o) -> min_volatility sv w o = (w, o, Err ShapeError).
Proof.
  intros sv w o H. unfold min_volatility, bind, get, check_cov.
  assert (E : ((List.length (e_cov o) =? e_n o)%nat && forallb (fun r => (List.length r =? e_n o)%nat) (e_cov o))%bool = false).
  { apply Bool.not_true_iff_false. intros E. apply H. apply andb_true_iff in E. destruct E as [E1 E2]. apply Nat.eqb_eq in E1. rewrite forallb_forall in E2.
    split; [exact E1|]. apply Forall_forall. intros r Hr. apply Nat.eqb_eq. apply E2. exact Hr. }
  unfold bind, get. rewrite E. reflexivity.
Qed.
