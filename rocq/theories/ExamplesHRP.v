(** * Concrete cases for the theorems in PropertiesHRP.v *)
From Coq Require Import ZArith QArith List String Bool Reals Lra Lia Permutation.
From Verif Require Import Num Py RBase PyLemmas MBase MFrame MHRP SLin SHRP SHRP3 Sums PHRP PHRP2 PHRP3 PHRP4 PFrame PropertiesHRP.
Import ListNotations.
Local Open Scope R_scope.

Definition tA := LStr "A". Definition tB := LStr "B". Definition tC := LStr "C".
Definition abc := [tC; tA; tB].
Lemma abc_nodup : NoDup abc.
Proof. repeat constructor; cbn; intuition discriminate. Qed.

(** a valid linkage matrix of three observations: (0,2) first, then (1, that) *)
Definition link3 : list link_row := [(0, 2, 2); (1, 3, 3)]%nat.
Example link3_valid : valid_linkage 3 link3.
Proof.
  split; [lia|]. split; [reflexivity|]. split.
  - exists 1%nat, 1%nat. repeat split. exists 1%nat, 2%nat. repeat split.
  - repeat constructor; cbn; intuition discriminate.
Qed.
Example ex_c46 : get_quasi_diag link3 = Ok [1; 0; 2]%nat. Proof. reflexivity. Qed.
(** a corrupt matrix is rejected *)
Example ex_c46_bad : get_quasi_diag [(0, 2, 2); (0, 3, 3)]%nat = Err ValueError. Proof. reflexivity. Qed.
Definition lk3 : linkage_oracle := fun _ _ => link3.
Example lk3_ok : linkage_valid lk3 "single" (List.length abc). Proof. intros d. exact link3_valid. Qed.

(** correlated assets: all covariances positive *)
Definition c3 (t u : label) : R := if label_eqb t u then (if label_eqb t tA then 4 else 1) else 1/2.
Lemma c3_pos : forall t u, 0 < c3 t u.
Proof. intros t u. unfold c3. destruct (label_eqb t u); [destruct (label_eqb t tA)|]; lra. Qed.
Example c3_positive : positive_risk c3 abc.
Proof.
  intros sub x Hs _ _ Hx. unfold variance. apply total_pos; [destruct sub; [congruence|discriminate]|]. apply Forall_map, Forall_forall. intros t Ht.
  apply total_pos; [destruct sub; [congruence|discriminate]|]. apply Forall_map, Forall_forall. intros u Hu.
  apply Rmult_lt_0_compat; [apply Rmult_lt_0_compat|]; auto. apply c3_pos.
Qed.
Example ex_c42 : exists h0 h d, hrp_init HRetNone (HCovFrame (labelled abc c3)) = Ok h0 /\
  hrp_optimize lk3 "single" h0 = (h, Ok d) /\ long_portfolio abc d (h_base h).
Proof. apply c42_optimize_cov; [left; reflexivity|cbn; lia|exact abc_nodup|exact c3_positive|exact lk3_ok]. Qed.

(** two assets with three periods of returns *)
Definition x2 (t : label) : list R := if label_eqb t tA then [0; 1/10; 2/10] else [0; 2/10; 1/10].
Example ex_c42_returns : positive_risk (fun t u => sample_covariance (x2 t) (x2 u)) [tA; tB].
Proof.
  intros sub x Hs Hn Hi Hx.
  assert (Hpos : forall t u, In t [tA; tB] -> In u [tA; tB] -> 0 < sample_covariance (x2 t) (x2 u)).
  { intros t u Ht Hu. cbn [In] in Ht, Hu. destruct Ht as [<-|[<-|[]]], Hu as [<-|[<-|[]]];
      unfold sample_covariance, average, x2; cbn [label_eqb tA tB String.eqb Ascii.eqb Bool.eqb List.length seq map nth total INR]; lra. }
  unfold variance. apply total_pos; [destruct sub; [congruence|discriminate]|]. apply Forall_map, Forall_forall. intros t Ht.
  apply total_pos; [destruct sub; [congruence|discriminate]|]. apply Forall_map, Forall_forall. intros u Hu.
  apply Rmult_lt_0_compat; [apply Rmult_lt_0_compat|]; auto.
Qed.

(** C43/C45: a run over the rationals, and with the covariance matrix annualised *)
Local Existing Instance QNum.
Definition covQ : frame Q := mkFrame [tA; tB; tC] [tA; tB; tC] [[4#1; 1#2; 1#2]; [1#2; 1#1; 1#2]; [1#2; 1#2; 1#1]]%Q.
Example ex_c43 : raw_hrp_allocation covQ [tB; tA; tC] = Ok [(tB, 24#49); (tA, 5#49); (tC, 20#49)]%Q.
Proof. vm_compute. reflexivity. Qed.
Definition covQ252 : frame Q := mkFrame [tA; tB; tC] [tA; tB; tC] [[1008#1; 126#1; 126#1]; [126#1; 252#1; 126#1]; [126#1; 126#1; 252#1]]%Q.
Example ex_c45 : raw_hrp_allocation covQ252 [tB; tA; tC] = raw_hrp_allocation covQ [tB; tA; tC].
Proof. vm_compute. reflexivity. Qed.

(** C44: variances 1, 4, 2 *)
Definition c44 (t u : label) : R := if label_eqb t u then (if label_eqb t tA then 4 else if label_eqb t tB then 2 else 1) else 0.
Example ex_c44 : uncorrelated c44 abc.
Proof.
  split.
  - intros t _. unfold c44. rewrite label_eqb_refl. destruct (label_eqb t tA); [lra|]. destruct (label_eqb t tB); lra.
  - intros t u _ _ H. unfold c44. rewrite label_eqb_neq by exact H. reflexivity.
Qed.
Example ex_c44_value : map (inverse_variance c44 abc) abc = [4/7; 1/7; 2/7].
Proof. unfold inverse_variance, c44, abc. cbn [map total label_eqb tA tB tC String.eqb Ascii.eqb Bool.eqb]. f_equal; [field|]. f_equal; [field|]. f_equal; field. Qed.
(** C79 *)
Example ex_c79 : In "single"%string linkage_methods /\ 0 < c44 tA tA.
Proof. split; [left; reflexivity|]. unfold c44. cbn. lra. Qed.
