(** * How Black-Litterman answers to a change of the views (C136) *)
From Coq Require Import List Reals.
From Verif Require Import Num Py MBase SLin SBL MBL SViews SToward PToward2 PTowardW.
Import ListNotations.
Local Open Scope R_scope.

(** part of the way from one list of views to another is part of the way between the answers *)
Theorem c136_part_way : forall la a Q1 Q2 P om c o1 t, exact_linalg la -> bl_init (with_views a Q1 P om c) = Ok o1 -> length Q2 = length Q1 ->
  psd (bl_n o1) (bl_sigma o1) -> symmetric (bl_n o1) (bl_sigma o1) -> psd (length Q1) (bl_omega o1) -> symmetric (length Q1) (bl_omega o1) ->
  exists o2 o3, bl_init (with_views a Q2 P om c) = Ok o2 /\ bl_init (with_views a (part_way t Q1 Q2) P om c) = Ok o3 /\
    snd (bl_returns la o3) = part_way t (snd (bl_returns la o1)) (snd (bl_returns la o2)) /\
    snd (bl_cov la o2) = snd (bl_cov la o1) /\ snd (bl_cov la o3) = snd (bl_cov la o1).
Proof. exact affine_views. Qed.
Print Assumptions c136_part_way.
(** one view raised: the return of its portfolio rises, by no more than the view *)
Theorem c136_raised : forall la a Q Q' P om c o j d, exact_linalg la -> bl_init (with_views a Q P om c) = Ok o -> raised_view j d Q Q' -> 0 <= d ->
  om = OmDefault \/ om = OmIdzorek -> psd (bl_n o) (bl_sigma o) -> symmetric (bl_n o) (bl_sigma o) ->
  exists o', bl_init (with_views a Q' P om c) = Ok o' /\ let p := nth j P [] in
    0 <= inner p (snd (bl_returns la o')) - inner p (snd (bl_returns la o)) <= d.
Proof. exact raise_chosen. Qed.
Print Assumptions c136_raised.
(** the same for any matrix of uncorrelated errors *)
Theorem c136_raised_matrix : forall la a Q Q' P om c o j d, exact_linalg la -> bl_init (with_views a Q P om c) = Ok o -> raised_view j d Q Q' -> 0 <= d ->
  psd (bl_n o) (bl_sigma o) -> symmetric (bl_n o) (bl_sigma o) -> psd (length Q) (bl_omega o) -> symmetric (length Q) (bl_omega o) -> uncorrelated (length Q) (bl_omega o) ->
  exists o', bl_init (with_views a Q' P om c) = Ok o' /\ let p := nth j P [] in
    0 <= inner p (snd (bl_returns la o')) - inner p (snd (bl_returns la o)) <= d.
Proof. exact raise_matrix. Qed.
Print Assumptions c136_raised_matrix.
(** the same for a dictionary of returns: the ticker itself *)
Theorem c136_raised_dict : forall la a v1 l q v2 q' om c o, exact_linalg la -> bl_init (with_dict a (v1 ++ (l, q) :: v2) om c) = Ok o -> q <= q' ->
  om = OmDefault \/ om = OmIdzorek -> psd (bl_n o) (bl_sigma o) -> symmetric (bl_n o) (bl_sigma o) -> length (cov_tickers (a_cov a)) = bl_n o ->
  exists o' r r', bl_init (with_dict a (v1 ++ (l, q') :: v2) om c) = Ok o' /\
    dget l (combine (cov_tickers (a_cov a)) (snd (bl_returns la o))) = Some r /\ dget l (combine (cov_tickers (a_cov a)) (snd (bl_returns la o'))) = Some r' /\
    0 <= r' - r <= q' - q.
Proof. exact raise_dict. Qed.
Print Assumptions c136_raised_dict.
(** a single view: every asset moves with its covariance to the portfolio of the view *)
Theorem c136_single : forall la o, exact_linalg la -> reachable la o -> length (bl_Q o) = 1%nat ->
  psd (bl_n o) (bl_sigma o) -> symmetric (bl_n o) (bl_sigma o) -> 0 <= entry (bl_omega o) 0 0 ->
  let p := nth 0 (bl_P o) [] in let v := bl_tau o * qform (bl_sigma o) p + entry (bl_omega o) 0 0 in
  0 < v -> forall i, (i < bl_n o)%nat ->
  nth i (snd (bl_returns la o)) 0 = nth i (bl_pi o) 0 + bl_tau o * inner (nth i (bl_sigma o) []) p / v * (nth 0 (bl_Q o) 0 - inner p (bl_pi o)).
Proof. exact single_asset. Qed.
Print Assumptions c136_single.
(** all the views together are nearer than under the prior, in units of their errors *)
Theorem c136_nearer : forall la o, exact_linalg la -> reachable la o -> forall precS precO,
  pos_def (bl_n o) (bl_sigma o) -> symmetric (bl_n o) (bl_sigma o) -> pos_def (length (bl_Q o)) (bl_omega o) -> symmetric (length (bl_Q o)) (bl_omega o) ->
  right_inverse (bl_n o) (scale_matrix (bl_tau o) (bl_sigma o)) precS -> right_inverse (length (bl_Q o)) (bl_omega o) precO ->
  let mu := snd (bl_returns la o) in
  qform precS (minus_vec mu (bl_pi o)) + qform precO (minus_vec (bl_Q o) (mat_vec (bl_P o) mu)) <= qform precO (minus_vec (bl_Q o) (mat_vec (bl_P o) (bl_pi o))) /\
  0 <= qform precS (minus_vec mu (bl_pi o)) /\
  (qform precS (minus_vec mu (bl_pi o)) = 0 -> mu = bl_pi o).
Proof. exact closer_views. Qed.
Print Assumptions c136_nearer.
(** not so each view of several: the answer may lie on the other side of the prior *)
Theorem c136_own_view_refuted : forall la, exact_linalg la -> exists a Q P o, bl_init (with_views a Q P OmDefault ConfNone) = Ok o /\
  pos_def (bl_n o) (bl_sigma o) /\ symmetric (bl_n o) (bl_sigma o) /\ (forall x, length x = bl_n o -> mat_vec P x = x) /\
  nth 0 (bl_pi o) 0 = 0 /\ nth 0 Q 0 = 1 /\ nth 0 (snd (bl_returns la o)) 0 = - 3 / 5.
Proof. exact own_view_away. Qed.
Print Assumptions c136_own_view_refuted.
(** with correlated errors a view can be raised and the return of its asset fall *)
Theorem c136_raised_refuted : forall la, exact_linalg la -> exists a Q Q' P Om o o', bl_init (with_views a Q P (OmArr Om) ConfNone) = Ok o /\ bl_init (with_views a Q' P (OmArr Om) ConfNone) = Ok o' /\
  pos_def (bl_n o) (bl_sigma o) /\ symmetric (bl_n o) (bl_sigma o) /\ pos_def (length Q) Om /\ symmetric (length Q) Om /\ (forall x, length x = bl_n o -> mat_vec P x = x) /\
  raised_view 0 17 Q Q' /\ nth 0 (snd (bl_returns la o)) 0 = 0 /\ nth 0 (snd (bl_returns la o')) 0 = - 1.
Proof. exact raise_falls. Qed.
Print Assumptions c136_raised_refuted.
