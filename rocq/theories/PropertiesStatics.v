(** * Property theorems: how the answers move when a parameter moves *)
From Coq Require Import ZArith List String Bool Reals.
From Verif Require Import Num Py MBase MConvex MEF MDown SLin SBase SObj SConvex SDown SPrep SExist SCurve SStatics PStatics PStatics2.
Import ListNotations.
Local Open Scope R_scope.

(** C114: more weight on an added term *)
Theorem c114_weight : forall mi c b w0 w1 o mu, ef_init (MIn mi) (CIn c) b w0 = (w1, Ok o) ->
  square (List.length (cov_values c)) (cov_values c) -> List.length (cov_values c) = e_n o -> mu_values mi = Some mu -> free_names w0 ->
  forall f h a steps sv pinv sv' pinv' g g', weighted_term (e_n o) f h -> Forall (sensible (e_w o) (List.length (w_params w1))) steps ->
  exact_solver sv -> exact_solver sv' -> g < g' ->
  let run sv pinv g := with_steps (AddObjective (f g) :: steps) (pursue sv pinv a) w1 o in
  succeeds (run sv pinv g) -> succeeds (run sv' pinv' g') ->
  exists x x', reports (run sv pinv g) x /\ reports (run sv' pinv' g') x' /\ h x' <= h x /\
    (Forall only_demands steps -> 0 <= g -> amount mu (cov_values c) a x <= amount mu (cov_values c) a x').
Proof. exact more_weight. Qed.
Print Assumptions c114_weight.
Theorem c114_terms : forall n,
  weighted_term n (fun g v => L2_reg_e (EVar v) g) (fun x => inner x x) /\
  forall prev, List.length prev = n -> weighted_term n (fun k v => transaction_cost_e (EVar v) prev k) (fun x => total (map Rabs (differences x prev))).
Proof. intros n. split; [exact (L2_term n)|exact (cost_term n)]. Qed.
Print Assumptions c114_terms.
(** one constraint more *)
Theorem c114_constraint : forall mi c b w0 w1 o mu, ef_init (MIn mi) (CIn c) b w0 = (w1, Ok o) ->
  square (List.length (cov_values c)) (cov_values c) -> List.length (cov_values c) = e_n o -> mu_values mi = Some mu -> free_names w0 ->
  forall a k steps sv pinv sv' pinv', Forall (sensible (e_w o) (List.length (w_params w1))) (k :: steps) -> Forall only_demands (k :: steps) ->
  exact_solver sv -> exact_solver sv' ->
  let run sv pinv l := with_steps l (pursue sv pinv a) w1 o in
  succeeds (run sv pinv steps) -> succeeds (run sv' pinv' (k :: steps)) ->
  exists x x', reports (run sv pinv steps) x /\ reports (run sv' pinv' (k :: steps)) x' /\ amount mu (cov_values c) a x <= amount mu (cov_values c) a x'.
Proof. exact more_demands. Qed.
Print Assumptions c114_constraint.
(** more aversion to risk *)
Theorem c114_aversion : forall mi c b w0 w1 o mu, ef_init (MIn mi) (CIn c) b w0 = (w1, Ok o) ->
  square (List.length (cov_values c)) (cov_values c) -> List.length (cov_values c) = e_n o -> mu_values mi = Some mu -> free_names w0 ->
  forall ra ra' mn steps sv sv', Forall (sensible (e_w o) (List.length (w_params w1))) steps -> exact_solver sv -> exact_solver sv' -> ra < ra' ->
  let run sv ra := with_steps steps (max_quadratic_utility sv ra mn) w1 o in
  succeeds (run sv ra) -> succeeds (run sv' ra') ->
  exists x x', reports (run sv ra) x /\ reports (run sv' ra') x' /\ qform (cov_values c) x' <= qform (cov_values c) x /\
    (Forall only_demands steps -> 0 <= ra -> inner mu x' <= inner mu x).
Proof. exact more_aversion. Qed.
Print Assumptions c114_aversion.
(** a higher risk-free rate *)
Theorem c114_rate : forall w o u m, open_ef w o u -> e_add o = [] -> e_mu o = Some m -> psd (e_n o) (e_cov o) ->
  Forall (fun ic => constant_on_one_side (e_w o) (snd ic)) u -> Forall (fun ic => known_vars (List.length (w_sizes w)) (snd ic)) u ->
  forall sv sv' rf rf', exact_solver sv -> exact_solver sv' -> rf < rf' ->
  succeeds (max_sharpe sv (NFloat rf) w o) -> succeeds (max_sharpe sv' (NFloat rf') w o) ->
  let vol x := sqrt (qform (e_cov o) x) in
  exists x x', reports (max_sharpe sv (NFloat rf) w o) x /\ reports (max_sharpe sv' (NFloat rf') w o) x' /\
    vol x <= vol x' /\
    (0 < vol x -> inner m x <= inner m x' /\ (inner m x' - rf') / vol x' < (inner m x - rf) / vol x).
Proof. exact more_rate. Qed.
Print Assumptions c114_rate.
(** a higher level beta of the tail measures *)
Theorem c114_cvar_level : forall mi n rows beta beta' b w0 w1 o d w1' o' d', good_rows n rows ->
  cvar_init mi (RTable n rows) beta b w0 = (w1, Ok (o, d)) -> cvar_init mi (RTable n rows) beta' b w0 = (w1', Ok (o', d')) -> beta <= beta' ->
  forall sv sv' mn, exact_solver sv -> exact_solver sv' -> succeeds (min_cvar sv d mn w1 o) -> succeeds (min_cvar sv' d' mn w1' o') ->
  exists x x', reports (min_cvar sv d mn w1 o) x /\ reports (min_cvar sv' d' mn w1' o') x' /\ cvar beta (dropna rows) x <= cvar beta' (dropna rows) x'.
Proof. exact cvar_level. Qed.
Print Assumptions c114_cvar_level.
Theorem c114_cdar_level : forall mi n rows beta beta' b w0 w1 o d w1' o' d', good_rows n rows ->
  cdar_init mi (RTable n rows) beta b w0 = (w1, Ok (o, d)) -> cdar_init mi (RTable n rows) beta' b w0 = (w1', Ok (o', d')) -> beta <= beta' ->
  forall sv sv' mn, exact_solver sv -> exact_solver sv' -> succeeds (min_cdar sv d mn w1 o) -> succeeds (min_cdar sv' d' mn w1' o') ->
  exists x x', reports (min_cdar sv d mn w1 o) x /\ reports (min_cdar sv' d' mn w1' o') x' /\ cdar beta (dropna rows) x <= cdar beta' (dropna rows) x'.
Proof. exact cdar_level. Qed.
Print Assumptions c114_cdar_level.
(** a higher benchmark *)
Theorem c114_benchmark : forall mi n rows freq bench bench' b w0 w1 o d w1' o' d', good_rows n rows ->
  semi_init mi (RTable n rows) freq bench b w0 = (w1, Ok (o, d)) -> semi_init mi (RTable n rows) freq bench' b w0 = (w1', Ok (o', d')) -> bench <= bench' ->
  forall sv sv', exact_solver sv -> exact_solver sv' -> succeeds (min_semivariance sv d false w1 o) -> succeeds (min_semivariance sv' d' false w1' o') ->
  exists x x', reports (min_semivariance sv d false w1 o) x /\ reports (min_semivariance sv' d' false w1' o') x' /\ semivariance (dropna rows) bench x <= semivariance (dropna rows) bench' x'.
Proof. exact semi_benchmark. Qed.
Print Assumptions c114_benchmark.
