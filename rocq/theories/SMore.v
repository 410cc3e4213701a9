(** Further demands on the portfolio: added constraints and narrower bounds (C134). *)
From Coq Require Import List String Reals.
From Verif Require Import Py SLin SBase MBase MConvex MEF SConvex SUnique.
Import ListNotations.
Local Open Scope R_scope.

Definition same_bounds (o o1 : ef) : Prop := e_lb o1 = e_lb o /\ e_ub o1 = e_ub o.
(** [o1] is about the same assets as [o]; every constraint of [o] is one of [o1]; the bounds are the same, or the
    portfolio is not market neutral and whatever is within the bounds of [o1] is within those of [o] *)
Definition tighter (mn : bool) (w : world) (o : ef) (u : list (nat * con)) (w1 : world) (o1 : ef) (u1 : list (nat * con)) : Prop :=
  w_sizes w1 = w_sizes w /\ w_params w1 = w_params w /\ e_w o1 = e_w o /\ b_tickers (e_base o1) = b_tickers (e_base o) /\
  e_cov o1 = e_cov o /\ e_mu o1 = e_mu o /\ e_add o1 = e_add o /\ incl (map snd u) (map snd u1) /\
  (same_bounds o o1 \/ mn = false /\ forall x, within (e_lb o1) (e_ub o1) x -> within (e_lb o) (e_ub o) x).
(** the values [s] meet the further demands *)
Definition meets (w : world) (o o1 : ef) (u1 : list (nat * con)) (s : env) : Prop :=
  Forall (fun ic => sat s (par_values w) (snd ic)) u1 /\
  (same_bounds o o1 \/ within (e_lb o1) (e_ub o1) (s (e_w o))).
(** the dictionary [d] and the weights of [o'] are, rounded to 16 decimals, those in [s] *)
Definition reported (o : ef) (s : env) (o' : ef) (d : dict R) : Prop :=
  exists r, e_weights o' = Some r /\ Forall2 (rounded 16) (s (e_w o)) r /\ d = dict_of_pairs (combine (b_tickers (e_base o)) r).
(** what a method minimises *)
Definition value (w : world) (o : ef) (cost : list R -> R) (s : env) : R :=
  cost (s (e_w o)) + penalty s (par_values w) (e_add o).

(** if both runs succeed, the answer with the further demands meets them, is not better than the answer without,
    and just as good if the latter meets them anyway *)
Definition no_gain (w : world) (o o1 : ef) (u1 : list (nat * con)) (cost : list R -> R) (before after : world * ef * res (dict R)) : Prop :=
  match before, after with
  | (_, ob, Ok db), (_, oa, Ok da) =>
      exists s s', reported o s ob db /\ reported o s' oa da /\ meets w o o1 u1 s' /\
        value w o cost s <= value w o cost s' /\ (meets w o o1 u1 s -> value w o cost s' = value w o cost s)
  | _, _ => True
  end.
(** if both runs succeed and the answer without the further demands meets them anyway, the answers are equal *)
Definition idle (w : world) (o o1 : ef) (u1 : list (nat * con)) (before after : world * ef * res (dict R)) : Prop :=
  match before, after with
  | (_, ob, Ok db), (_, _, Ok _) => exists s, reported o s ob db /\ (meets w o o1 u1 s -> same_answer before after)
  | _, _ => True
  end.
(** the same for the Sharpe ratio; ratios are compared without dividing *)
Definition no_ratio_gain (w : world) (o o1 : ef) (u1 : list (nat * con)) (m : list R) (rf : R) (before after : world * ef * res (dict R)) : Prop :=
  match before, after with
  | (_, ob, Ok db), (_, oa, Ok da) =>
      exists s s', reported o s ob db /\ reported o s' oa da /\ meets w o o1 u1 s' /\
        let x := s (e_w o) in let y := s' (e_w o) in
        excess m rf y * sqrt (qform (e_cov o) x) <= excess m rf x * sqrt (qform (e_cov o) y) /\
        (meets w o o1 u1 s -> excess m rf y * sqrt (qform (e_cov o) x) = excess m rf x * sqrt (qform (e_cov o) y))
  | _, _ => True
  end.
(** both claims, where a strictly convex added objective leaves one answer *)
Definition never_helps (w : world) (o : ef) (w1 : world) (o1 : ef) (u1 : list (nat * con)) (cost : list R -> R) (before after : world * ef * res (dict R)) : Prop :=
  no_gain w o o1 u1 cost before after /\ (convex_problem w1 o1 u1 -> regularised w1 o1 -> idle w o o1 u1 before after).
