(** * Specification vocabulary for the reports on an allocation *)
From Coq Require Import ZArith List Reals Permutation.
From Verif Require Import Num Py MAlloc SAlloc.
Import ListNotations.
Local Open Scope R_scope.

(** sum of the squared distances between the target weights and the fractions really held *)
Definition square_distance (w prices : dict R) (al : dict Z) : R :=
  fold_right (fun kv s => (snd kv - held_fraction prices al (fst kv))² + s) 0 w.

(** every ticker that is held has a price *)
Definition held_priced (al : dict Z) (prices : dict R) : Prop :=
  forall t n, In (t, n) al -> exists p, dget t prices = Some p.

(** a list of bars shows a dictionary: the same pairs, the longest bar first *)
Definition descending (l : list R) : Prop :=
  forall i j, (i < j)%nat -> (j < length l)%nat -> nth j l 0 <= nth i l 0.

(** the two halves of a long/short portfolio, each scaled to sum to one; short targets positive *)
Definition long_side (w : dict R) : dict R :=
  let l := filter (fun kv => if Rle_dec 0 (snd kv) then true else false) w in
  map (fun kv => (fst kv, snd kv / total_weight l)) l.
Definition short_side (w : dict R) : dict R :=
  let l := filter (fun kv => if Rlt_dec (snd kv) 0 then true else false) w in
  map (fun kv => (fst kv, - snd kv / short_total w)) l.
