(** * Specification of the order in which assets are listed (C128) *)
From Coq Require Import List String Bool Reals.
From Verif Require Import Py SLin MFrame MRisk SHRP SHRP2 SPerm.
Import ListNotations.
Local Open Scope R_scope.

(** a covariance matrix over [names], and the same one over the re-ordered names *)
Definition reordered_frames (p : list nat) (names : list label) (F F' : frame R) : Prop :=
  exists r, F = mkFrame names names r /\ square (List.length names) r /\
    F' = mkFrame (pick (LInt 0) p names) (pick (LInt 0) p names) (cov_reordered p r).

(** the covariance estimates of the price table with its columns re-ordered are the re-ordered estimates *)
Definition covariances_reordered (eigh : eigh_oracle) (sk_lw sk_oas : shrink_oracle) (T : nat) (dates names : list label) (prc : label -> list R) (p : list nat) (m : string) : Prop :=
  forall F, risk_matrix eigh sk_lw sk_oas (history (S T) dates names prc) m = Ok F ->
  exists F', risk_matrix eigh sk_lw sk_oas (history (S T) dates (pick (LInt 0) p names) prc) m = Ok F' /\ reordered_frames p names F F'.

(** a table of positive prices: T + 1 dates, one column per name *)
Definition price_table (T : nat) (dates names : list label) (prc : label -> list R) : Prop :=
  (2 <= T)%nat /\ names <> [] /\ List.length dates = S T /\ forall t, In t names -> List.length (prc t) = S T /\ Forall (fun v => 0 < v) (prc t).

(** ** Single linkage *)
(** cluster number [i] exists before row [k] of the linkage matrix and has not been merged yet *)
Definition unmerged (n : nat) (link : list (nat * nat * nat)) (k i : nat) : Prop :=
  (i < n + k)%nat /\ forall m a b s, (m < k)%nat -> nth_error link m = Some (a, b, s) -> i <> a /\ i <> b.
(** the distance between the two nearest members *)
Definition nearest (g : nat -> nat -> R) (la lb : list nat) (d : R) : Prop :=
  (exists x y, In x la /\ In y lb /\ d = g x y) /\ forall x y, In x la -> In y lb -> d <= g x y.
(** every row merges the two nearest clusters, the one with the lower number first, and no other two clusters are as near:
    single linkage has no other answer *)
Definition only_single_linkage (n : nat) (g : nat -> nat -> R) (link : list (nat * nat * nat)) : Prop :=
  forall k a b s, nth_error link k = Some (a, b, s) -> (a < b)%nat /\ unmerged n link k a /\ unmerged n link k b /\
    exists la lb d, gathered n link a la /\ gathered n link b lb /\ nearest g la lb d /\
      forall a' b' la' lb' d', (a' < b')%nat -> unmerged n link k a' -> unmerged n link k b' -> (a', b') <> (a, b) ->
        gathered n link a' la' -> gathered n link b' lb' -> nearest g la' lb' d' -> d < d'.
