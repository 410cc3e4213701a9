(** * Specifications of downside risk measures *)
From Coq Require Import List Reals.
From Verif Require Import SLin MBase MConvex MEF MDown.
Import ListNotations.
Local Open Scope R_scope.

(** returns of the portfolio [x] in each period *)
Definition period_returns (rets : list (list R)) (x : list R) : list R := map (fun row => inner row x) rets.

(** ** semivariance: mean of the squared shortfalls below the benchmark *)
Definition shortfall (b y : R) : R := if Rlt_dec y b then b - y else 0.
Definition semivariance (rets : list (list R)) (b : R) (x : list R) : R :=
  total (map (fun y => shortfall b y * shortfall b y) (period_returns rets x)) / INR (length rets).

(** ** the mean of the worst [k] entries of a list, [k] a positive real not above its length: the
    largest floor(k) entries count fully and the next one for the rest *)
Fixpoint insert_desc (a : R) (l : list R) : list R :=
  match l with [] => [a] | b :: l' => if Rle_dec b a then a :: b :: l' else b :: insert_desc a l' end.
Fixpoint sort_desc (l : list R) : list R := match l with [] => [] | a :: l' => insert_desc a (sort_desc l') end.
Fixpoint first (k : R) (l : list R) : R :=
  match l with
  | [] => 0
  | a :: l' => if Rle_dec k 1 then k * a else a + first (k - 1) l'
  end.
Definition worst_mean (beta : R) (l : list R) : R :=
  let k := (1 - beta) * INR (length l) in first k (sort_desc l) / k.

(** conditional value at risk: mean of the worst share [1 - beta] of the losses *)
Definition cvar (beta : R) (rets : list (list R)) (x : list R) : R :=
  worst_mean beta (map Ropp (period_returns rets x)).

(** ** drawdowns of the uncompounded cumulative return from its running maximum; both start at 0 *)
Fixpoint drawdowns_from (peak level : R) (rs : list R) : list R :=
  match rs with
  | [] => []
  | r :: rs' => (Rmax peak (level + r) - (level + r)) :: drawdowns_from (Rmax peak (level + r)) (level + r) rs'
  end.
Definition cdar (beta : R) (rets : list (list R)) (x : list R) : R :=
  worst_mean beta (drawdowns_from 0 0 (period_returns rets x)).

(** ** What may occur in constraints and objectives added by the user *)
(** variable [v] is the weights, or occurs in an added constraint or objective *)
Definition uses (o : ef) (u : list (nat * con)) (v : nat) : Prop :=
  v = e_w o \/ In v (flat_map (fun ic => cvars (snd ic)) u) \/ In v (flat_map evars (e_add o)).

(** a table of returns with at least one row, one column per asset *)
Definition table (o : ef) (rets : list (list R)) : Prop :=
  (0 < length rets)%nat /\ Forall (fun row => length row = e_n o) rets.
(** the auxiliary variables of EfficientCVaR exist and are not used by the user *)
Definition cvar_ready (w : world) (o : ef) (u : list (nat * con)) (d : cvar_data) : Prop :=
  table o (cv_returns d) /\ 0 <= cv_beta d < 1 /\
  nth_error (w_sizes w) (cv_alpha d) = Some 1%nat /\
  nth_error (w_sizes w) (cv_u d) = Some (length (cv_returns d)) /\ cv_alpha d <> cv_u d /\
  ~ uses o u (cv_alpha d) /\ ~ uses o u (cv_u d).
Definition cdar_ready (w : world) (o : ef) (u : list (nat * con)) (d : cdar_data) : Prop :=
  table o (cd_returns d) /\ 0 <= cd_beta d < 1 /\
  nth_error (w_sizes w) (cd_alpha d) = Some 1%nat /\
  nth_error (w_sizes w) (cd_u d) = Some (S (length (cd_returns d))) /\
  nth_error (w_sizes w) (cd_z d) = Some (length (cd_returns d)) /\
  cd_alpha d <> cd_u d /\ cd_alpha d <> cd_z d /\ cd_u d <> cd_z d /\
  ~ uses o u (cd_alpha d) /\ ~ uses o u (cd_u d) /\ ~ uses o u (cd_z d).
(** the variables the user's constraints and objectives mention exist *)
Definition semi_ready (w : world) (o : ef) (u : list (nat * con)) (d : semi) : Prop :=
  table o (sd_returns d) /\ forall v, uses o u v -> (v < length (w_sizes w))%nat.
(** a rectangular table, with at least one row without gaps *)
Definition good_rows (n : nat) (rows : list (list (option R))) : Prop :=
  Forall (fun r => length r = n) rows /\ exists r l, In r rows /\ complete r = Some l.
