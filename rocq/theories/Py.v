(** * Python values used by the model: exceptions, labels, dictionaries, lists *)
From Coq Require Import ZArith List String Bool Ascii.
From Verif Require Import Num.
Import ListNotations.

(** ** Exceptions
    [InstantiationError] and [OptimizationError] are pypfopt/exceptions.py 8-27. *)
Inductive exn :=
| TypeError | ValueError | KeyError | IndexError | AttributeError | AssertionError
| ZeroDivisionError | OverflowError | NotImplementedError
| LinAlgError | SolverError | DCPError
  (** numpy / cvxpy complaints about incompatible shapes (ValueError or plain Exception) *)
| ShapeError
| InstantiationError | OptimizationError
  (** the real code carries on with NaN/inf at this point; the model stops *)
| FloatSpecial
  (** the model's recursion bound is exhausted: the real code is still running *)
| OutOfFuel.

Inductive res (X : Type) :=
| Ok (x : X)
| Err (e : exn).
Arguments Ok {X} x.
Arguments Err {X} e.

Definition rbind {X Y} (m : res X) (f : X -> res Y) : res Y :=
  match m with Ok x => f x | Err e => Err e end.
Notation "'do' x <- m ; k" := (rbind m (fun x => k))
  (at level 200, x pattern, m at level 100, k at level 200, right associativity).

Definition is_ok {X} (r : res X) : bool := match r with Ok _ => true | Err _ => false end.

Fixpoint mapM {X Y} (f : X -> res Y) (l : list X) : res (list Y) :=
  match l with
  | [] => Ok []
  | x :: l' => do y <- f x ; do ys <- mapM f l' ; Ok (y :: ys)
  end.

(** ** Asset labels: pandas labels are strings in practice, integers when no labels are given
    (efficient_frontier.py 101-106, base_optimizer.py 47-50); [LTup] is a label of a two level
    MultiIndex, i.e. a tuple *)
Inductive label := LInt (z : Z) | LStr (s : string) | LTup (s1 s2 : string).

Definition label_eqb (a b : label) : bool :=
  match a, b with
  | LInt x, LInt y => Z.eqb x y
  | LStr x, LStr y => String.eqb x y
  | LTup x x', LTup y y' => String.eqb x y && String.eqb x' y'
  | _, _ => false
  end.

Lemma label_eqb_spec : forall a b, reflect (a = b) (label_eqb a b).
Proof.
  intros [x|x|x x'] [y|y|y y']; simpl; try (constructor; congruence).
  - destruct (Z.eqb_spec x y); constructor; congruence.
  - destruct (String.eqb_spec x y); constructor; congruence.
  - destruct (String.eqb_spec x y), (String.eqb_spec x' y'); simpl; constructor; congruence.
Qed.

Lemma label_eq_dec : forall a b : label, {a = b} + {a <> b}.
Proof. intros a b; destruct (label_eqb_spec a b); auto. Qed.

(** label order used by pandas [sort_index] (strings: codepoint order; integers: numeric order;
    mixed labels do not occur) *)
Definition label_leb (a b : label) : bool :=
  match a, b with
  | LInt x, LInt y => Z.leb x y
  | LStr x, LStr y => String.leb x y
  | LTup x x', LTup y y' => if String.eqb x y then String.leb x' y' else String.leb x y
  | LInt _, _ => true
  | _, LInt _ => false
  | LStr _, LTup _ _ => true
  | LTup _ _, LStr _ => false
  end.

(** ** Dictionaries and labelled series: association lists in insertion order *)
Section Dict.
  Context {V : Type}.
  Definition dict := list (label * V).

  Fixpoint dget (k : label) (d : dict) : option V :=
    match d with
    | [] => None
    | (k', v) :: d' => if label_eqb k k' then Some v else dget k d'
    end.

  (** [d[k] = v]: keeps the position of an existing key, appends otherwise *)
  Fixpoint dset (k : label) (v : V) (d : dict) : dict :=
    match d with
    | [] => [(k, v)]
    | (k', v') :: d' => if label_eqb k k' then (k', v) :: d' else (k', v') :: dset k v d'
    end.

  (** [d1.update(d2)] *)
  Definition dupdate (d1 d2 : dict) : dict :=
    fold_left (fun d kv => dset (fst kv) (snd kv) d) d2 d1.

  (** [OrderedDict(zip(ks, vs))] / dict from pairs: later duplicates overwrite *)
  Definition dict_of_pairs (l : list (label * V)) : dict := dupdate [] l.

  Definition dkeys (d : dict) : list label := map fst d.
  Definition dvalues (d : dict) : list V := map snd d.

  (** item access raising [KeyError] *)
  Definition dgetE (k : label) (d : dict) : res V :=
    match dget k d with Some v => Ok v | None => Err KeyError end.
End Dict.
Arguments dict V : clear implicits.

(** ** Lists *)
Fixpoint list_set {X} (i : nat) (v : X) (l : list X) : list X :=
  match l, i with
  | [], _ => []
  | _ :: l', O => v :: l'
  | x :: l', S i' => x :: list_set i' v l'
  end.

(** stable insertion sort with respect to a boolean "may come before" relation; this is the
    meaning of [list.sort] (timsort is stable) *)
Section Sort.
  Context {X : Type} (before : X -> X -> bool).
  Fixpoint insert (x : X) (l : list X) : list X :=
    match l with
    | [] => [x]
    | y :: l' => if before x y then x :: y :: l' else y :: insert x l'
    end.
  Fixpoint isort (l : list X) : list X :=
    match l with
    | [] => []
    | x :: l' => insert x (isort l')
    end.
End Sort.

(** ** Vectors as lists *)
Section Vec.
  Context {A : Type} {N : Num A}.
  Local Open Scope num_scope.

  (** Python [sum] / numpy [sum] in exact arithmetic *)
  Definition vsum (l : list A) : A := fold_left (fun a b => a + b) l n0.

  Fixpoint map2 {X Y Z} (f : X -> Y -> Z) (l : list X) (m : list Y) : list Z :=
    match l, m with
    | x :: l', y :: m' => f x y :: map2 f l' m'
    | _, _ => []
    end.

  Definition dot (x y : list A) : A := vsum (map2 (fun a b => a * b) x y).
  Definition matvec (M : list (list A)) (x : list A) : list A := map (fun row => dot row x) M.
  Definition quad (M : list (list A)) (x : list A) : A := dot x (matvec M x).
End Vec.

Fixpoint zsum (l : list Z) : Z := match l with [] => 0%Z | x :: l' => (x + zsum l')%Z end.
