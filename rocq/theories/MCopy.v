(** * Optimizers as Python objects: references to shared lists, and [deepcopy]
    (pypfopt/base_optimizer.py 189-201)

    In Python the attributes [_additional_objectives] and [_constraints] are references to list
    objects, which the methods change in place: [append] (base_optimizer.py 341 and 366) and [del]
    (efficient_frontier.py 178-179).  Only [max_sharpe] assigns a new list to [_constraints]
    (efficient_frontier.py 284-288).  All other attributes are only ever rebound. *)
From Coq Require Import List Bool Arith.
From Verif Require Import Py MBase MConvex MEF.
Import ListNotations.

(** base_optimizer.py 179-180, 196-200: list objects, addressed by position *)
Record heap := mkHeap { h_adds : list (list expr); h_conss : list (list (nat * con)) }.
(** base_optimizer.py 174-187: an optimizer object: its attributes, where [_additional_objectives] and [_constraints] are the
    addresses [r_add] and [r_cons] (the fields [e_add], [e_cons] of [r_self] are not used) *)
Record obj := mkObj { r_self : ef; r_add : nat; r_cons : nat }.

(** base_optimizer.py 174-187: the optimizer as its methods see it *)
Definition load (h : heap) (x : obj) : ef :=
  set_cons (nth (r_cons x) (h_conss h) []) (set_add (nth (r_add x) (h_adds h) []) (r_self x)).

(** base_optimizer.py 196: [copy.copy(self)]: a new object with the same references *)
Definition shallow (x : obj) : obj := mkObj (r_self x) (r_add x) (r_cons x).
(** base_optimizer.py 189-201 [deepcopy].  Copies of expressions and constraints refer to the same
    variables and parameters, and constraints keep their id. *)
Definition deepcopy_obj (h : heap) (x : obj) : heap * obj :=
  let c := shallow x in
  let h1 := mkHeap (h_adds h ++ [nth (r_add c) (h_adds h) []]) (h_conss h) in
  let c1 := mkObj (r_self c) (List.length (h_adds h)) (r_cons c) in
  let h2 := mkHeap (h_adds h1) (h_conss h1 ++ [nth (r_cons c1) (h_conss h1) []]) in
  let c2 := mkObj (r_self c1) (r_add c1) (List.length (h_conss h1)) in
  (h2, c2).

(** base_optimizer.py 341, 366: after a method has turned the optimizer into [o]: lists are changed in place, except that a
    method with [rebinds] has assigned a new list to [_constraints] *)
Definition store (rebinds : bool) (h : heap) (x : obj) (o : ef) : heap * obj :=
  let adds := list_set (r_add x) (e_add o) (h_adds h) in
  if rebinds
  then (mkHeap adds (h_conss h ++ [e_cons o]), mkObj o (r_add x) (List.length (h_conss h)))
  else (mkHeap adds (list_set (r_cons x) (e_cons o) (h_conss h)), mkObj o (r_add x) (r_cons x)).

(** base_optimizer.py 189-201, 321-512: a program working on a collection of optimizers, addressed by position: copying one of them, or
    calling a method [m] of one of them *)
Inductive op := OCopy (i : nat) | OCall (i : nat) (m : M ef unit) (rebinds : bool).
(** base_optimizer.py 189-201, 321-512 *)
Definition step (a : op) (w : world) (h : heap) (xs : list obj) : world * heap * list obj * res unit :=
  match a with
  | OCopy i =>
      match nth_error xs i with
      | None => (w, h, xs, Ok tt)
      | Some x => match deepcopy_obj h x with (h', c) => (w, h', xs ++ [c], Ok tt) end
      end
  | OCall i m rebinds =>
      match nth_error xs i with
      | None => (w, h, xs, Ok tt)
      | Some x =>
          match m w (load h x) with
          | (w', o, r) => match store rebinds h x o with (h', x') => (w', h', list_set i x' xs, r) end
          end
      end
  end.
(** base_optimizer.py 189-201, 321-512: exceptions are caught by the program; the results of the steps are collected *)
Fixpoint steps (l : list op) (w : world) (h : heap) (xs : list obj) : world * heap * list obj * list (res unit) :=
  match l with
  | [] => (w, h, xs, [])
  | a :: l' =>
      match step a w h xs with
      | (w1, h1, xs1, r) => match steps l' w1 h1 xs1 with (w2, h2, xs2, rs) => (w2, h2, xs2, r :: rs) end
      end
  end.
