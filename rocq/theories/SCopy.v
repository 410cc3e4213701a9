(** * Specification: optimizers as independent values *)
From Coq Require Import List Arith.
From Verif Require Import Py MBase MConvex MEF MCopy.
Import ListNotations.

(** replace the [i]-th element *)
Fixpoint put_at {X} (i : nat) (v : X) (l : list X) {struct l} : list X :=
  match l with
  | [] => []
  | x :: l' => match i with O => v :: l' | S i' => x :: put_at i' v l' end
  end.

(** the same programs when every optimizer is a value of its own and a copy is just the same value;
    only the world (variables and parameters of cvxpy) is shared *)
Fixpoint values (l : list op) (w : world) (os : list ef) : world * list ef * list (res unit) :=
  match l with
  | [] => (w, os, [])
  | OCopy i :: l' =>
      match nth_error os i with
      | None => match values l' w os with (w2, os2, rs) => (w2, os2, Ok tt :: rs) end
      | Some o => match values l' w (os ++ [o]) with (w2, os2, rs) => (w2, os2, Ok tt :: rs) end
      end
  | OCall i m _ :: l' =>
      match nth_error os i with
      | None => match values l' w os with (w2, os2, rs) => (w2, os2, Ok tt :: rs) end
      | Some o =>
          match m w o with
          | (w1, o', r) => match values l' w1 (put_at i o' os) with (w2, os2, rs) => (w2, os2, r :: rs) end
          end
      end
  end.

(** every optimizer has its own lists *)
Definition own_lists (h : heap) (xs : list obj) : Prop :=
  NoDup (map r_add xs) /\ NoDup (map r_cons xs) /\
  Forall (fun x => (r_add x < length (h_adds h))%nat /\ (r_cons x < length (h_conss h))%nat) xs.

(** no call on optimizer [i] *)
Definition spares (i : nat) (l : list op) : Prop := Forall (fun a => match a with OCall j _ _ => j <> i | OCopy _ => True end) l.
(** variables and parameters are only ever added *)
Definition grows (w w' : world) : Prop :=
  (exists a, w_sizes w' = w_sizes w ++ a) /\ (length (w_params w) <= length (w_params w'))%nat.
Definition growing (m : M ef unit) : Prop := forall w o w' o' r, m w o = (w', o', r) -> grows w w'.
Definition all_growing (l : list op) : Prop := Forall (fun a => match a with OCall _ m _ => growing m | OCopy _ => True end) l.
