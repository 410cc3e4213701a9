(** * Model of cvxpy expressions and problems, as far as pypfopt uses them

    cvxpy is an external library.  What the optimizers build with it is kept symbolically
    ([expr], [con]), with its mathematical meaning ([eval], [sat]); the solver itself is an argument
    of the model (an oracle).  All numbers are real numbers. *)
From Coq Require Import ZArith List String Bool Reals.
From Verif Require Import Num Py.
Import ListNotations.
Local Open Scope R_scope.

(** ** Expressions.  Every expression denotes a vector; scalars are vectors of length one.
    Shapes are not checked here: shape errors that pypfopt can run into are raised by the
    functions that build the expressions. *)
(** objective_functions.py 59-226 *)
Inductive expr :=
| EVar (v : nat)                                  (* cp.Variable, by identity *)
| EPar (p : nat)                                  (* scalar cp.Parameter, by identity *)
| EConst (c : list R)                             (* constant *)
| EAdd (a b : expr)                               (* a + b, with scalar broadcasting *)
| ENeg (a : expr)                                 (* - a *)
| EMul (a b : expr)                               (* a * b, scalar times vector *)
| EDot (c : list R) (a : expr)                    (* c @ a *)
| ELin (m : list (list R)) (a : expr)             (* m @ a *)
| ESum (a : expr)                                 (* cp.sum *)
| EQuad (m : list (list R)) (a : expr)            (* cp.quad_form(a, m) *)
| ESumSq (a : expr)                               (* cp.sum_squares *)
| ENorm1 (a : expr)                               (* cp.norm(a, 1) *)
| EIndex (ix : list nat) (a : expr)               (* a[ix] *)
| EAtom (f : list R -> list R) (a : expr).        (* any other function of a, for user objectives *)

(** objective_functions.py 59-226: broadcasting of a binary operation *)
Definition bop (f : R -> R -> R) (a b : list R) : list R :=
  match a, b with
  | [x], _ => map (f x) b
  | _, [y] => map (fun x => f x y) a
  | _, _ => map2 f a b
  end.

(** base_optimizer.py 307-309, 318: an assignment of values to variables *)
Definition env := nat -> list R.

(** objective_functions.py 59-226 *)
Fixpoint eval (s : env) (ps : list R) (e : expr) : list R :=
  match e with
  | EVar v => s v
  | EPar p => [nth p ps 0]
  | EConst c => c
  | EAdd a b => bop Rplus (eval s ps a) (eval s ps b)
  | ENeg a => map Ropp (eval s ps a)
  | EMul a b => bop Rmult (eval s ps a) (eval s ps b)
  | EDot c a => [dot c (eval s ps a)]
  | ELin m a => matvec m (eval s ps a)
  | ESum a => [vsum (eval s ps a)]
  | EQuad m a => [quad m (eval s ps a)]
  | ESumSq a => [vsum (map (fun x => x * x) (eval s ps a))]
  | ENorm1 a => [vsum (map Rabs (eval s ps a))]
  | EIndex ix a => map (fun i => nth i (eval s ps a) 0) ix
  | EAtom f a => f (eval s ps a)
  end.
(** base_optimizer.py 291 *)
Definition scalar (l : list R) : R := hd 0 l.
(** base_optimizer.py 291, 318 *)
Definition evals (s : env) (ps : list R) (e : expr) : R := scalar (eval s ps e).

(** ** Constraints.  [a <= b] is [cp.Inequality] with args [a, b]; note that [w >= c] in Python is
    the same object as [c <= w].  [COther] stands for the other constraint classes (SOC, PSD, ...). *)
(** base_optimizer.py 239-240, 402, 405, 435 *)
Inductive con :=
| CIneq (a b : expr)
| CEq (a b : expr)
| COther (P : list R -> Prop) (a : expr).

(** base_optimizer.py 239-240, 402, 405, 435 *)
Definition sat (s : env) (ps : list R) (c : con) : Prop :=
  match c with
  | CIneq a b => Forall (fun d => d <= 0) (bop Rminus (eval s ps a) (eval s ps b))
  | CEq a b => Forall (fun d => d = 0) (bop Rminus (eval s ps a) (eval s ps b))
  | COther P a => P (eval s ps a)
  end.

(** occurrences of parameters / variables, left to right, with repetitions:
    base_optimizer.py 581-602 [_get_all_args] filtered by class *)
Fixpoint epars (e : expr) : list nat :=
  match e with
  | EVar _ | EConst _ => []
  | EPar p => [p]
  | EAdd a b | EMul a b => epars a ++ epars b
  | ENeg a | EDot _ a | ELin _ a | ESum a | EQuad _ a | ESumSq a | ENorm1 a | EIndex _ a
  | EAtom _ a => epars a
  end.
(** base_optimizer.py 307-309, 318 *)
Fixpoint evars (e : expr) : list nat :=
  match e with
  | EPar _ | EConst _ => []
  | EVar v => [v]
  | EAdd a b | EMul a b => evars a ++ evars b
  | ENeg a | EDot _ a | ELin _ a | ESum a | EQuad _ a | ESumSq a | ENorm1 a | EIndex _ a
  | EAtom _ a => evars a
  end.
(** base_optimizer.py 249-252 *)
Definition cpars (c : con) : list nat :=
  match c with CIneq a b | CEq a b => epars a ++ epars b | COther _ a => epars a end.
(** base_optimizer.py 307-309, 318 *)
Definition cvars (c : con) : list nat :=
  match c with CIneq a b | CEq a b => evars a ++ evars b | COther _ a => evars a end.

(** efficient_cdar.py 205-208: [a - b] *)
Definition ESub (a b : expr) : expr := EAdd a (ENeg b).
(** base_optimizer.py 402, 405, 435 *)
Definition EScalar (x : R) : expr := EConst [x].

(** ** The world: cvxpy leaf objects live on the heap and are shared by everybody holding a
    reference; ids of objectives and constraints come from a global counter *)
(** base_optimizer.py 250-252, 277 *)
Record param := mkParam { p_name : string; p_nonneg : bool; p_val : R }.
(** base_optimizer.py 177, 277, 292-293 *)
Record world := mkWorld {
  w_sizes : list nat;                    (* sizes of the variables created so far *)
  w_val : nat -> option (list R);        (* Variable.value *)
  w_params : list param;                 (* parameters created so far *)
  w_next : nat }.                        (* next id *)
(** base_optimizer.py 277 *)
Definition par_values (w : world) : list R := map p_val (w_params w).

(** ** Solvers *)
(** base_optimizer.py 307-317 *)
Inductive answer :=
| AOptimal (s : env) (value : R)                  (* status optimal or optimal_inaccurate *)
| ABad (upd : nat -> option (list R))             (* any other status; variables get these values *)
| ARaise (e : exn).                               (* solve() raises *)

(** base_optimizer.py 307-309: a solver sees the sizes of the variables, the values of the parameters, the objective (to be
    minimised) and the constraints, and nothing else *)
Definition solver_t := list nat -> list R -> expr -> list con -> answer.

(** base_optimizer.py 177, 307-309 *)
Definition well_sized (sizes : list nat) (s : env) : Prop :=
  forall v, (v < List.length sizes)%nat -> List.length (s v) = nth v sizes 0%nat.
(** base_optimizer.py 291, 307 *)
Definition feasible (sizes : list nat) (ps : list R) (cs : list con) (s : env) : Prop :=
  well_sized sizes s /\ Forall (sat s ps) cs.
(** base_optimizer.py 291, 307: [s] is an optimum *)
Definition optimal (sizes : list nat) (ps : list R) (obj : expr) (cs : list con) (s : env) : Prop :=
  feasible sizes ps cs s /\
  forall s', feasible sizes ps cs s' -> evals s ps obj <= evals s' ps obj.

(** base_optimizer.py 291, 307-317: solver contract: an answer with status "optimal" is an optimum of exactly the problem passed,
    and the reported optimal value is its value.  Nothing is assumed about when it answers. *)
Definition exact_solver (sv : solver_t) : Prop :=
  forall sizes ps obj cs s v, sv sizes ps obj cs = AOptimal s v ->
    optimal sizes ps obj cs s /\ v = evals s ps obj.

(** ** State monad over the world and an object; the state survives exceptions *)
(** base_optimizer.py 153-512 (methods change the object and may raise) *)
Definition M (S X : Type) := world -> S -> world * S * res X.
(** base_optimizer.py 153-512 *)
Definition ret {S X} (x : X) : M S X := fun w o => (w, o, Ok x).
(** base_optimizer.py 289-317 *)
Definition raise {S X} (e : exn) : M S X := fun w o => (w, o, Err e).
(** base_optimizer.py 153-512 *)
Definition bind {S X Y} (m : M S X) (k : X -> M S Y) : M S Y :=
  fun w o => match m w o with
             | (w', o', Ok x) => k x w' o'
             | (w', o', Err e) => (w', o', Err e)
             end.
Declare Scope m_scope.
Delimit Scope m_scope with m.
Notation "x <- m ;; k" := (bind m (fun x => k)) (at level 90, m at level 89, right associativity) : m_scope.
Notation "m ;; k" := (bind m (fun _ => k)) (at level 90, right associativity) : m_scope.
(** base_optimizer.py 153-512 *)
Definition get {S} : M S S := fun w o => (w, o, Ok o).
(** base_optimizer.py 153-512 *)
Definition modify {S} (f : S -> S) : M S unit := fun w o => (w, f o, Ok tt).
(** base_optimizer.py 153-512 *)
Definition world_get {S} : M S world := fun w o => (w, o, Ok w).
(** base_optimizer.py 289-317 *)
Definition lift_res {S X} (r : res X) : M S X := fun w o => (w, o, r).
(** base_optimizer.py 336-340, 361-365 *)
Definition when {S} (b : bool) (m : M S unit) : M S unit := if b then m else ret tt.

(** base_optimizer.py 177: [cp.Variable(size)] *)
Definition new_var {S} (size : nat) : M S nat := fun w o =>
  (mkWorld (w_sizes w ++ [size]) (w_val w) (w_params w) (w_next w), o, Ok (List.length (w_sizes w))).
(** efficient_frontier.py 373-375, 419: [cp.Parameter(name, value, nonneg)]: a negative value of a nonneg parameter raises ValueError *)
Definition new_param {S} (name : string) (nonneg : bool) (v : R) : M S nat := fun w o =>
  if nonneg && Rltb v 0 then (w, o, Err ValueError)
  else (mkWorld (w_sizes w) (w_val w) (w_params w ++ [mkParam name nonneg v]) (w_next w), o,
        Ok (List.length (w_params w))).
(** base_optimizer.py 292-293: a new expression or constraint object gets a fresh id *)
Definition new_id {S} : M S nat := fun w o =>
  (mkWorld (w_sizes w) (w_val w) (w_params w) (Datatypes.S (w_next w)), o, Ok (w_next w)).

(** base_optimizer.py 277: [param.value = v] *)
Definition set_param {S} (p : nat) (v : R) : M S unit := fun w o =>
  match nth_error (w_params w) p with
  | None => (w, o, Ok tt)
  | Some q =>
      if p_nonneg q && Rltb v 0 then (w, o, Err ValueError)
      else (mkWorld (w_sizes w) (w_val w)
              (list_set p (mkParam (p_name q) (p_nonneg q) v) (w_params w)) (w_next w), o, Ok tt)
  end.

(** base_optimizer.py 271-278 *)
Fixpoint forM {S X} (l : list X) (f : X -> M S unit) : M S unit :=
  match l with
  | [] => ret tt
  | x :: l' => bind (f x) (fun _ => forM l' f)
  end.
