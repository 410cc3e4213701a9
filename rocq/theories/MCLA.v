(** * Model of pypfopt/cla.py (class CLA)

    The turning point computation is written over any arithmetic ([Num]), the parts with a square root
    or a logarithm over the reals.  Column vectors (n x 1 arrays) are lists; multiplying by a vector of
    ones is summation. *)
From Coq Require Import ZArith List Bool Reals.
From Verif Require Import Num Py MBase.
Import ListNotations.

Section Generic.
  Context {A : Type} {N : Num A}.
  Local Open Scope num_scope.

  (** ** The object *)

  (** one turning point: the entries at one position of the lists self.w, self.ls, self.g, self.f
      (cla.py 86-89), which grow and shrink together.  Simplification: when a step fails after
      [self.ls.append] (344, 351, 355) the real self.ls has one more entry; nothing reads it again. *)
  Record tp := mkTP { t_w : list A; t_l : option A; t_g : option A; t_f : list nat }.

  (** cla.py 64-97.  [c_int]: the lower bounds are a numpy array of integers (74, 80: no float among
      the given numbers), so that the copy made in line 121 can only hold integers. *)
  Record cla := mkCLA {
    c_base : base A; c_mean : list A; c_cov : list (list A); c_lb : list A; c_ub : list A; c_int : bool;
    c_tp : list tp;
    c_frontier : option (list A * list A * list (list A)) }.
  (** cla.py 97 *)
  Definition c_n (o : cla) : nat := List.length (c_mean o).
  (** cla.py 305-308, 344-365 *)
  Definition set_tp (l : list tp) (o : cla) : cla :=
    mkCLA (c_base o) (c_mean o) (c_cov o) (c_lb o) (c_ub o) (c_int o) l (c_frontier o).
  (** cla.py 391, 408 *)
  Definition set_cweights (w : list A) (o : cla) : cla :=
    mkCLA (mkBase (b_tickers (c_base o)) (Some w)) (c_mean o) (c_cov o) (c_lb o) (c_ub o) (c_int o) (c_tp o) (c_frontier o).
  (** cla.py 439 *)
  Definition set_frontier (x : list A * list A * list (list A)) (o : cla) : cla :=
    mkCLA (c_base o) (c_mean o) (c_cov o) (c_lb o) (c_ub o) (c_int o) (c_tp o) (Some x).

  (** ** Bounds, cla.py 70-84 *)

  (** cla.py 71-84: a Python number; numpy makes an integer array when all numbers are integers *)
  Inductive pynum := PInt (z : Z) | PFloat (x : A).
  (** cla.py 71-84 *)
  Definition pval (p : pynum) : A := match p with PInt z => nofZ z | PFloat x => x end.
  (** cla.py 71-84 *)
  Definition is_pint (p : pynum) : bool := match p with PInt _ => true | PFloat _ => false end.
  (** cla.py 50, 71-84: [weight_bounds]: a pair of numbers, or a sequence of sequences of numbers *)
  Inductive cla_bounds := CPair (lo hi : pynum) | CSeq (rows : list (list pynum)).
  (** cla.py 71-84 *)
  Definition item {X} (i : nat) (l : list X) : res X :=
    match nth_error l i with Some x => Ok x | None => Err IndexError end.
  (** cla.py 71-84: lower bounds, upper bounds, dtype of the lower bounds.  Simplification: no None among the numbers. *)
  Definition read_cla_bounds (n : nat) (b : cla_bounds) : res (list A * list A * bool) :=
    match b with
    | CPair lo hi => Ok (repeat (pval lo) n, repeat (pval hi) n, false)
    | CSeq rows =>
        do first <- item 0 rows ;
        if (List.length rows =? n)%nat then
          do lo <- mapM (item 0) rows ; do hi <- mapM (item 1) rows ;
          Ok (map pval lo, map pval hi, forallb is_pint lo)
        else
          let lo := first in
          if negb (List.length lo =? n)%nat then Err ShapeError else
          do hi <- item 1 rows ;
          if negb (List.length hi =? n)%nat then Err ShapeError else
          Ok (map pval lo, map pval hi, forallb is_pint lo)
    end.

  (** cla.py 50-97 [__init__].  [mu]: labels (for a Series) and values; None has no length.
      The covariance matrix is not looked at. *)
  Definition cla_init (mu : option (option (list label) * list A)) (cov : list (list A)) (b : cla_bounds) : res cla :=
    match mu with
    | None => Err TypeError
    | Some (labels, mean) =>
        do r <- read_cla_bounds (List.length mean) b ;
        let '(lo, hi, isint) := r in
        Ok (mkCLA (base_init (List.length mean) labels) mean cov lo hi isint [] None)
    end.

  (** ** The first turning point, cla.py 111-126 *)

  (** cla.py 124-125, 353, 362: [w[i] = v]: a float stored in an integer array is truncated *)
  Definition stored (isint : bool) (v : A) : A := if isint then nofZ (ntrunc v) else v.
  (** cla.py 124-125, 353, 362 *)
  Definition put (isint : bool) (i : nat) (v : A) (w : list A) : list A := list_set i (stored isint v) w.

  (** cla.py 114-119: [np.sort(a, order="mu")] on (id, mu) records: by mu, ties by id *)
  Definition by_mean (mean : list A) (i j : nat) : bool :=
    let mi := nth i mean n0 in let mj := nth j mean n0 in
    if mi <? mj then true else if mj <? mi then false else (i <=? j)%nat.
  (** cla.py 114-119 *)
  Definition mean_order (mean : list A) : list nat := isort (by_mean mean) (seq 0 (List.length mean)).

  (** cla.py 124: Python indexing, negative indices count from the end *)
  Definition py_index {X} (l : list X) (i : Z) : res X :=
    let n := Z.of_nat (List.length l) in
    if (0 <=? i)%Z then item (Z.to_nat i) l
    else if (0 <=? n + i)%Z then item (Z.to_nat (n + i)) l else Err IndexError.

  (** cla.py 122-124 *)
  Fixpoint fill (fuel : nat) (isint : bool) (order : list nat) (ub : list A) (i : Z) (w : list A) : res (Z * list A) :=
    match fuel with
    | O => Err OutOfFuel
    | S k =>
        if vsum w <? n1 then
          do a <- py_index order (i - 1)%Z ;
          fill k isint order ub (i - 1)%Z (put isint a (nth a ub n0) w)
        else Ok (i, w)
    end.
  (** cla.py 111-126 *)
  Definition init_algo (o : cla) : res (list nat * list A) :=
    let order := mean_order (c_mean o) in
    do r <- fill (2 * c_n o + 2) (c_int o) order (c_ub o) (Z.of_nat (c_n o)) (c_lb o) ;
    let '(i, w) := r in
    do a <- py_index order i ;
    Ok ([a], put (c_int o) a (nth a w n0 + (n1 - vsum w)) w).

  (** ** Linear algebra on the free assets, cla.py 128-208 *)

  (** cla.py 195-208 [_reduce_matrix]; indices are in range *)
  Definition pick (v : list A) (X : list nat) : list A := map (fun i => nth i v n0) X.
  (** cla.py 195-208 *)
  Definition reduce (M : list (list A)) (X Y : list nat) : option (list (list A)) :=
    match X, Y with
    | [], _ | _, [] => None
    | _, _ => Some (map (fun i => map (fun j => nth j (nth i M []) n0) Y) X)
    end.
  (** cla.py 182, 185 *)
  Definition reduce_col (v : list A) (X : list nat) : option (list A) :=
    match X with [] => None | _ => Some (pick v X) end.
  (** cla.py 198-199 *)
  Definition mat_or_empty (m : option (list (list A))) : list (list A) := match m with Some m => m | None => [] end.

  (** cla.py 188-193 [_get_b], [_diff_lists]: the order of [list(set(..) - set(..))] is left open: [ord] is any
      function that rearranges a list *)
  Definition others (ord : list nat -> list nat) (n : nat) (f : list nat) : list nat :=
    ord (filter (fun i => negb (existsb (Nat.eqb i) f)) (seq 0 n)).

  (** cla.py 138-139 *)
  Definition colsums (k : nat) (P : list (list A)) : list A := map (fun j => vsum (map (fun r => nth j r n0) P)) (seq 0 k).
  (** cla.py 145, 174 *)
  Definition matmul (P Q : list (list A)) : list (list A) :=
    map (fun row => map (fun j => dot row (map (fun r => nth j r n0) Q)) (seq 0 (List.length (hd [] Q)))) P.
  (** cla.py 137, 143, 156, 172 *)
  Definition ones (k : nat) : list A := repeat n1 k.

  (** cla.py 135-152 [_compute_w]: the free weights and gamma at [l].  A zero sum of the inverse: inf or nan. *)
  Definition compute_w (P : list (list A)) (FB : option (list (list A))) (meanF : list A) (wB : option (list A)) (l : A)
    : res (list A * A) :=
    let k := List.length meanF in
    let g1 := dot (colsums k P) meanF in
    let g2 := dot (colsums k P) (ones k) in
    if g2 =? n0 then Err FloatSpecial else
    let w2 := matvec P (ones k) in
    let w3 := matvec P meanF in
    match wB with
    | None =>
        let g := (- l) * g1 / g2 + n1 / g2 in
        Ok (map2 (fun a b => a + b) (map (fun a => g * a) w2) (map (fun a => l * a) w3), g)
    | Some wb =>
        let g3 := vsum wb in
        let w1 := matvec (matmul P (mat_or_empty FB)) wb in
        let g4 := vsum w1 in
        let g := (- l) * g1 / g2 + (n1 - g3 + g4) / g2 in
        Ok (map2 (fun a b => a + b) (map2 (fun a b => (- a) + b) w1 (map (fun a => g * a) w2)) (map (fun a => l * a) w3), g)
    end.

  (** cla.py 165: the argument [bi] of [_compute_lambda]: both bounds, or one number *)
  Inductive bound_arg := BothBounds (lo hi : A) | OneBound (b : A).
  (** cla.py 128-133 [_compute_bi] *)
  Definition compute_bi (c : A) (lo hi : A) : A := if n0 <? c then hi else lo.
  (** cla.py 154-177 [_compute_lambda]; None is [None, None] *)
  Definition compute_lambda (P : list (list A)) (FB : option (list (list A))) (meanF : list A) (wB : option (list A))
      (i : nat) (bi : bound_arg) : option (A * A) :=
    let k := List.length meanF in
    let c1 := dot (colsums k P) (ones k) in
    let c2 := matvec P meanF in
    let c3 := dot (colsums k P) meanF in
    let c4 := matvec P (ones k) in
    let c := (- c1) * nth i c2 n0 + c3 * nth i c4 n0 in
    if c =? n0 then None else
    let b := match bi with BothBounds lo hi => compute_bi c lo hi | OneBound b => b end in
    match wB with
    | None => Some ((nth i c4 n0 - c1 * b) / c, b)
    | Some wb =>
        let l1 := vsum wb in
        let l3 := matvec (matmul P (mat_or_empty FB)) wb in
        let l2 := vsum l3 in
        Some (((n1 - l1 + l2) * nth i c4 n0 - c1 * (b + nth i l3 n0)) / c, b)
    end.

  (** ** The main loop, cla.py 309-367.  [inv] is [np.linalg.inv]. *)
  Section Loop.
    Context (inv : list (list A) -> res (list (list A))) (ord : list nat -> list nat).
    Context (mean : list A) (cov : list (list A)) (lb ub : list A) (isint : bool).
    (** cla.py 325 *)
    Definition size : nat := List.length mean.

    (** cla.py 179-186 [_get_matrices] with the inverse of covarF; [wl] is [self.w[-1]] *)
    Definition matrices (f : list nat) (wl : list A) : res (list (list A) * option (list (list A)) * list A * option (list A)) :=
      let b := others ord size f in
      do P <- inv (mat_or_empty (reduce cov f f)) ;
      Ok (P, reduce cov f b, pick mean f, reduce_col wl b).

    (** cla.py 99-109, 320, 350: [CLA._infnone(x) > CLA._infnone(y)], 99-109 *)
    Definition above (x y : option A) : bool :=
      match x, y with
      | None, _ => false
      | Some _, None => true
      | Some a, Some b => b <? a
      end.

    (** cla.py 311-322: the loop of case a) *)
    Fixpoint case_a (P : list (list A)) (FB : option (list (list A))) (meanF : list A) (wB : option (list A))
        (fs : list nat) (j : nat) (best : option (A * nat * A)) : option (A * nat * A) :=
      match fs with
      | [] => best
      | i :: fs' =>
          let r := compute_lambda P FB meanF wB j (BothBounds (nth i lb n0) (nth i ub n0)) in
          let best' := match r with
                       | Some (l, bi) => if above (Some l) (option_map (fun x => fst (fst x)) best) then Some (l, i, bi) else best
                       | None => best
                       end in
          case_a P FB meanF wB fs' (S j) best'
      end.
    (** cla.py 311-322 *)
    Definition bound_free (f : list nat) (wl : list A) : res (option (A * nat * A)) :=
      if (1 <? List.length f)%nat then
        do m <- matrices f wl ;
        let '(P, FB, meanF, wB) := m in
        Ok (case_a P FB meanF wB f 0 None)
      else Ok None.

    (** cla.py 324-341: the loop of case b); comparing None with a number raises TypeError *)
    Fixpoint case_b (f : list nat) (wl : list A) (last : option A) (bs : list nat) (best : option (A * nat)) : res (option (A * nat)) :=
      match bs with
      | [] => Ok best
      | i :: bs' =>
          do m <- matrices (f ++ [i]) wl ;
          let '(P, FB, meanF, wB) := m in
          match compute_lambda P FB meanF wB (List.length meanF - 1) (OneBound (nth i wl n0)) with
          | None => Err TypeError
          | Some (l, _) =>
              let best' := if (match last with None => true | Some x => l <? x end) && above (Some l) (option_map fst best)
                           then Some (l, i) else best in
              case_b f wl last bs' best'
          end
      end.
    (** cla.py 324-341 *)
    Definition free_bound (f : list nat) (wl : list A) (last : option A) : res (option (A * nat)) :=
      if (List.length f <? size)%nat then case_b f wl last (others ord size f) None else Ok None.

    (** cla.py 342: [l is None or l < 0], 342 *)
    Definition none_or_negative (l : option A) : bool := match l with None => true | Some x => x <? n0 end.
    (** cla.py 352, 361 [f.remove(i)], [for i in range(len(f)): w[f[i]] = wF[i]] *)
    Fixpoint remove_first (i : nat) (f : list nat) : list nat :=
      match f with [] => [] | a :: f' => if Nat.eqb a i then f' else a :: remove_first i f' end.
    (** cla.py 361-362 *)
    Fixpoint put_all (f : list nat) (wF : list A) (w : list A) : list A :=
      match f, wF with i :: f', x :: wF' => put_all f' wF' (put isint i x w) | _, _ => w end.

    (** cla.py 342-358: what happens in steps 3 and 4, 342-358 *)
    Inductive event := EvEnd | EvIn (l : A) (i : nat) (b : A) | EvOut (l : A) (i : nat).
    (** cla.py 342-358 *)
    Definition next_event (l_in : option (A * nat * A)) (l_out : option (A * nat)) : res event :=
      let li := option_map (fun x => fst (fst x)) l_in in
      let lo := option_map fst l_out in
      if none_or_negative li && none_or_negative lo then Ok EvEnd
      else if above li lo then match l_in with Some (l, i, b) => Ok (EvIn l i b) | None => Err AssertionError end
      else match l_out with Some (l, i) => Ok (EvOut l i) | None => Err AssertionError end.
    (** cla.py 344-356: the new free list, the working vector and the new lambda *)
    Definition after_event (ev : event) (f : list nat) (w : list A) : list nat * list A * A :=
      match ev with
      | EvEnd => (f, w, n0)
      | EvIn l i b => (remove_first i f, put isint i b w, l)
      | EvOut l i => (f ++ [i], w, l)
      end.
    (** cla.py 310-365: one turning point is computed from the last stored one [wl] and the working vector [w] *)
    Definition step (f : list nat) (w wl : list A) (last : option A) : res (list nat * list A * tp) :=
      do l_in <- bound_free f wl ;
      do l_out <- free_bound f wl last ;
      do ev <- next_event l_in l_out ;
      let '(f1, w1, l) := after_event ev f w in
      do m <- matrices f1 wl ;
      let '(P, FB, meanF, wB) := m in
      let meanF' := match ev with EvEnd => repeat n0 (List.length meanF) | _ => meanF end in
      do r <- compute_w P FB meanF' wB l ;
      let '(wF, g) := r in
      let w2 := put_all f1 wF w1 in
      Ok (f1, w2, mkTP w2 (Some l) (Some g) f1).
    (** cla.py 309-367 [pts] are the points stored so far, [w] is the working vector and also the last point.
        The loop ends when lambda is 0. *)
    Fixpoint loop (fuel : nat) (f : list nat) (w : list A) (last : option A) (pts : list tp) : list tp * res unit :=
      match fuel with
      | O => (pts, Err OutOfFuel)
      | S k =>
          match step f w w last with
          | Err e => (pts, Err e)
          | Ok (f', w', p) =>
              let pts' := pts ++ [p] in
              match t_l p with
              | Some l => if l =? n0 then (pts', Ok tt) else loop k f' w' (Some l) pts'
              | None => (pts', Err AssertionError)
              end
          end
      end.
  End Loop.

  (** ** Purging, cla.py 210-259 *)
  Definition purge_tol : A := n1 / nofZ 1000000000.
  (** cla.py 217-226: is the point thrown away? *)
  Definition num_err (lb ub : list A) (tol : A) (w : list A) : bool :=
    if tol <? nabs (vsum w - n1) then true
    else existsb (fun x => let '(v, (l, u)) := x in (v - l <? - tol) || (tol <? v - u)) (combine w (combine lb ub)).
  (** cla.py 228-231, 252-255 *)
  Definition del_at {X} (i : nat) (l : list X) : list X := firstn i l ++ skipn (S i) l.
  (** cla.py 210-233 [_purge_num_err] *)
  Fixpoint purge_num_err_loop (fuel : nat) (lb ub : list A) (tol : A) (i : nat) (pts : list tp) : list tp :=
    match fuel with
    | O => pts
    | S k =>
        match nth_error pts i with
        | None => pts
        | Some p => if num_err lb ub tol (t_w p) then purge_num_err_loop k lb ub tol i (del_at i pts)
                    else purge_num_err_loop k lb ub tol (S i) pts
        end
    end.
  (** cla.py 210-233 *)
  Definition purge_num_err (lb ub : list A) (tol : A) (pts : list tp) : list tp :=
    purge_num_err_loop (List.length pts) lb ub tol 0 pts.
  (** cla.py 235-259 [_purge_excess] *)
  Fixpoint purge_excess_loop (fuel : nat) (mean : list A) (i : nat) (again : bool) (pts : list tp) : list tp * res unit :=
    match fuel with
    | O => (pts, Err OutOfFuel)
    | S k =>
        let i := if again then i else S i in
        if (S i =? List.length pts)%nat then (pts, Ok tt) else
        match nth_error pts i with
        | None => (pts, Err IndexError)
        | Some p =>
            if existsb (fun q => dot (t_w p) mean <? dot (t_w q) mean) (skipn (S i) pts)
            then purge_excess_loop k mean i true (del_at i pts)
            else purge_excess_loop k mean i false pts
        end
    end.
  (** cla.py 235-259 *)
  Definition purge_excess (mean : list A) (pts : list tp) : list tp * res unit :=
    purge_excess_loop (S (List.length pts)) mean 0 false pts.

  (** ** cla.py 302-370 [_solve] *)
  Definition solve (fuel : nat) (inv : list (list A) -> res (list (list A))) (ord : list nat -> list nat) (o : cla) : cla * res unit :=
    match init_algo o with
    | Err e => (o, Err e)
    | Ok (f, w) =>
        match loop inv ord (c_mean o) (c_cov o) (c_lb o) (c_ub o) (c_int o) fuel f w None [mkTP w None None f] with
        | (pts, Err e) => (set_tp pts o, Err e)
        | (pts, Ok _) =>
            let pts1 := purge_num_err (c_lb o) (c_ub o) purge_tol pts in
            let '(pts2, r) := purge_excess (c_mean o) pts1 in
            (set_tp pts2 o, r)
        end
    end.
  (** cla.py 379-380, 401-402, 421-422: [if not self.w: self._solve()] *)
  Definition ensure (fuel : nat) (inv : list (list A) -> res (list (list A))) (ord : list nat -> list nat) (o : cla) : cla * res unit :=
    match c_tp o with [] => solve fuel inv ord o | _ => (o, Ok tt) end.

  (** cla.py 391, 408: [l.index(min(l))] and [l.index(max(l))]: the first extreme position *)
  Fixpoint arg_best (better : A -> A -> bool) (l : list A) (i best : nat) (v : A) : nat :=
    match l with
    | [] => best
    | x :: l' => if better x v then arg_best better l' (S i) i x else arg_best better l' (S i) best v
    end.
  (** cla.py 391, 408: min/max of an empty list raises ValueError *)
  Definition index_best (better : A -> A -> bool) (l : list A) : res nat :=
    match l with [] => Err ValueError | x :: l' => Ok (arg_best better l' 1 0 x) end.
  (** cla.py 408 *)
  Definition index_min (l : list A) : res nat := index_best (fun x y => x <? y) l.
  (** cla.py 391 *)
  Definition index_max (l : list A) : res nat := index_best (fun x y => y <? x) l.

  (** cla.py 394-409 [min_volatility] *)
  Definition cla_min_volatility (fuel : nat) (inv : list (list A) -> res (list (list A))) (ord : list nat -> list nat) (o : cla) : cla * res (dict A) :=
    match ensure fuel inv ord o with
    | (o1, Err e) => (o1, Err e)
    | (o1, Ok _) =>
        match (do k <- index_min (map (fun p => quad (c_cov o1) (t_w p)) (c_tp o1)) ; item k (c_tp o1)) with
        | Err e => (o1, Err e)
        | Ok p => let o2 := set_cweights (t_w p) o1 in (o2, make_output_weights (c_base o2))
        end
    end.

  (** ** efficient_frontier without the standard deviations *)

  (** np.linspace(0, 1, k), cla.py 426 *)
  Definition unit_grid (k : nat) : list A :=
    match k with
    | O => []
    | 1%nat => [n0]
    | _ => map (fun i => nofZ (Z.of_nat i) / nofZ (Z.of_nat (k - 1))) (seq 0 k)
    end.
  (** cla.py 434 *)
  Definition mix (j : A) (w0 w1 : list A) : list A := map2 (fun x y => x * j + (n1 - j) * y) w1 w0.
  (** cla.py 426-435: the weights, segment by segment; the last segment includes its end *)
  Fixpoint frontier_weights (k : nat) (pts : list tp) : list (list A) :=
    match pts with
    | p :: ((q :: rest) as tl) =>
        let a := match rest with [] => unit_grid k | _ => removelast (unit_grid k) end in
        map (fun j => mix j (t_w p) (t_w q)) a ++ frontier_weights k tl
    | _ => []
    end.
End Generic.
Arguments tp A : clear implicits.
Arguments cla A : clear implicits.
Arguments pynum A : clear implicits.
Arguments cla_bounds A : clear implicits.
Arguments event A : clear implicits.

(** ** Over the reals *)
Section Real.
  Local Open Scope R_scope.

  (** cla.py 261-293 [_golden_section] with [minimum=False]; the objective may fail.  The number of
      iterations is int(ceil(-2.078087 * log(tol / |b - a|))). *)
  Definition ceil_nat (x : R) : nat := Z.to_nat (- Int_part (- x))%Z.
  (** cla.py 263, 268 *)
  Definition num_iter (a b : R) : nat := ceil_nat (- (2078087 / 1000000) * ln (1 / 1000000000 / Rabs (b - a))).
  (** cla.py 269 *)
  Definition gs_r : R := 618033989 / 1000000000.
  (** cla.py 270 *)
  Definition gs_c : R := 1 - gs_r.
  (** cla.py 272-275 *)
  Record gs := mkGS { gs_a : R; gs_b : R; gs_x1 : R; gs_x2 : R; gs_f1 : R; gs_f2 : R }.
  (** cla.py 278-289 *)
  Definition gs_step (obj : R -> res R) (s : gs) : res gs :=
    if Rltb (gs_f2 s) (gs_f1 s) then
      let a := gs_x1 s in
      let x2 := gs_c * a + gs_r * gs_b s in
      do v <- obj x2 ; Ok (mkGS a (gs_b s) (gs_x2 s) x2 (gs_f2 s) (-1 * v))
    else
      let b := gs_x2 s in
      let x1 := gs_r * gs_a s + gs_c * b in
      do v <- obj x1 ; Ok (mkGS (gs_a s) b x1 (gs_x1 s) (-1 * v) (gs_f1 s)).
  (** cla.py 277-289 *)
  Fixpoint gs_loop (obj : R -> res R) (k : nat) (s : gs) : res gs :=
    match k with O => Ok s | S k' => do s' <- gs_step obj s ; gs_loop obj k' s' end.
  (** cla.py 261-293 *)
  Definition golden_section (obj : R -> res R) (a b : R) : res (R * R) :=
    let x1 := gs_r * a + gs_c * b in
    let x2 := gs_c * a + gs_r * b in
    do v1 <- obj x1 ; do v2 <- obj x2 ;
    do s <- gs_loop obj (num_iter a b) (mkGS a b x1 x2 (-1 * v1) (-1 * v2)) ;
    Ok (if Rltb (gs_f1 s) (gs_f2 s) then (gs_x1 s, -1 * gs_f1 s) else (gs_x2 s, -1 * gs_f2 s)).

  (** cla.py 295-300 [_eval_sr]; a variance that is not positive gives inf or nan *)
  Definition combo (a : R) (w0 w1 : list R) : list R := map2 (fun x y => a * x + (1 - a) * y) w0 w1.
  (** cla.py 295-300 *)
  Definition eval_sr (mean : list R) (cov : list (list R)) (w0 w1 : list R) (a : R) : res R :=
    let w := combo a w0 w1 in
    let v := quad cov w in
    if Rleb v 0 then Err FloatSpecial else Ok (dot w mean / sqrt v).

  (** cla.py 372-392 [max_sharpe]: the best mixture on each segment, as (weights, ratio) *)
  Fixpoint sharpe_segments (mean : list R) (cov : list (list R)) (pts : list (tp R)) : res (list (list R * R)) :=
    match pts with
    | p :: ((q :: _) as tl) =>
        do r <- golden_section (eval_sr mean cov (t_w p) (t_w q)) 0 1 ;
        do rest <- sharpe_segments mean cov tl ;
        Ok ((combo (fst r) (t_w p) (t_w q), snd r) :: rest)
    | _ => Ok []
    end.
  (** cla.py 372-392 *)
  Definition cla_max_sharpe (fuel : nat) (inv : list (list R) -> res (list (list R))) (ord : list nat -> list nat) (o : cla R) : cla R * res (dict R) :=
    match ensure fuel inv ord o with
    | (o1, Err e) => (o1, Err e)
    | (o1, Ok _) =>
        match (do l <- sharpe_segments (c_mean o1) (c_cov o1) (c_tp o1) ; do k <- index_max (map snd l) ; item k l) with
        | Err e => (o1, Err e)
        | Ok x => let o2 := set_cweights (fst x) o1 in (o2, make_output_weights (c_base o2))
        end
    end.

  (** cla.py 411-440 [efficient_frontier]; [points] is a natural number; a negative variance gives nan *)
  Definition deviation_of (cov : list (list R)) (w : list R) : res R :=
    let v := quad cov w in if Rltb v 0 then Err FloatSpecial else Ok (sqrt v).
  (** cla.py 411-440 *)
  Definition cla_frontier (fuel : nat) (inv : list (list R) -> res (list (list R))) (ord : list nat -> list nat) (points : nat) (o : cla R)
    : cla R * res (list R * list R * list (list R)) :=
    match ensure fuel inv ord o with
    | (o1, Err e) => (o1, Err e)
    | (o1, Ok _) =>
        match c_tp o1 with
        | [] => (o1, Err ZeroDivisionError)
        | _ =>
            let ws := frontier_weights (points / List.length (c_tp o1)) (c_tp o1) in
            match mapM (deviation_of (c_cov o1)) ws with
            | Err e => (o1, Err e)
            | Ok sg => let r := (map (fun w => dot w (c_mean o1)) ws, sg, ws) in (set_frontier r o1, Ok r)
            end
        end
    end.

  (** cla.py 442-444 [set_weights] *)
  Definition cla_set_weights (o : cla R) (d : dict R) : cla R * res unit := (o, Err NotImplementedError).
  (** cla.py 446-465 [portfolio_performance] *)
  Definition cla_performance (rf : R) (o : cla R) : res (option R * R * option R) :=
    portfolio_performance (match b_weights (c_base o) with None => WtNone | Some w => WtArray w end) (MuArray (c_mean o)) (CovArray (c_cov o)) rf.
End Real.
