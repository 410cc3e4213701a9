(** * Model of the warnings

    Every call of [warnings.warn] in pypfopt.  A method with a warning inside is written down once more, statement by statement,
    over a state that also holds the warnings issued so far; PWarn1.v proves that it does the same as the method without them.
    Simplification: the texts are not modelled, and the filter of the warnings module lets everything pass. *)
From Coq Require Import ZArith List String Bool Reals.
From Verif Require Import Num Py SLin Sums MConvex MEF MDown MCalls MPlot MPlot2 MFrame MBase MHRP MReturns MRisk MRisk2 MArray MBL.
Import ListNotations.
Local Open Scope R_scope.

(** The places: base_optimizer.py 397, black_litterman.py 45 and 258, expected_returns.py 32, 137 (183, 240) and 254,
    plotting.py 116 and 253, risk_models.py 70, 89, 167 (210, 266, 298, 391), 239, 295, 330 and 350, efficient_cdar.py 101
    (efficient_cvar.py 101), efficient_frontier.py 149, 172, 259 and 441.  Not: black_litterman.py 173 (python 3.5),
    expected_returns.py 36 (infinite returns: the model has none). *)
Inductive warning :=
| WShortSectors | WAlignCaps | WNoPrior | WGaps | WNotFrame | WMarketNotFrame | WNotOptimized | WNoPortfolio (value : R)
| WAmended | WNotFixed | WSpan | WDeprecated | WCovNotFrame | WCorrNotFrame | WBeta | WRemoved | WBounds | WObjectives | WRate.

(** ** Functions that return: warnings and result *)
(** warnings of risk_models.py 70-91 and the result *)
Definition fix_psd_w (eigh : eigh_oracle) (M : list (list R)) (fix_method : string) : list warning * res (list (list R)) :=
  if is_psd M then ([], Ok M) else
  let n := List.length M in
  let '(q, V) := eigh M in
  if String.eqb fix_method "spectral" then
    let F := array n n (fun i j => sumn n (fun k => entry V i k * (if Rltb 0 (nth k q 0) then nth k q 0 else 0) * entry V j k)) in
    (WAmended :: (if is_psd F then [] else [WNotFixed]), Ok F)
  else if String.eqb fix_method "diag" then
    let F := array n n (fun i j => entry M i j - 11 / 10 * min_of q * delta i j) in
    (WAmended :: (if is_psd F then [] else [WNotFixed]), Ok F)
  else ([WAmended], Err NotImplementedError).
(** risk_models.py 51-98 with labels *)
Definition fixed_frame_w (eigh : eigh_oracle) (names : list label) (rows : list (list R)) (fix_method : string) : list warning * res (frame R) :=
  match fix_psd_w eigh rows fix_method with
  | (ws, Ok m) => (ws, Ok (mkFrame names names m))
  | (ws, Err e) => (ws, Err e)
  end.
(** expected_returns.py 136-137, 182-183, 239-240; risk_models.py 166-167, 209-210, 265-266, 297-298, 390-391 *)
Definition frame_warning (t : table) : list warning := if not_frame t then [WNotFrame] else [].
(** risk_models.py 149-175 [sample_cov] *)
Definition sample_cov_w (eigh : eigh_oracle) (t : table) (rd : bool) (fr : R) (log : bool) (fm : string) : list warning * res (frame R) :=
  let prices := frame_of t in
  match get_returns prices rd log with
  | Err e => (frame_warning t, Err e)
  | Ok returns =>
      match whole (f_rows (frame_cov returns)) with
      | Err e => (frame_warning t, Err e)
      | Ok C => let '(ws, r) := fixed_frame_w eigh (f_cols returns) (scale_rows fr C) fm in (frame_warning t ++ ws, r)
      end
  end.
(** risk_models.py 178-220 [semicovariance] *)
Definition semicovariance_w (eigh : eigh_oracle) (t : table) (rd : bool) (b fr : R) (log : bool) (fm : string) : list warning * res (frame R) :=
  let prices := frame_of t in
  match get_returns prices rd log with
  | Err e => (frame_warning t, Err e)
  | Ok returns =>
      let drops k i := drop_cell b (nth i (nth k (f_rows returns) []) None) in
      let T := List.length (f_rows returns) in
      let n := List.length (f_cols returns) in
      if Nat.eqb T 0 then (frame_warning t, Err FloatSpecial) else
      let '(ws, r) := fixed_frame_w eigh (f_cols returns)
        (array n n (fun i j => sumn T (fun k => drops k i * drops k j) / INR T * fr)) fm in
      (frame_warning t ++ ws, r)
  end.
(** risk_models.py 275-281: the pairs i <= j, each with a warning (238-239) before anything in line 240 can fail; the first
    failure ends the loop *)
Definition span_warnings (pairs : list (res (option R))) (span : R) : list warning :=
  if Rltb span 10 then
    (fix go (l : list (res (option R))) : list warning :=
       match l with [] => [] | Ok _ :: l' => WSpan :: go l' | Err _ :: _ => [WSpan] end) pairs
  else [].
(** risk_models.py 277-279 *)
Definition upper_pairs (N : nat) : list (nat * nat) := flat_map (fun i => map (pair i) (seq i (N - i))) (seq 0 N).
(** risk_models.py 243-285 [exp_cov] *)
Definition exp_cov_w (eigh : eigh_oracle) (t : table) (rd : bool) (span fr : R) (log : bool) (fm : string) : list warning * res (frame R) :=
  let prices := frame_of t in
  match get_returns prices rd log with
  | Err e => (frame_warning t, Err e)
  | Ok returns =>
      let N := List.length (f_cols prices) in
      let col i := column (f_rows returns) i in
      let ws0 := frame_warning t ++ span_warnings (map (fun p => pair_exp_cov (col (fst p)) (col (snd p)) span) (upper_pairs N)) span in
      match (do C <- mapM (fun i => mapM (fun j => pair_exp_cov (col (Nat.min i j)) (col (Nat.max i j)) span) (seq 0 N)) (seq 0 N) ;
             whole C) with
      | Err e => (ws0, Err e)
      | Ok C => let '(ws, r) := fixed_frame_w eigh (f_cols prices) (scale_rows fr C) fm in (ws0 ++ ws, r)
      end
  end.
(** risk_models.py 287-317 [min_cov_determinant] *)
Definition min_cov_determinant_w (eigh : eigh_oracle) (mcd : mcd_oracle) (t : table) (rd : bool) (fr : R) (log : bool) (fm : string)
    : list warning * res (frame R) :=
  let prices := frame_of t in
  let ws0 := WDeprecated :: frame_warning t in
  match get_returns prices rd log with
  | Err e => (ws0, Err e)
  | Ok X =>
      let raw := mcd (dropna (f_rows X)) in
      if fits (List.length (f_cols prices)) raw
      then let '(ws, r) := fixed_frame_w eigh (f_cols prices) (scale_rows fr raw) fm in (ws0 ++ ws, r)
      else (ws0, Err ValueError)
  end.
(** risk_models.py 404-416 [_format_and_annualize] *)
Definition format_annualize_w (eigh : eigh_oracle) (sh : shrinkage) (raw : list (list R)) : list warning * res (frame R) :=
  fixed_frame_w eigh (f_cols (sh_X sh)) (scale_rows (sh_frequency sh) raw) "spectral".
(** risk_models.py 320-335 [cov_to_corr] and 338-353 [corr_to_cov] *)
Definition cov_to_corr_w (c : cov_like) : list warning * res (frame R) :=
  (match c with LFrame _ => [] | LArray _ => [WCovNotFrame] end, cov_to_corr (as_frame c)).
(** risk_models.py 338-353 *)
Definition corr_to_cov_w (c : cov_like) (stdevs : list R) : list warning * res (frame R) :=
  (match c with LFrame _ => [] | LArray _ => [WCorrNotFrame] end, corr_to_cov (as_frame c) stdevs).
(** expected_returns.py 111-148, 151-195, 198-282: the warning about gaps is the boolean in the result of MReturns.v *)
Definition gap_warning (r : res (bool * series)) : list warning := match r with Ok (true, _) => [WGaps] | _ => [] end.
(** expected_returns.py 198-282 *)
Definition capm_warnings (prices : table) (market : option table) (rd : bool) : list warning :=
  frame_warning prices ++ match market with Some m => if negb rd && not_frame m then [WMarketNotFrame] else [] | None => [] end.

(** black_litterman.py 19-52 [market_implied_prior_returns] *)
Definition market_implied_prior_returns_w (caps : dict R) (ra : R) (cov : cov_arg) (rf : R) : list warning * res (list R) :=
  (match cov with CovFrame _ _ => [] | CovArray _ => [WAlignCaps] end, market_implied_prior_returns caps ra cov rf).
(** black_litterman.py 256-279 [_set_pi] *)
Definition set_pi_w (n : nat) (pi : pi_arg) (cov : cov_arg) (ra : R) (caps : option (dict R)) (rf : R) : list warning * res (list R) :=
  match pi with
  | PiNone => ([WNoPrior], Ok (repeat 0 n))
  | PiArr l => ([], Ok l)
  | PiMarket =>
      match caps with
      | None => ([], Err ValueError)
      | Some c =>
          match market_implied_prior_returns_w c ra cov rf with
          | (ws, Err e) => (ws, Err e)
          | (ws, Ok prior) => (ws, match cov with CovFrame _ _ => Ok prior | CovArray _ => Err AttributeError end)
          end
      end
  | PiEqual => ([], Ok (repeat (1 / INR n) n))
  | PiBad => ([], Err TypeError)
  end.
(** black_litterman.py 127-206 [__init__] *)
Definition bl_init_w (a : bl_args) : list warning * res bl :=
  let sigma := cov_values (a_cov a) in
  let n := List.length sigma in
  let b := base_init n (Some (cov_tickers (a_cov a))) in
  match (do (Q, P) <- match a_views a with
                      | VNone => set_Q_P n (a_Q a) (a_P a)
                      | VDict d => parse_views n (b_tickers b) d
                      | VBad => Err TypeError
                      end ;
         do ra <- (if Rleb (a_ra a) 0 then Err ValueError else Ok (a_ra a)) ; Ok (Q, P, ra)) with
  | Err e => ([], Err e)
  | Ok (Q, P, ra) =>
      match set_pi_w n (a_pi a) (a_cov a) ra (a_caps a) (a_rf a) with
      | (ws, Err e) => (ws, Err e)
      | (ws, Ok pi) =>
          (ws, do tau <- (if Rleb (a_tau a) 0 || Rltb 1 (a_tau a) then Err ValueError else Ok (a_tau a)) ;
               do _ <- check_dimensions n Q P pi sigma ;
               do omega <- set_omega n sigma Q P tau (a_omega a) (a_conf a) ;
               Ok (mkBL b sigma n Q P pi omega tau ra None None None None))
      end
  end.

(** efficient_frontier.py 140-161 [_validate_returns] *)
Definition validate_returns_w (mu : option (list R)) (r : returns_arg) : list warning * res (list (list R)) :=
  match r with
  | ROther => ([], Err TypeError)
  | RTable ncols rows =>
      let '(ws, rows') :=
        if existsb (existsb (fun x => match x with None => true | Some _ => false end)) rows
        then ([WRemoved], dropna rows) else ([], map (map (fun x => match x with None => 0 | Some v => v end)) rows) in
      (ws, if match mu with Some m => negb (ncols =? List.length m)%nat | None => false end then Err ValueError else Ok rows')
  end.
(** efficient_cvar.py 96-105, efficient_cdar.py 96-105 [_validate_beta] *)
Definition validate_beta_w (b : R) : list warning * res R :=
  if Rleb 0 b && Rltb b 1 then (if Rleb b (2 / 10) then [WBeta] else [], Ok b) else ([], Err ValueError).

(** efficient_frontier.py 421-454 [portfolio_performance] *)
Definition ef_performance_w (rf : R) (o : ef) : list warning * res (option R * R * option R) :=
  let '(ws, r) :=
    match e_rf o with
    | Some x => ((if negb (Reqb rf x) then [WRate] else []), x)
    | None => ([], rf)
    end in
  (ws, portfolio_performance (match e_weights o with None => WtNone | Some w => WtArray w end)
         (match e_mu o with None => MuNone | Some m => MuArray m end) (CovArray (e_cov o)) r).

(** plotting.py 97-131 [plot_dendrogram] *)
Definition plot_dendrogram_w (lk : linkage_oracle) (h : hrp) : list warning * (hrp * res (list link_row * list label)) :=
  (match h_clusters h with Some _ => [] | None => [WNotOptimized] end, plot_dendrogram lk h).

(** plotting.py 237-261: the loop over the parameters, with the warnings *)
Section Loop.
  Context {St : Type} (methods : string -> option (R -> M St unit)) (performance : St -> res (option R * R)).
  (** plotting.py 237-261 *)
  Fixpoint plot_loop_w (ef_param : string) (vs : list R) (w : world) (s : St) : list warning * (world * St * res (list (option R * R))) :=
    match vs with
    | [] => ([], (w, s, Ok []))
    | v :: vs' =>
        let next ws w1 s1 :=
          match performance s1 with
          | Err e => (ws, (w1, s1, Err e))
          | Ok p =>
              match plot_loop_w ef_param vs' w1 s1 with
              | (ws', (w2, s2, Ok ps)) => (ws ++ ws', (w2, s2, Ok (p :: ps)))
              | (ws', (w2, s2, Err e)) => (ws ++ ws', (w2, s2, Err e))
              end
          end in
        match attempt methods ef_param v w s with
        | (w1, s1, Err OptimizationError) => plot_loop_w ef_param vs' w1 s1
        | (w1, s1, Ok _) => next [] w1 s1
        | (w1, s1, Err ValueError) => next [WNoPortfolio v] w1 s1
        | (w1, s1, Err e) => ([], (w1, s1, Err e))
        end
    end.
End Loop.

(** ** Methods of the optimizers *)
Local Open Scope m_scope.
(** efficient_frontier.py 172, 259: the warnings issued so far, and the object *)
Definition wef := (list warning * ef)%type.
(** efficient_frontier.py 163-413: a statement that does not warn *)
Definition quietly {X} (m : M ef X) : M wef X :=
  fun w s => match m w (snd s) with (w', o', r) => (w', (fst s, o'), r) end.
(** efficient_frontier.py 172, 259; base_optimizer.py 397: [warnings.warn] *)
Definition warn (x : warning) : M wef unit := fun w s => (w, (fst s ++ [x], snd s), Ok tt).
Local Notation "! m" := (quietly m) (at level 70).

(** base_optimizer.py 368-405 [add_sector_constraints] *)
Definition add_sector_constraints_w (mapper : dict string) (lower upper : list (string * R)) : M wef unit :=
  o <- !get ;;
  when (any_negative (e_lb o)) (warn WShortSectors) ;;
  !add_sector_constraints mapper lower upper.

(** efficient_frontier.py 163-184 [_make_weight_sum_constraint] *)
Definition make_weight_sum_constraint_w (mn : bool) : M wef unit :=
  (if mn then
     o <- !get ;;
     when (negb (any_negative (e_lb o)))
       (warn WBounds ;;
        !map_bounds (BPair (Some (-1)) (Some 1)) ;;
        !modify (fun o => set_cons (skipn 2 (e_cons o)) o)) ;;
     !add_constraint (sum_is 0)
   else !add_constraint (sum_is 1)) ;;
  !modify (set_mn (Some mn)).

Section EF.
  Context (sv : solver_t).

  (** efficient_frontier.py 225-293 [max_sharpe] *)
  Definition max_sharpe_w (rf : num_arg) : M wef (dict R) :=
    match rf with
    | NOther => raise ValueError
    | NFloat _ | NInt _ =>
        let r := match rf with NFloat x => x | NInt z => IZR z | NOther => 0 end in
        o <- !get ;;
        match e_mu o with
        | None => raise TypeError
        | Some mu =>
            match list_max mu with
            | None => raise ValueError
            | Some mx =>
                if Rleb mx r then raise ValueError else
                !modify (set_rf (Some r)) ;;
                !check_cov ;;
                k <- !new_var 1 ;;
                when (negb (List.length (e_add o) =? 0)%nat) (warn WObjectives) ;;
                !set_objective_full (EQuad (e_cov o) (EVar (e_w o))) ;;
                new <- !transform_all k (e_cons o) ;;
                !need_mu ;;
                c1 <- !with_id (CEq (EDot (map (fun x => x - r) mu) (EVar (e_w o))) (EScalar 1)) ;;
                c2 <- !with_id (CEq (ESum (EVar (e_w o))) (EVar k)) ;;
                c3 <- !with_id (CIneq (EScalar 0) (EVar k)) ;;
                !modify (set_cons (c1 :: c2 :: c3 :: new)) ;;
                s <- !solve_opt sv ;;
                let kv := scalar (fst s k) in
                if Reqb kv 0 then raise FloatSpecial else
                !modify (fun o => put_weights (map (fun x => round16 (x / kv)) (fst s (e_w o))) o) ;;
                !output
            end
        end
    end.

  (** efficient_frontier.py 295-328 [max_quadratic_utility] *)
  Definition max_quadratic_utility_w (risk_aversion : R) (mn : bool) : M wef (dict R) :=
    if Rleb risk_aversion 0 then raise ValueError else
    upd <- !is_parameter_defined "risk_aversion" ;;
    (if upd then
       !validate_market_neutral mn ;;
       !update_parameter_value "risk_aversion" risk_aversion
     else
       o <- !get ;;
       mu <- !need_mu ;;
       !check_cov ;;
       p <- !new_param "risk_aversion" true risk_aversion ;;
       !set_objective_full (quadratic_utility_e (EVar (e_w o)) mu (e_cov o) p true) ;;
       make_weight_sum_constraint_w mn) ;;
    !solve_and_output sv.

  (** efficient_frontier.py 330-374 [efficient_risk] *)
  Definition efficient_risk_w (pinv : list (list R) -> list (list R)) (target : num_arg) (mn : bool) : M wef (dict R) :=
    match target_of target with
    | None => raise ValueError
    | Some t =>
        if Rltb t 0 then raise ValueError else
        o <- !get ;;
        if below_global_min pinv (e_cov o) t then raise ValueError else
        upd <- !is_parameter_defined "target_variance" ;;
        (if upd then
           !validate_market_neutral mn ;;
           !update_parameter_value "target_variance" (t * t)
         else
           mu <- !need_mu ;;
           !set_objective (portfolio_return_e (EVar (e_w o)) mu true) ;;
           !check_cov ;;
           !set_objective_full (portfolio_return_e (EVar (e_w o)) mu true) ;;
           p <- !new_param "target_variance" true (t * t) ;;
           !add_constraint (CFun (fun v => CIneq (portfolio_variance_e (EVar v) (e_cov o)) (EPar p))) ;;
           make_weight_sum_constraint_w mn) ;;
        !solve_and_output sv
    end.

  (** efficient_frontier.py 376-419 [efficient_return]; [_max_return] does not warn *)
  Definition efficient_return_w (target : num_arg) (mn : bool) : M wef (dict R) :=
    match target with
    | NFloat t =>
        o <- !get ;;
        when (falsy (e_maxret o))
          (v <- !on_copy (max_return sv) ;; !modify (set_maxret (Some v))) ;;
        o1 <- !get ;;
        if match e_maxret o1 with Some v => Rltb v t | None => false end then raise ValueError else
        upd <- !is_parameter_defined "target_return" ;;
        (if upd then
           !validate_market_neutral mn ;;
           !update_parameter_value "target_return" t
         else
           !check_cov ;;
           !set_objective (portfolio_variance_e (EVar (e_w o)) (e_cov o)) ;;
           mu <- !need_mu ;;
           !set_objective_full (portfolio_variance_e (EVar (e_w o)) (e_cov o)) ;;
           p <- !new_param "target_return" false t ;;
           !add_constraint (CFun (fun v => CIneq (EPar p) (portfolio_return_e (EVar v) mu false))) ;;
           make_weight_sum_constraint_w mn) ;;
        !solve_and_output sv
    | _ => raise ValueError
    end.
End EF.

(** efficient_frontier.py 163-413, base_optimizer.py 321-512: one call *)
Definition run_w (sv : solver_t) (ns : nlp_solver) (pinv : list (list R) -> list (list R)) (c : call) : M wef unit :=
  match c with
  | KAddSector m l u => add_sector_constraints_w m l u
  | KMaxSharpe rf => max_sharpe_w sv rf ;; ret tt
  | KUtility ra mn => max_quadratic_utility_w sv ra mn ;; ret tt
  | KRisk t mn => efficient_risk_w sv pinv t mn ;; ret tt
  | KReturn t mn => efficient_return_w sv t mn ;; ret tt
  | _ => !run sv ns pinv c
  end.
(** the same lines: a sequence of calls; exceptions are caught by the caller (efficient_frontier.py 163-413) *)
Fixpoint run_all_w (sv : solver_t) (ns : nlp_solver) (pinv : list (list R) -> list (list R)) (cs : list call) (w : world) (s : wef) : world * wef :=
  match cs with
  | [] => (w, s)
  | c :: cs' => match run_w sv ns pinv c w s with (w', s', _) => run_all_w sv ns pinv cs' w' s' end
  end.

Section Down.
  Context (sv : solver_t).

  (** efficient_semivariance.py 109-129, efficient_cvar.py 116-139, efficient_cdar.py 116-135 *)
  Definition g_min_w (k : dclass) (mn : bool) : M wef (dict R) :=
    match k with
    | DSemi d =>
        p <- !new_var (sd_T d) ;;
        n <- !new_var (sd_T d) ;;
        !set_objective_full (ESumSq (EVar n)) ;;
        !add_split d p n ;;
        make_weight_sum_constraint_w mn ;;
        !solve_and_output sv
    | DCVaR d =>
        !set_objective_full (cvar_e d) ;;
        !add_cvar d ;;
        make_weight_sum_constraint_w mn ;;
        !solve_and_output sv
    | DCDaR d =>
        !set_objective_full (cdar_e d) ;;
        !add_cdar d ;;
        make_weight_sum_constraint_w mn ;;
        !solve_and_output sv
    end.
  (** efficient_semivariance.py 131-167, efficient_cvar.py 113-114, efficient_cdar.py 113-114 *)
  Definition g_utility_w (k : dclass) (risk_aversion : R) (mn : bool) : M wef (dict R) :=
    match k with
    | DSemi d =>
        if Rleb risk_aversion 0 then raise ValueError else
        upd <- !is_parameter_defined "risk_aversion" ;;
        (if upd then
           !validate_market_neutral mn ;;
           !update_parameter_value "risk_aversion" risk_aversion
         else
           p <- !new_var (sd_T d) ;;
           n <- !new_var (sd_T d) ;;
           o <- !get ;;
           mu <- !need_mu ;;
           par <- !new_param "risk_aversion" true risk_aversion ;;
           !set_objective_full
             (EAdd (EMul (portfolio_return_e (EVar (e_w o)) mu true) (EScalar (/ sd_freq d)))
                   (EMul (EMul (EScalar (1/2)) (EPar par)) (ESumSq (EVar n)))) ;;
           !add_split d p n ;;
           make_weight_sum_constraint_w mn) ;;
        !solve_and_output sv
    | DCVaR _ | DCDaR _ => raise NotImplementedError
    end.
  (** efficient_semivariance.py 169-206, efficient_cvar.py 179-218, efficient_cdar.py 165-202 *)
  Definition g_risk_w (k : dclass) (target : R) (mn : bool) : M wef (dict R) :=
    match k with
    | DSemi d =>
        upd <- !is_parameter_defined "target_semivariance" ;;
        (if upd then
           !validate_market_neutral mn ;;
           !update_parameter_value "target_semivariance" (target * target)
         else
           o <- !get ;;
           mu <- !need_mu ;;
           !set_objective_full (portfolio_return_e (EVar (e_w o)) mu true) ;;
           p <- !new_var (sd_T d) ;;
           n <- !new_var (sd_T d) ;;
           par <- !new_param "target_semivariance" true (target * target) ;;
           !add_constraint (CFun (fun _ => CIneq (EMul (EScalar (sd_freq d)) (ESumSq (EVar n))) (EPar par))) ;;
           !add_split d p n ;;
           make_weight_sum_constraint_w mn) ;;
        !solve_and_output sv
    | DCVaR d =>
        upd <- !is_parameter_defined "target_cvar" ;;
        (if upd then
           !validate_market_neutral mn ;;
           !update_parameter_value "target_cvar" target
         else
           o <- !get ;;
           m <- !need_mu ;;
           !set_objective_full (portfolio_return_e (EVar (e_w o)) m true) ;;
           par <- !new_param "target_cvar" true target ;;
           !add_constraint (CFun (fun _ => CIneq (cvar_e d) (EPar par))) ;;
           !add_cvar d ;;
           make_weight_sum_constraint_w mn) ;;
        !solve_and_output sv
    | DCDaR d =>
        upd <- !is_parameter_defined "target_cdar" ;;
        (if upd then
           !validate_market_neutral mn ;;
           !update_parameter_value "target_cdar" target
         else
           o <- !get ;;
           m <- !need_mu ;;
           !set_objective_full (portfolio_return_e (EVar (e_w o)) m true) ;;
           par <- !new_param "target_cdar" true target ;;
           !add_constraint (CFun (fun _ => CIneq (cdar_e d) (EPar par))) ;;
           !add_cdar d ;;
           make_weight_sum_constraint_w mn) ;;
        !solve_and_output sv
    end.
  (** efficient_semivariance.py 208-247, efficient_cvar.py 141-177, efficient_cdar.py 137-163 *)
  Definition g_return_w (k : dclass) (target : R) (mn : bool) : M wef (dict R) :=
    match k with
    | DSemi d =>
        if Rltb target 0 then raise ValueError else
        o <- !get ;;
        match e_mu o with
        | None => raise TypeError
        | Some m =>
            match list_max (map Rabs m) with
            | None => raise ValueError
            | Some mx =>
                if Rltb mx target then raise ValueError else
                upd <- !is_parameter_defined "target_return" ;;
                (if upd then
                   !validate_market_neutral mn ;;
                   !update_parameter_value "target_return" target
                 else
                   p <- !new_var (sd_T d) ;;
                   n <- !new_var (sd_T d) ;;
                   !set_objective_full (ESumSq (EVar n)) ;;
                   par <- !new_param "target_return" false target ;;
                   !need_mu ;;
                   !add_constraint (CFun (fun v => CIneq (EPar par) (ESum (EDot m (EVar v))))) ;;
                   !add_split d p n ;;
                   make_weight_sum_constraint_w mn) ;;
                !solve_and_output sv
            end
        end
    | DCVaR d =>
        upd <- !is_parameter_defined "target_return" ;;
        (if upd then
           !validate_market_neutral mn ;;
           !update_parameter_value "target_return" target
         else
           !set_objective_full (cvar_e d) ;;
           !add_cvar d ;;
           m <- !need_mu_T ;;
           par <- !new_param "target_return" false target ;;
           !add_constraint (CFun (fun v => CIneq (EPar par) (EDot m (EVar v)))) ;;
           make_weight_sum_constraint_w mn) ;;
        !solve_and_output sv
    | DCDaR d =>
        upd <- !is_parameter_defined "target_return" ;;
        if upd then
          !validate_market_neutral mn ;;
          !update_parameter_value "target_return" target ;;
          !solve_and_output sv
        else
          m <- !need_mu_T ;;
          par <- !new_param "target_return" true target ;;
          !add_constraint (CFun (fun v => CIneq (EPar par) (EDot m (EVar v)))) ;;
          g_min_w k mn
    end.
End Down.
(** efficient_semivariance.py 103-247, efficient_cvar.py 93-218, efficient_cdar.py 93-202, base_optimizer.py 321-512: one call *)
Definition g_run_w (sv : solver_t) (ns : nlp_solver) (k : dclass) (c : dcall) : M wef unit :=
  match c with
  | GAddSector m l u => add_sector_constraints_w m l u
  | GMin mn => g_min_w sv k mn ;; ret tt
  | GUtility ra mn => g_utility_w sv k ra mn ;; ret tt
  | GRisk t mn => g_risk_w sv k t mn ;; ret tt
  | GReturn t mn => g_return_w sv k t mn ;; ret tt
  | _ => !g_run sv ns k c
  end.
(** the same lines: a sequence of calls (efficient_semivariance.py 103-247) *)
Fixpoint g_run_all_w (sv : solver_t) (ns : nlp_solver) (k : dclass) (cs : list dcall) (w : world) (s : wef) : world * wef :=
  match cs with
  | [] => (w, s)
  | c :: cs' => match g_run_w sv ns k c w s with (w', s', _) => g_run_all_w sv ns k cs' w' s' end
  end.
