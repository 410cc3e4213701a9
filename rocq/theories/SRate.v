(** * Specification for C107: the rate that portfolio_performance of EfficientFrontier uses *)
From Coq Require Import List Reals.
From Verif Require Import Py SLin MBase MConvex MEF SConvex.
Import ListNotations.
Local Open Scope R_scope.

(** the rate of the last call of max_sharpe that was a number below some expected return *)
Fixpoint last_rate (mu : option (list R)) (cs : list call) (r0 : option R) : option R :=
  match cs with
  | [] => r0
  | c :: cs' => last_rate mu cs'
      match c, mu with
      | KMaxSharpe rf, Some m =>
          match target_of rf with Some r => if Exists_dec (fun a => r < a) m (Rlt_dec r) then Some r else r0 | None => r0 end
      | _, _ => r0
      end
  end.
(** return, volatility and Sharpe ratio of the weights [x] at the rate [r] *)
Definition reported (mu : list R) (cov : list (list R)) (r : R) (x : list R) (p : option R * R * option R) : Prop :=
  exists ret vol sh, p = (Some ret, vol, Some sh) /\ ret = inner mu x /\ 0 < vol /\ vol * vol = qform cov x /\ sh = (ret - r) / vol.
(** the calls of the example: a constraint of another class, weights, max_sharpe at 1% *)
Definition stale_calls : list call :=
  [KAddConstraint (CFun (fun v => COther (fun _ => True) (EVar v))); KSetWeights [(LInt 0, 1/2); (LInt 1, 1/2)]; KMaxSharpe (NFloat (1/100))].
