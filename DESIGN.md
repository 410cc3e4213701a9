# Formal model of PyPortfolioOpt

Source: `/repo` (robertmartin8/PyPortfolioOpt, version 1.5.6), package `pypfopt`.
Model and proofs: `/verif/rocq/theories`, Rocq/Coq 8.16.1, standard library only.

## 1. Approach

* **One model, several arithmetics.** Control-flow heavy code (discrete allocation, weight
  cleaning, CLA, HRP, the cvxpy based optimisers) is written once over a record of numeric
  operations (`Num.v`: + - * / comparison, truncation, rounding). It is instantiated with
  - `R` (Coq reals): theorems. Floats are idealised as exact numbers.
  - `Q` (exact rationals): executable, used for `vm_compute` examples and witnesses.
  - binary64 (`Coq.Floats` primitive floats): executable, used for the few statements about
    rounding effects of the real machine arithmetic.
* **Exceptions are values** (`Py.v`): every modelled function returns `res X = Ok x | Err e`, with
  the same order of checks as the Python code.
* **External numerical libraries are oracles.** cvxpy solvers, scipy `minimize`, `linkage`,
  numpy `inv`/`solve`/`eigh`/`cholesky` are function arguments of the model. Theorems quantify over
  every oracle meeting a stated contract (e.g. `sound_solver`: a returned answer is feasible and
  optimal for exactly the problem that was passed), or over every oracle at all. They are never
  axioms. Contracts are listed in section 4.
* **Files.** `M*.v` model, `S*.v` independent specifications, `P*.v` proofs, `Properties*.v` only
  theorem statements closed by `exact`, each followed by `Print Assumptions`, plus concrete
  non-vacuity examples in `Examples*.v`.
* A false claim is recorded as a theorem `..._refuted` with a concrete witness.

## 2. Trusted base

* Coq kernel 8.16.1 (checked again with `coqchk`).
* Axioms reported by `Print Assumptions`: section 5 (generated from the build output).
* The correspondence model/code, by reading. Every definition cites file and lines.

## 3. Properties, modelling and proof plan

| id | modelled code | how proved |
|----|---------------|-----------|
| C01-C08 | `discrete_allocation.py` 52-253 (greedy, including NaN deficits, sorting in place, sub-allocations, error branches) | loop invariant over second round with fuel; termination measure funds/min price; binary64 run for the float part of C04 |
| C05, C92-C94 | `discrete_allocation.py` 98-130, 146-185, 250-253, 270-306, 337-340; `plotting.py` 398-404 (`MReport.v`) | both halves reduced to the long-only results, prices selected per half; sums over tickers for the error bound; sorting lemmas |
| C95 | `efficient_semivariance.py` 103-247, `efficient_cvar.py` 93-218, `efficient_cdar.py` 93-202 with the inherited `base_optimizer.py` 321-512 as call sequences (`MCalls.v`) | invariant of an object between calls of one method (untouched, or holding the problem with one parameter), carried through accepted and rejected targets; commutation with replacing the covariance matrix |
| C96 | the constructors of `MBase.v`, `MEF.v`, `MCLA.v`, `MBL.v`, `MHRP.v` | case analysis against an inductive specification of the labels; preservation by every call |
| C97, C54 | `plotting.py` 57-212, 275-298 (`MPlot2.v`), `cla.py` 411-440 | case analysis over the states of the object; order of the sampled frontier by induction over the turning points; the marker by an exact run |
| C102, C18, C21 | `base_optimizer.py` 203-280, 321-405, `efficient_frontier.py` (constructor to answer) | induction over the list of preparatory calls; composition with C25, C26, C28, C29 |
| C103 | `plotting.py` 38-58, 134-382 (`MPlot3.v`), downside classes through `MCalls.v` | case analysis over the kinds of objects; frame lemmas: plotting keeps returns, covariance and tickers; loop lemmas of C78 |
| C104 | `risk_models.py` 287-317 (`MRisk2.v`) | inductive specification of complete rows; composition with the repair theorem C72 |
| C105, C66 (log returns) | `risk_models.py` 101-146, `expected_returns.py` 81-108 with `**kwargs` (`MKwargs.v`), signatures of all estimators; `expected_returns.py` 31-78 | lookup lemmas for keyword dictionaries; telescoping of exponentials |
| C106 | constructors to answers of `efficient_frontier.py`, `efficient_semivariance.py`, `efficient_cvar.py`, `efficient_cdar.py` | closed and bounded sets of vectors are compact (`PExist.v`, from completeness of R); costs, constraints, semivariance, CVaR and CDaR are continuous; so a best portfolio exists whenever one is allowed, and C25-C38 `_found` theorems apply |
| C107 | `efficient_frontier.py` `portfolio_performance`, `max_sharpe`; all calls | the stored rate, returns and covariance after any sequence of calls (`PRate.v`); the numbers from C16; `SRate.v` states which call sets the rate |
| C108 | the README sequence from prices to shares | composition of C67, C70, C106, C25/C30, C14, C11, C12 and C09 (`PPipe.v`, `PPipe2.v`); the distance to the optimal portfolio follows from comparing the answer of the integer program with the whole shares each asset's part of the money can pay; `SPipe.v` states the result |
| C109 | `cla.py` `_golden_section`, `_eval_sr`, `max_sharpe` | positions of the inner points relative to the bracket, with an error that grows by at most 1/0.618 per step, for the first 38 of 44 steps, then only that the better point is kept (`PGold.v`); the ratio on a segment as a function of one variable (`PGold2.v`); combined with C91 (`PGold3.v`, `PGold4.v`); `SGold.v` says what a single peak and the accuracy are. Points dropped because of C90 are not covered: `unbroken` excludes them |
| C110 | `cla.py` `portfolio_performance`, `set_weights` | cases of the call, then C16 (`PGold5.v`) |
| C111 | lines converting other inputs in `expected_returns.py`, `risk_models.py`; all estimators | the estimators rewritten so that columns are addressed by position (`PArray.v`, `PArray2.v`); what equal up to labels means is in `SArray.v`; a Series is a table with one column (`SConv.v`, `PConv.v`) |
| C112 | `expected_returns.py` 239-267 | the left join without a match appends NaN (`PArray3.v`); the other cases by computation with the labels |
| C113 | nothing new: the optimizers of `MEF.v`, `MDown.v` | exchange arguments between best portfolios (`PCurve.v`: trades, convexity of each risk measure), fed with C25-C40 (`PCurve2.v`); success of the second call from C106 (`PCurve3.v`) |
| C114 | nothing new: `add_objective`, `add_constraint`, `L2_reg`, `transaction_cost` and the optimizers | both answers are admissible for both calls, so the two optimality statements of C102 (C30 for the rate, C34, C36, C38 for level and benchmark) are added up (`PStatics.v`, `PStatics2.v`) |
| C115 | nothing new: `greedy_portfolio`, `lp_portfolio` of `MAlloc.v` | the greedy answer is a feasible point of the integer program, so the optimality of C09 (C93 with shorts) applies; the bound from C01, C02, C07 (`PWays1.v`); `miss` is defined in `SWays.v` |
| C116 | nothing new: `market_implied_prior_returns`, `bl_weights` of `MBL.v`, the optimizers of `MEF.v` | Cauchy-Schwarz for a positive definite form: the portfolio behind the implied returns beats every other one; uniqueness (`PWays2.v`); labels and capitalisations (`PWays3.v`) |
| C117 | nothing new: `MCLA.v` and `MEF.v` | C52, C91, C109 for the CLA answer against C25 and C30 for the solver answer, and uniqueness of both optima (`PWays4.v`) |
| C118 | `MRound.v`: the generic `raw_hrp_allocation` (`hierarchical_portfolio.py` 77-140) and `greedy_portfolio` (`discrete_allocation.py` 190-325) run in `RndNum rnd`, where each operation is exact and then rounded; no overflow, infinity or NaN, and no underflow errors (the error is relative) | monotonicity and relative error of one operation carried through the tree (`PRound1.v`) and through the buying loops (`PRound2.v`); `PRoundW.v` shows that rounding to nearest even with 53 bits (Flocq) meets the hypotheses |
| C119 | `expected_returns.py` 29-282 (`MReturns.v`) on tables with missing entries (`gappy` in `SGaps.v`) | columns as functions of the row number; invariants of the running product, of the pairing of columns and of the date join (`PGaps1.v`-`PGaps3.v`) |
| C120 | `risk_models.py` 149-175, 223-285, 371-416, 438-518, 573-582 (`MRisk.v`) on tables with missing entries | pairwise statistics over the common rows (`PGaps4.v`); the refutation has returns 1, -1, 0, 0 and 1, -1, missing, missing: a correlation above 1 (`PGapsW.v`) |
| C121 | every `warnings.warn` (`MWarn.v`): base_optimizer.py 397, black_litterman.py 45, 258, plotting.py 116, 253, risk_models.py 70-91, 239, efficient_cdar.py 101, efficient_frontier.py 149, 172, 259, 441 | erasure of the warnings (`PWarn1.v`), effect of every call on bounds and warnings (`PWarn2.v`, `PWarn3.v`), the functions one by one (`PWarn4.v`); refuted for plots: a target for which the solver finds nothing is left out without a word (`PWarnW.v`) |
| C122 | `black_litterman.py` 208-254, 291-414, 416-474 (`MBL.v`) on pairs of arguments | the two linear systems are related by a one-to-one matrix (`PViews1.v`); construction of the second object, recombination (`PViews2.v`), order (`PViews3.v`), units and repetition (`PViews4.v`), dictionaries and zero confidence (`PViews5.v`), witness for the default omega (`PViewsW.v`) |
| C123 | `efficient_frontier.py` 186-422, `base_optimizer.py` 282-319, 407-437 (`MEF.v`, `MConvex.v`) with a solver whose answers are off by a tolerance | `SNear.v` says what a tolerance is; the constraints posed are those of the exact case (`PNear1.v`), the optimizers one by one (`PNear2.v`), rounding and the division by kappa (`PNear3.v`); the solver of the witness is exact except that it moves the first weight by 1/1000 where that is within its tolerance (`PNearW.v`). `c123_max_sharpe` supposes bounds for all weights and a tolerance that is small against the excess returns: without that the divisor may be zero or negative within the tolerance |
| C124 | `efficient_cvar.py`, `efficient_cdar.py`, `efficient_semivariance.py` (`MDown.v`), same solvers | auxiliary variables off by the tolerance bound the true risk measure up to `cvar_slack`, `cdar_slack`, `semi_slack` (`PNear4.v`, `PNear5.v`, `PNear6.v`) |
| C125 | the constructors: efficient_frontier.py 55-161, base_optimizer.py 153-240, efficient_semivariance.py 50-101, efficient_cvar.py 49-105, efficient_cdar.py 48-105, cla.py 50-97, hierarchical_portfolio.py 53-75 | accepted arguments characterised by if and only if, and the fields of the new object (`PInit.v`, `PInit2.v`); what bounds and tables mean is in `SInit.v` |
| C126 | `EfficientFrontier.max_sharpe` (efficient_frontier.py 225-294) with the objectives added by `add_objective` (base_optimizer.py 321-341) | the problem that is solved is rewritten in terms of the weights: variance over squared excess return plus the added objectives at the weights divided by their excess return (`c126_added`, `c126_added_found`); objectives of degree two are risk (`c126_regularised`, `c126_regularised_found`), in particular L2 penalties (`c126_l2`); a transaction cost is not the cost of the trade (`c126_cost_refuted`) |
| C127 | as C118, with the long/short branch of `greedy_portfolio` (`discrete_allocation.py` 149-188) and `clean_weights` (`base_optimizer.py` 79-101) run in `RndNum rnd`; the power of ten of the decimals is assumed to be a number of the format (true of 10^1 to 10^22 in binary64) | the error of the normalisation, of the two budgets and of the two sub-allocations combined (`PRound3.v`); one multiplication, rint and one division (`PRound4.v`) |
| C128 | `return_model` and `risk_matrix` on a price table (`expected_returns.py`, `risk_models.py`), `greedy_portfolio` (`discrete_allocation.py` 132-253) and `HRPOpt.optimize` (`hierarchical_portfolio.py` 142-174), each run on two lists of the same assets in different orders | sums over assets and over pairs of assets do not depend on the order, hence neither do the market, the average correlation and the Ledoit-Wolf intensities (`c128_returns`, `c128_covariances`, `c128_single_factor`, `c128_constant_correlation`); a list of pairwise different weights has only one sorted order and prices are only looked up by ticker (`c128_greedy`, `c128_greedy_rounded`); refuted for equal weights (`c128_greedy_ties_refuted`) and for hierarchical risk parity (`c128_hrp_refuted`; `only_single_linkage` says what single linkage answers and that there is no tie). The mean-variance optimizers are C41, the views C122; the covariances computed by scikit-learn are not covered |
| C129 | the five calls of `EfficientFrontier` on a Series and a DataFrame given in two units (`measured`), `returns_from_prices` and all the estimators on a price table with a factor per column (`repriced`), `DiscreteAllocation` with prices and total multiplied by a factor (`da_times`) | the programs in the two units have the same feasible portfolios and objectives that are positive multiples of each other (`c129_*_both`, `c129_min_volatility`, `c129_utility` with risk aversion times a/k, `c129_return`, `c129_risk` with target times the square root of k, `c129_max_sharpe` with rate times a; `c129_same_*`); a quotient of two prices loses its unit (`c129_returns`, `c129_return_estimates`, `c129_risk_estimates`); every comparison in the greedy loop is between two amounts of money or two fractions (`c129_greedy`); the integer program in another unit has the same best share counts (`c129_lp`, `c129_lp_exact`, `c129_lp_solvers`). `repair_non_psd` and `pinv` are only asked to respect units where stated; exact arithmetic |
| C130 | the ten calls of `EfficientSemivariance`, `EfficientCVaR` and `EfficientCDaR` on the same data stated in two ways (`semi_twins`, `cvar_twins`, `cdar_twins`): assets and days in another order, returns and benchmark multiplied by a, expected returns by c, targets converted (`SDays.v`) | the data are accepted in both forms, the calls succeed on both or on neither, and both answers are best portfolios of the first problem, label by label; from semivariance, CVaR and CDaR of the restated table (`PDays.v`: sums and sorted lists do not depend on the order of the rows) and the optimality theorems C34-C38. The rows must keep their order for CDaR: `c130_order_of_days_refuted`. |
| C131 | the estimators `mean_historical_return`, `capm_return` (default market and market table), `sample_cov`, `semicovariance`, `CovarianceShrinkage` and `HRPOpt` on two tables of returns with the same days in another order (`same_days`, `SDayOrder.v`) | the estimates, the matrices, the exceptions and the HRP portfolio are the same; from sums over a permuted list (`PDayOrder.v`: `present`, `both`, `codev` on permuted rows; for the shrinkage targets a re-numbering of the days under every `sumn`). scikit-learn's estimators are oracles assumed not to look at the order. The exponentially weighted estimators do look at the order (`c131_ema_refuted`, `c131_exp_cov_refuted`) and the warning about gaps as well (`c131_warning_refuted`). |
| C132 | the first call of each method of `EfficientFrontier`, `EfficientSemivariance`, `EfficientCVaR` and `EfficientCDaR` on an optimizer that was not used before (`open_ef`), for any arguments, any added constraints and objectives | a Hoare-style argument in `PErrors.v` shows that every step before the solver succeeds once the argument checks have passed; what is left is the outcome of the solver, whose exceptions (`TypeError`, `DCPError`: contract `usual_solver`) become OptimizationError. `rejects_exactly bad r` says ValueError if and only if `bad`, and nothing else but OptimizationError; the `bad` conditions are stated in `SErrors.v` without the code's comparisons. For `efficient_return` the condition is that the best reachable return is below the target, with an exact and complete solver. `max_sharpe` can also give the non-finite weights of a division by zero (`FloatSpecial`), and TypeError for a constraint that is neither an equation nor an inequality. An optimizer without expected returns fails in every method that needs them, with the exception stated in `c132_no_returns`, `c132_no_returns_semivariance`, `c132_no_returns_tails` |
| C133 | the first call of every method of `EfficientFrontier` (but `max_return` and the non-convex ones), `EfficientSemivariance`, `EfficientCVaR` and `EfficientCDaR` with two arbitrary exact solvers; added constraints and objectives are any convex ones (`convex_problem`) | `same_answer`: if both solvers succeed, dictionaries and weights are equal. Two best portfolios would be beaten by their midpoint, because the variance (`definite`) or one of the added objectives (`regularised`) is strictly convex, and rounding to 16 decimals of equal numbers is unique; for the Sharpe ratio the portfolios are first scaled to equal excess return. `c133_library_terms`: L2 regularisation with positive weight is strictly convex in that sense, transaction costs are convex. Not claimed: that the solvers succeed (C106), nor uniqueness for `max_sharpe` with added objectives |
| C134 | the first call of every convex method of `EfficientFrontier`, `EfficientSemivariance`, `EfficientCVaR` and `EfficientCDaR` before and after further demands: constraints added with `add_constraint` or `add_sector_constraints`, or an object built with narrower bounds (`tighter`; `c134_constraints`, `c134_sectors`, `c134_bounds` show that these calls produce it) | `no_gain`: if both calls succeed, the objective of the second answer is not better, it meets the new demands, and is just as good if the first answer meets them anyway; `idle`: where the best portfolio is unique (C133) an answer that meets the new demands stays the answer. Both follow from optimality: what is admissible for the tighter problem is admissible for the wider one. For market neutral portfolios narrower *bounds* are excluded: see `c134_market_neutral_bounds_refuted`. Two different exact solvers may be used; answers are compared before rounding to 16 decimals. | SMore, PMore, PMore2, PMoreW |
| C135 | `sample_cov`, `shrunk_covariance`, `ledoit_wolf` (`constant_correlation`, `single_factor`) on a complete table of returns with `T` days and `n` assets (MRisk.v), and an `EfficientFrontier` built from the resulting table (MEF.v) | spec: `definite` (SUnique.v: every non-zero position has positive variance), `qform`, `sample_covariance`, `mean_correlation`, `market`. If `T <= n` the sample covariance gives some non-zero position variance 0, and if `T < n` one whose weights also sum to 0 (fewer equations than unknowns; `kernel`). Any intensity `0 < d <= 1` towards the average variance gives a positive definite matrix as soon as one asset has positive sample variance; the constant correlation and single factor targets do when the intensity found is positive, the mean correlation is strictly between its limits, respectively no asset is perfectly correlated with the market. With C133 the weights then do not depend on the exact solver, from the table of returns to the dictionary (`c135_shrunk_one_answer`); with the sample covariance they do (`c135_sample_refuted`). Scikit-learn's `constant_variance` and OAS estimators are oracles and not covered |
| C136 | `bl_init` with views as arrays or as a dictionary, `bl_returns`, `bl_cov`, default and Idzorek uncertainty (MBL.v) | spec: `raised_view`, `uncorrelated`, `part_way` (SToward.v), `qform`, `inner`, `right_inverse`. The views `(1-t) Q1 + t Q2` give exactly `(1-t)` and `t` of the two answers and the same posterior covariance; one view raised by `d` raises the posterior return of its portfolio by between 0 and `d` (uncorrelated errors, singular matrices included; for a dictionary: of the ticker itself); with one view each asset moves by its covariance with the view portfolio, in one formula; all views together come nearer in units of their errors by at least the distance travelled from the prior in units of its error. Proof: normal equations of the solver contract, `A = P tau S P' + Omega` positive semidefinite. | PropertiesToward.v, ExamplesToward.v |
| C137 | `cla_init`, `init_algo`, `matrices`, `compute_lambda`, `compute_w`, `loop`, `purge_num_err`, `purge_excess`, `solve`, `cla_min_volatility`, `cla_max_sharpe`, `golden_section`, `cla_frontier`, `cla_performance` (MCLA.v) | spec: `measured_cla`, `same_point`, `same_frontier`, `same_figures` (SUnitsC.v). Expected returns times `a > 0` and covariances times `k > 0`, any bounds, any order of sets, any fuel: the run in the new unit simulates the old one step by step (lambda times k/a, gamma times k, the same weights), so that every sequence of calls hands out the same portfolios or the same errors. `np.linalg.inv` is any exact inverse (`sound_inverse`, `complete_inverse`) that raises only LinAlgError; that it commutes with the unit is proved from uniqueness of the inverse of a symmetric matrix. The covariance matrix is square and symmetric, not necessarily positive definite; the run need not succeed |
| C138 | `ef_init`, `min_volatility`, `max_quadratic_utility`, `efficient_risk`, `efficient_return`, `max_sharpe` (MEF.v) | spec: `mu_plus`, `shifted`, `target_plus` (SShift.v). Two optimizers made from the same data but for an amount added to every expected return; the solver of each is any exact (and, for the both-succeed theorems, complete) one. Proved by carrying the least-cost characterisations of C22/C41 across: on portfolios of the same total the returns differ by a constant. Weights are rounded to 16 decimals as in the code; the answers agree ticker by ticker when the matrix is positive definite. A market neutral target does not move with the level, and `efficient_return` loses such targets when the level is lowered (finding below) |
| C139 | `cvar_init`, `min_cvar`, `cvar_efficient_risk`, `cvar_efficient_return`, `cdar_init`, `min_cdar`, `cdar_efficient_risk`, `cdar_efficient_return`, `validate_beta` (MDown.v) | spec: `average`, `largest`, `tail_end`, `day_losses`, `falls` (SEnds.v), written without the sorted tail of SDown.v. For an optimizer made from labelled expected returns and a table with a day without gaps: what each call hands out (`answers`) and exactly when it succeeds (`..._found`, with an exact and complete solver), at level 0 in terms of the mean loss or mean drawdown and, when (1 - beta) times the number of days without gaps is at most 1, in terms of the worst day or the maximum drawdown. PTail.v restates C36-C38 and C41 for new optimizers; the tail mean at the ends is computed from the sorted list |
| C140 | `semi_init`, `min_semivariance`, `semi_max_quadratic_utility`, `semi_efficient_risk`, `semi_efficient_return`, `cvar_init`, `min_cvar`, `cvar_efficient_risk`, `cvar_efficient_return`, `cdar_init`, `min_cdar`, `cdar_efficient_risk`, `cdar_efficient_return` (MDown.v) | spec: `rows_plus`, `mu_plus`, `sum_of`, the pairs of optimizers (SLevel.v). The second optimizer has c more in every cell of the table (gaps kept), c more as benchmark and e more as every expected return. Both calls succeed or neither (exact and complete solvers) and both hand out best portfolios of the first problem, with return targets raised by e times the sum of weights and CVaR targets lowered by c times it; negative CVaR targets are refused, hence the condition there. `semi_efficient_return` compares its target with the largest absolute expected return, which does not move with the level, so only its answers are related. CDaR: market neutral portfolios only, refuted otherwise |
| C141 | `SClone.v`: the data with asset i listed a second time (in front, under a new label), `merge` (the weight of the second listing added to that of asset i), `merged_answers`. Weights from 0 to 1, fully invested. Inner products, the quadratic form and the period returns of the larger data at x are those of the smaller at `merge i x`, and every portfolio of the smaller problem is such a merge (`PClone.v`), so what `chosen` says of one problem carries over to the other; the calls are reduced to `chosen` by the facts of C41 and `PTail.v` (`PClone2.v`). HRP is the exception (`PCloneW.v`) |
| C142 | `SGrow.v`: the data with one more asset in front (`mu_grow`, `cov_grow`, `rows_grow`), the same bounds lo <= 0 <= hi for every asset (`around`), `improved` (both dictionaries show best portfolios of their problems, the larger problem's cost is at most the smaller's, and a best portfolio of the larger that leaves the new asset out is best without it), `improved_ratio` for max_sharpe. A portfolio of the smaller problem with a 0 in front is one of the larger at the same return and risk, also under the bounds that market neutrality puts in force (`PGrow.v`); the downside optimizers keep the same days when the new asset has no gaps (`PGrow2.v`). Success of the smaller call gives success of the larger by the existence results of `PExist4.v` and `PExist5.v`. A new asset with gaps is the exception (`PGrowW.v`) |
| C143 | `SWide.v`: `looser` (every lower bound no higher, every upper bound no lower, a missing bound the loosest), `loosened` (both dictionaries show best portfolios of their problems, the cost under the wider bounds is at most that under the narrower, and a best portfolio under the wider that keeps the narrower is best under them), `loosened_ratio` for max_sharpe, `same_kind` (market neutral calls: not the case that only the narrower bounds forbid short positions). The bounds may be written in any of the accepted forms. Every portfolio of the narrower problem is one of the wider, also after the replacement by (-1, 1) (`PWide.v`; downside optimizers in `PWide2.v`). Success under the narrower bounds gives success under the wider, when these are finite, by the existence results of `PExist4.v` and `PExist5.v`. Without `same_kind` the statement is false (`PWideW.v`) |
| C144 | `SBlend.v`: `blended` (two dictionaries show best portfolios of the same problem, equally good, and every portfolio on the segment between the two is best as well), `blended_ratio` for max_sharpe. Two exact solvers may answer differently (C133); the answers come from the same problem with the same bounds in force, bounds, weight sum, return target and risk target are kept by averages, and variance, utility, semivariance, CVaR and CDaR are convex (`PCurve.v`, `PUnique.v`); for the Sharpe ratio the excess return is linear and the volatility convex (`PBlend.v`) |
| C145 | `SSlack.v`: `slack` (the portfolio reaches none of the bounds that differ between the two optimizers), `unbound` (both dictionaries show best portfolios; if the one under the narrower bounds has slack it is best under the wider bounds as well and the two are equally good), `unbound_ratio` for max_sharpe. From a portfolio with slack a small step towards any portfolio allowed by the wider bounds stays within the narrower ones; as the objectives are convex, a better portfolio further off would make such a step an improvement (`PSlack.v`, on top of C143 and C144) |
| C98 | `risk_models.py` 101-146 (`risk_matrix`), 438-463 (`ledoit_wolf`), `expected_returns.py` 81-108 (`return_model`) | composition of the estimator theorems with the returns of a price table |
| C99 | `risk_models.py` 465-571 | the vectorised sums rearranged into the published double sums; specification `SShrink.v` |
| C100-C101 | `hierarchical_portfolio.py` 53-75, 96-204 | the dendrogram tree is the inductive relation `gathered` (`SHRP2.v`); cluster contiguity by induction from the root; squareform as pair list |
| C09-C10 | `lp_portfolio` 255-340 | MILP oracle contract, elimination of the auxiliary variable; witness by computation; existence of a best answer by minimising over the finitely many affordable share vectors (`PMilp.v`) |
| C11-C12 | `get_latest_prices`, `__init__` | induction over rows; case analysis |
| C13-C17 | `base_optimizer.py` 36-122, 515-578 | list induction, rounding lemmas |
| C18-C19 | `_map_bounds_to_constraints`, `add_sector_constraints`, `cla.py` 71-84 | evaluation of the constraint AST |
| C20-C33, C41 | `base_optimizer.py` 125-512, `efficient_frontier.py` | cvxpy expression AST with evaluation, object/heap state machine, solver oracle |
| C40 | `base_optimizer.py` 189-201 (`MCopy.v`: objects with references to list objects) | simulation: programs on the heap give the same results as programs on independent values, as long as no two objects share a list; the solver's variables stay shared |
| C41 | `efficient_frontier.py` 70-148 (constructor, on labelled inputs in two orders) | a permutation maps best portfolios to best portfolios; both runs answer the same labelled problem (`c41_min_volatility` etc.), one succeeds iff the other does (`c41_*_both`), equal weights if the covariance is positive definite (`c41_same_*`); `pinv` must commute with the re-ordering for `c41_risk_both`, finite bounds for `c41_max_sharpe_both`; no uniqueness (hence no `same`) for efficient_risk, whose objective is linear |
| C25-C30 (existence) | as C25-C30 | `c25_found` ... `c30_found`: if a best portfolio exists and the solver is complete, it is found |
| C34-C39 | `efficient_semivariance.py`, `efficient_cvar.py`, `efficient_cdar.py` | elimination of auxiliary variables, tail-average specification |
| C42-C46, C79 | `hierarchical_portfolio.py` | loop = recursion, induction on list length; leaf order through the dendrogram tree |
| C47-C55, C89-C91 | `cla.py` (whole class except `set_weights`) | induction on the fill loop, exchange argument, list invariants; optimality conditions along the path of turning points by an invariant of the loop, termination because no pair of free set and bound pattern comes back; witnesses are rational runs of the same model carried over to the reals (`PCLAQ.v`) |
| C56-C65, C86, C87 | `black_litterman.py` | positive semidefinite systems are solvable on their range (induction over the dimension); completing the square; invariant for the caches; inversion of the constructor |
| C66-C69, C80-C82 | `expected_returns.py` | list induction, telescoping, Rpower; invariant of the pandas ewm loop |
| C70-C75, C83-C85 | `risk_models.py` | Gram matrices; Cholesky test = positive definiteness by Schur complements; rotation to the eigenbasis; Cauchy-Schwarz for the shrinkage targets |
| C76-C77, C88 | `objective_functions.py` | the objective expressions evaluated as functions of the weights; convexity of quadratic forms; deviations as a quadratic form |
| C78 | `plotting.py` 214-261, 355-366 | loop induction over arbitrary optimiser behaviour; frame lemmas of the EfficientFrontier model |

## 4. Oracle contracts

* cvxpy solver (`solver` in `MConvex.v`): a function from the problem (variable sizes, parameter
  values, objective, constraint list) to an answer: optimal with values for all variables, a
  non-optimal status with whatever values are left behind, a `SolverError`, or a `DCPError`.
  `exact_solver` (`SConvex.v`): an optimal answer is feasible and no feasible point has a smaller
  objective. Nothing is assumed about *when* it answers. Because it is a function, the same problem
  always gets the same answer (used by C21). `complete_solver` (only in the theorems named `_found`
  and in C35): it answers whenever an optimum exists. The refuted theorems use the concrete exact solver
  `best_solver` (`PEFW.v`) that picks an optimum by the epsilon axiom whenever one exists.
  Only C123 and C124 drop exactness: `accurate_solver t g` (`SNear.v`) meets every constraint up to `t`
  and is within `g` of the best value; `exact_solver` is the case `t = g = 0` (`c123_exact`).
* scipy `minimize` (`nonconvex_objective`): an arbitrary function returning a point and a success
  flag; `nlp_point_ok` (C33 given part) states that it meets the constraints it was passed.
* `np.linalg.pinv` in `efficient_risk`: arbitrary; `right_inverse` is the contract in C27.
* scipy `linkage` (`linkage_oracle` in `MHRP.v`): an arbitrary function of the distance table and the
  method. `linkage_valid` (C42, C44): its answer is a well-formed linkage matrix (`valid_linkage` in
  `SHRP.v`: n-1 rows, each merging two earlier, not yet merged clusters, with the right counts).
* `np.linalg.eigh` (`eigh_oracle` in `MRisk.v`): arbitrary; `eigen_of` (`SRisk.v`) states that its answer for
  the matrix at hand is an orthonormal eigendecomposition (C72). Not needed where no fix is applied.
* scikit-learn's `ledoit_wolf` and `oas`: arbitrary functions of the zero-filled returns; `psd_oracle`
  (C85) states that they return symmetric positive semidefinite arrays.
* `np.linalg.solve` and `lstsq` in `black_litterman.py` (`linalg` in `MBL.v`): `exact_linalg` (`SBL.v`): `solve`
  answers exactly for invertible matrices, `lstsq` minimises the squared residuals. `ex_contract` shows
  that such solvers exist. C63, C64, C65, C86, C87 need no contract.
* `np.linalg.inv` in `cla.py`: an arbitrary function in C47-C49, C51, C52, C54. `sound_inverse` (`SCLA.v`): what it
  returns for a square matrix is a right inverse (C50, C90, C91); `complete_inverse`: it answers whenever there is an
  inverse (C91 and the witnesses). `ex_contracts` shows that both can be met. The order of `list(set(..) - set(..))` is
  an arbitrary rearrangement (`set_order`).
* scikit-learn's `fast_mcd` (`mcd_oracle` in `MRisk2.v`): arbitrary; C104 assumes a symmetric (positive semidefinite) answer where it says so.
* MILP solver of `lp_portfolio`: `exact_milp` in `SAlloc.v`; `complete_milp` (only in `c09_found`, `c93_found`, C108): it answers
  whenever a program with at least one asset has a best answer. `ex_milp` shows a solver that meets both.

### What is modelled and what is not

* `discrete_allocation.py`: all of `get_latest_prices`, constructor, greedy, LP, the error report. Not: the printed text.
* `base_optimizer.py`: everything except solver options, `verbose`, docstring-only behaviour.
  Cvxpy is modelled as an expression syntax (`expr`, `con` in `MConvex.v`) with an evaluation
  function; DCP checking is not modelled (the solver oracle may answer DCPError at will).
* `efficient_frontier.py`: all public methods, on a world of variables, parameters and constraint
  identities, so that repeated calls on one object are expressible. Warnings are in `MWarn.v`.
* `efficient_semivariance.py`, `efficient_cvar.py`, `efficient_cdar.py`: constructors (a frame or
  array of optional numbers with NaN rows dropped), all public methods, `portfolio_performance`.
  Objects are described by `open_ef` / `*_ready`, which the constructor theorems establish; they
  may already carry any constraints and objectives added by the user. The
  `NotImplementedError` stubs of inherited methods are calls of `MCalls.v`. Not: verbose printing.
* `hierarchical_portfolio.py`: all of it. The covariance, correlation and distance computations are
  modelled on real numbers with NaN as `None` (`MFrame.v`); the bisection over any arithmetic.
  `sch.to_tree` / `pre_order` are modelled (`build_tree`, `leaves`). Not: that `sch.linkage` chooses
  the nearest clusters.
* `cla.py`: constructor with the three formats of bounds and the dtype of the bound arrays, first turning point, main
  loop, both purges, golden section, `max_sharpe`, `min_volatility`, `efficient_frontier`. Turning points over any
  arithmetic, the Sharpe ratio parts over the reals. The main loop has a fuel argument: theorems hold for any fuel;
  `c91_terminates` gives a bound. Not: bounds containing None, inverses containing inf or nan (the model stops with
  `FloatSpecial`), the tickers of a covariance DataFrame (`CLA` reads the labels of the returns only).
* `expected_returns.py`: all functions on DataFrames of numbers and NaN over the reals. `pct_change`,
  `dropna`, `cumprod`, `prod`, `count`, `mean`, `cov`, `join` and the loop behind `ewm().mean()` are
  modelled, as are the keyword arguments of `return_model` (`MKwargs.v`); arrays and Series in `MArray.v`.
  Not: other inputs; infinite numbers (the model stops with `FloatSpecial`); keyword values of a wrong type.
* `risk_models.py`: all estimators on DataFrames of numbers and NaN over the reals, including the exact
  Cholesky test with its 1e-16 shift, `np.fmin`, the zero filling of `CovarianceShrinkage` and Python's
  `max(0, min(1, x))` on infinite and NaN quotients. A covariance that would contain NaN stops the
  model (`FloatSpecial`). `min_cov_determinant` is in `MRisk2.v` (`fast_mcd` is an oracle), the keyword
  arguments of `risk_matrix` in `MKwargs.v`, arrays and Series in `MArray.v`. Not: other inputs, keyword values of a wrong type.
* `black_litterman.py`: both module functions and the whole class over the reals. Priors, views, P and
  omega are their values (as in the code, labels of a Series prior or a DataFrame P are ignored). Not:
  NaN in the inputs, `default_omega` / `idzorek_method` called directly by the user.
* `objective_functions.py`: all functions, as cvxpy expressions (`MEF.v`) and on plain arrays (`MBase.v`).
* `plotting.py`: the data of all plots (curves, markers, asset points, linkage and leaf names, matrix and tick labels, bars), the
  dispatch of `plot_efficient_frontier`, and the calls of `_plot_io`. Not: axes, colours, legends, `ax`.
* Warnings (`MWarn.v`): every `warnings.warn` of the package except those of black_litterman.py 173 (python 3.5) and
  expected_returns.py 36 (infinite returns). The functions and methods that warn are written down once more with a list of the
  warnings issued; `c121_same_*` prove that their results are those of the functions without. Not: texts, categories, filters.
* `exceptions.py`: the two exception types are the constructors `OptimizationError` and `InstantiationError` of `exn` (`Py.v`); their texts are not modelled.
* Weights after a solve are the solver's numbers rounded to 16 decimals plus 0.0, as in the code.

## 4a. Findings (claims where the code does not do what one would expect)

| theorem | finding |
|---------|---------|
| `c04_cleaned_weights_refuted`, `c04_binary64_refuted` | the "insufficient funds" assertion is reachable |
| `c06_*` | degenerate long/short inputs crash in greedy allocation |
| `c07_more_than_ten_assets_refuted` | greedy gives up on affordable under-weight assets |
| `c10_label_order_refuted` | LP allocation pairs weights and prices by position |
| `c15_off_grid_refuted` | clean_weights is not idempotent for cutoffs off the rounding grid |
| `c18_two_assets_refuted` | pair-of-arrays bounds are misread for two assets |
| `c18_missing_two_assets_refuted` | weight_bounds=(None, u) raises IndexError for exactly two assets |
| `c22_zero_return_refuted` | cached maximum return 0 is treated as missing |
| `c23_*` | a rejected call replaces the stored objective and blocks later valid calls |
| `c27_market_neutral_refuted` | efficient_risk(market_neutral) rejects reachable targets |
| `c28_market_neutral_refuted` | efficient_return(market_neutral) rejects reachable targets |
| `c31_*_refuted` | max_sharpe violates offset and non-homogeneous user constraints |
| `c33_nonconvex_refuted` | nonconvex_objective ignores added constraints |
| `c35_target_missed` | semivariance, market neutral: target 1%, reported semideviation 5% |
| `c37_reported_not_true` | after efficient_risk the reported CVaR is only an upper bound |
| `c67_log_returns_refuted` | compounding log returns understates the growth rate |
| `c80_*` | an asset without data gets expected return 0, without warning |
| `c81_*` | an asset called mkt is dropped by capm_return |
| `c82_renames_callers_table` | capm_return renames the caller's market column |
| `c112_array_market_refuted` | capm_return with dated prices and an array of market prices: every estimate is silently NaN |
| `c112_array_market_returns_refuted`, `c112_series_returns_refuted` | capm_return(returns_data=True): market arrays raise AttributeError, a Series must be called mkt |
| `c72_exactly_psd_refuted` | a matrix just below zero passes the check and is returned although not PSD |
| `c75_single_factor_variance_refuted` | the single factor estimator divides by T, sample_cov by T - 1 |
| `c120_sample_cov_refuted` | with missing returns the pairwise covariances need not be positive semidefinite; sample_cov then returns other variances than those of the data |
| `c121_plot_refuted` | plot_efficient_frontier leaves out every parameter for which the solver finds no portfolio, without a warning; the curve can be empty |
| `c122_recombined_refuted` | with the default omega, views on A and A+B lead to another posterior than the equivalent views on A and B |
| `c122_rescaled_refuted` | a view with confidence zero gets the uncertainty 1e6 whatever its units: rescaling the view changes the posterior |
| `c83_missing_understates` | semicovariance counts a missing return as no loss |
| `c84_two_assets` | constant-correlation shrinkage is the identity for two assets |
| `c92_verbose_lp_same_refuted` | lp_portfolio(verbose=True) raises KeyError where verbose=False returns an allocation |
| `c62_*` | bl_weights on a singular covariance matrix raises, or solves with the wrong matrix |
| `c59_covariance_refuted` | with full confidence in everything tau has no effect on the covariance |
| `c58_zero_confidence` | confidence 0 does not reproduce the prior exactly |
| `c86_market_array_refuses` | pi='market' never works with a covariance array |
| `c78_stale_point`, `c78_first_failure` | a rejected parameter repeats the previous point of the plot, or stops the plot |
| `c77_periods_times_variance` | ex_post_tracking_error is T times the documented variance |
| `c18_cla_two_assets_refuted` | CLA reads two arrays of bounds for two assets as two pairs |
| `c48_boundary` | CLA raises IndexError when the lower bounds sum to one, although a portfolio exists |
| `c49_after_failure_refuted` | after a failed CLA run min_volatility returns weights that sum to 0 |
| `c53_equal_returns`, `c53_wrong_answer` | equal expected returns: first call raises TypeError, the second returns a wrong portfolio |
| `c89_*` | integer lower bounds make CLA truncate all weights to integers |
| `c90_bound_points_dropped`, `c90_sharpe_suffers` | turning points where an asset reaches a bound are wrong and get dropped; max_sharpe is more than 5 percent off |
| `c91_tie_refuted` | with a tie at lambda 0 CLA misses the minimum variance (11 instead of 4) |
| `c79_optimize_single` | HRP with one asset raises ValueError |
| `c40_values_shared`, `c40_interference` | optimizing a deepcopy changes the CVaR that the original reports |
| `c41_mismatch` | the same labelled data in different orders give different portfolios without an error |
| `c30_short_refuted` | max_sharpe raises ValueError if no single asset beats the risk-free rate, although a long-short portfolio does |
| `c95_negative_semideviation_refuted` | EfficientSemivariance.efficient_risk(-t) does the same as efficient_risk(t) instead of raising |
| `c97_marker_refuted` | the "Max Sharpe Portfolio" marker of the CLA plot shows the weights of whatever was optimised before |
| `c97_second_plot` | the points argument of a second CLA plot is ignored |
| `c97_covariance_array_refuted` | plot_covariance(array) raises AttributeError unless show_tickers=False |
| `c103_saved_refuted` | plot_efficient_frontier(interactive=True, filename=...) saves nothing |
| `c103_assets_refuted` | plotting a semivariance, CVaR or CDaR optimizer draws all assets at risk 0 |
| `c103_default_refuted` | plotting such an optimizer without a range raises NotImplementedError |
| `c103_tail_refuted`, `c103_tail_error` | plotting a CVaR or CDaR frontier never works: ValueError at the first solved parameter |
| `c103_default_range` | the default range for ef_param="risk" or "utility" consists of returns |
| `c105_misspelt_refuted` | sample_cov, semicovariance and exp_cov swallow misspelt keyword arguments |
| `c106_unlimited_refuted` | with unlimited weights portfolios may exist but none that is best: the call fails whatever the solver |
| `c107_failed_call_refuted` | after a `max_sharpe` that raised (here: a constraint class it does not know) `portfolio_performance` ignores the rate it is given and uses that of the failed call |
| `c39_cdar_rejects_none` | EfficientCDaR(None, ...) always raises TypeError |
| `c123_sum_refuted` | the answer of the solver is rounded but never normalised: a solver of tolerance 1/1000 gives weights that sum to more than 1.0009 |
| `c125_any_shape_refuted` | without expected returns the constructor of EfficientFrontier accepts a covariance array of any shape; the first variance fails with a shape error |
| `c126_cost_refuted` | max_sharpe with a transaction cost abandons the previous weights although they cost nothing and have the best Sharpe ratio: the cost is charged on the weights divided by their excess return |
| `c128_hrp_refuted` | hierarchical risk parity depends on the order of the columns: two assets with equal variances and correlations trade places in the list, distances and linkage stay the same, and the weight of each changes (17 against 27 per cent), because the leaf order is cut in the middle regardless of the clusters |
| `c128_greedy_ties_refuted` | with equal weights the greedy allocation buys the ticker that is listed first |
| `c130_order_of_days_refuted` | CDaR depends on the order of the rows of the table of returns, and nothing sorts them: the same three days in another order buy the other asset |
| `c143_neutral_refuted` | A market neutral call with bounds (0, 1) silently uses (-1, 1), with the wider bounds (-1/10, 1) it uses just these: the target return 1/20 is reached with the narrower bounds and refused with the wider (efficient_frontier.py 163-183) |
| `c142_gaps_refuted` | An asset with missing days added to the table of returns removes those days for all assets (`dropna` of the whole table), so the least CVaR reported can become worse (efficient_frontier.py 147-153, efficient_cvar.py 88) |
| `c141_hrp_refuted` | Hierarchical risk parity counts an asset listed twice as two: two uncorrelated assets of equal variance get a half each, with the first listed twice the second gets a third. A limit of the method (bisection at the middle of the list, whatever the correlations), not an error (hierarchical_portfolio.py 123-139) |
| `c140_min_cdar_refuted` | The level of the daily returns matters to drawdowns: two assets and two days, and with ten taken off every return EfficientCDaR puts everything into the other asset, while EfficientSemivariance and EfficientCVaR (and market neutral EfficientCDaR) are indifferent to such a change. A limit of the measure (the cumulative sum starts from 0 and its running maximum is never below it), not an error (efficient_cdar.py 204-211) |
| `c138_return_neutral_refuted` | `efficient_return(market_neutral=True)` compares the target with the largest return of a fully invested portfolio, so that lowering all expected returns by the same amount, which changes no market neutral return, can turn an attainable target into a ValueError (efficient_frontier.py 396-402) |
| `c136_raised_refuted` | with an `omega` whose errors are correlated, raising the view on an asset can lower its posterior return; `omega` is accepted with any off-diagonal entries (black_litterman.py 291-330) |
| `c136_own_view_refuted` | with two views on correlated assets the posterior return of an asset can lie on the other side of its prior return than the view about it (black_litterman.py 390-413) |
| `c135_sample_refuted` | `sample_cov` of two assets with the same returns is accepted by `EfficientFrontier` and `min_volatility` then returns whatever vertex the solver prefers: two exact, complete solvers give different weights. With fewer days than assets every table is like that (`c135_sample_singular`), and nothing warns (risk_models.py 149-186, efficient_frontier.py 120-133) |
| `c134_market_neutral_bounds_refuted` | raising the lower bound of a market neutral portfolio from -1/2 to 0 *widens* the choice: bounds without a negative lower bound are replaced by (-1, 1), upper bound included, so the answer goes from (-1/2, 1/2) to (-1, 1) (efficient_frontier.py 163-184) |
| `c133_min_cvar_refuted` | nor has `min_cvar` for two assets with equal returns (efficient_cvar.py 116-139); adding L2 regularisation makes the answers unique (`c133_min_downside`) |
| `c133_efficient_risk_refuted` | `efficient_risk` has no unique answer even with a positive definite covariance matrix: for equal expected returns and a target that does not bind, two exact solvers return different portfolios (efficient_frontier.py 332-378) |
| `c132_negative_cvar_refuted` | EfficientCVaR.efficient_risk rejects negative targets although the CVaR of a portfolio that always gains is negative: a target that every portfolio meets is refused |
| `c132_reachable_refuted`, `c132_unreachable_refuted` | EfficientSemivariance.efficient_return compares the target with the largest absolute expected return: it rejects targets that a long-short portfolio exceeds, and lets targets through that nobody can reach because some asset has a large expected loss |
| `c131_ema_refuted`, `c131_exp_cov_refuted`, `c131_warning_refuted` | `ema_historical_return` and `exp_cov` weigh rows by position; a table sorted with the newest day first weighs the oldest day most, without any complaint. Whether `_check_returns` warns about a gap depends on the order too: a gap in the first rows is not reported |

## 5. Assumptions per theorem

From `Print Assumptions` beneath each theorem (all are axioms or primitives of the Coq standard library):

* **no axioms**
  `c11_latest_prices`, `c112_array_market_returns_refuted`, `c13_set_weights`, `c13_missing_ticker`, `c13_output_fed_back`, `c96_hrp`, `c40_copies_are_values`, `c40_original_untouched`, `c104_rows_exist`, `c39_cdar_rejects_none`, `c110_set_weights`, `c43_terminates`, `c43_any_arithmetic`, `c46_leaf_order`, `c125_hrp`, `c125_hrp_errors`, `c125_hrp_stored`, `c100_leaf_order`, `c100_clusters_together`, `c100_no_inputs`, `c100_methods`, `c78_points`, `c78_unknown_parameter`, `c97_covariance`, `c97_covariance_array_refuted`, `c102_not_callable`, `c82_renames_callers_table`, `c82_prices_kept`, `c121_plot`, `c121_same_plot`, `c121_capm`
* **`ClassicalDedekindReals.sig_forall_dec`**
  `c64_known`, `c96_efficient_frontier`, `c141_accepted`, `c141_semivariance_accepted`, `c130_semivariance_accepted`, `c142_accepted`, `c142_semi_accepted`, `c79_raw_single`, `c125_efficient_frontier`, `c125_efficient_frontier_errors`, `c140_semivariance_accepted`, `c134_bounds`, `c41_reordered_accepted`, `c41_labels_ignored`, `c18_missing_two_assets_refuted`, `c138_accepted`, `c129_accepted`, `c121_removed`, `c121_not_removed`, `c121_cov_of_array`, `c121_cov_of_frame`, `c143_semi_accepted`
* **`ClassicalDedekindReals.sig_forall_dec`; `FunctionalExtensionality.functional_extensionality_dep`**
  `c01_greedy_conserves_money`, `c02_greedy_whole_shares`, `c03_greedy_terminates`, `c04_no_assertion_failure`, `c04_greedy_succeeds`, `c04_cleaned_weights_refuted`, `c05_long_short_accounting`, `c06_empty_portfolio`, `c06_only_shorts`, `c06_zero_longs`, `c06_short_ratio_zero`, `c06_integer_prices`, `c07_stopping_rule`, `c07_more_than_ten_assets_refuted`, `c08_greedy_repeatable`, `c09_lp_allocation`, `c10_label_order_refuted`, `c12_constructor_accepts`, `c12_constructor_errors`, `c59_covariance_refuted`, `c64_picking`, `c64_unknown`, `c65_currency`, `c86_checks`, `c86_prior`, `c86_views`, `c86_omega`, `c86_market_array_refuses`, `c87_market_return`, `c87_prior`, `c87_price_scale`, `c87_frequency`, `c87_risk_aversion`, `c14_clean_weights`, `c14_error_bound`, `c14_errors`, `c15_clean_idempotent`, `c15_default_cutoff_on_grid`, `c15_off_grid_refuted`, `c17_save`, `c17_no_file_touched`, `c144_min_volatility`, `c144_quadratic_utility`, `c144_efficient_return`, `c144_min_cvar`, `c144_cvar_risk`, `c144_cvar_return`, `c144_min_cdar`, `c144_cdar_risk`, `c144_cdar_return`, `c18_cla_formats_agree`, `c18_cla_two_assets_refuted`, `c47_start`, `c49_kept_points`, `c50_stationary`, `c50_lambda_reaches_bound`, `c51_purge`, `c51_run`, `c52_least_turning_point`, `c90_bound_points_dropped`, `c91_terminates`, `c91_kept_points_optimal`, `c91_segments_optimal`, `c91_min_volatility`, `c89_integer_points`, `c96_cla`, `c96_cla_without_returns`, `c96_black_litterman`, `c141_min_volatility`, `c141_quadratic_utility`, `c141_efficient_return`, `c141_min_volatility_both`, `c141_quadratic_utility_both`, `c141_efficient_return_both`, `c141_hrp_refuted`, `c141_cvar_accepted`, `c141_cdar_accepted`, `c141_min_cvar`, `c141_min_cvar_both`, `c141_cvar_risk`, `c141_cvar_risk_both`, `c141_cvar_return`, `c141_cvar_return_both`, `c141_min_cdar`, `c141_min_cdar_both`, `c141_cdar_risk`, `c141_cdar_risk_both`, `c141_cdar_return`, `c141_cdar_return_both`, `c40_original_still_open`, `c70_portfolio_variance`, `c70_psd`, `c72_check`, `c72_unchanged`, `c72_spectral`, `c72_diag`, `c72_unknown`, `c72_exactly_psd_refuted`, `c83_missing_understates`, `c113_cvar_frontier`, `c113_min_cvar`, `c113_cdar_frontier`, `c113_min_cdar`, `c130_cvar_accepted`, `c130_cdar_accepted`, `c130_min_cvar_both`, `c130_cvar_risk_both`, `c130_cvar_return_both`, `c130_min_cdar_both`, `c130_cdar_risk_both`, `c130_cdar_return_both`, `c130_min_cvar`, `c130_cvar_risk`, `c130_cvar_return`, `c130_min_cdar`, `c130_cdar_risk`, `c130_cdar_return`, `c34_constructor`, `c36_constructor`, `c36_min_cvar`, `c36_efficient_return`, `c36_found`, `c37_efficient_risk`, `c37_found`, `c38_constructor`, `c38_min_cdar`, `c38_efficient_risk`, `c38_efficient_return`, `c38_found`, `c39_others_accept_none`, `c18_formats_agree`, `c18_two_assets_refuted`, `c19_sectors`, `c21_max_quadratic_utility`, `c21_efficient_return`, `c22_zero_return_stuck`, `c23_return_then_minvol`, `c25_min_volatility`, `c28_efficient_return`, `c28_too_high`, `c28_rejects_only_unreachable`, `c29_utility`, `c29_bad_aversion`, `c32_market_neutral`, `c33_convex_objective`, `c33_nonconvex_given`, `c33_nonconvex_ignores`, `c33_nonconvex_refuted`, `c139_largest`, `c139_min_cvar`, `c139_min_cvar_found`, `c139_cvar_risk`, `c139_cvar_risk_found`, `c139_cvar_return`, `c139_cvar_return_found`, `c139_min_cdar`, `c139_min_cdar_found`, `c139_cdar_risk`, `c139_cdar_risk_found`, `c139_cdar_return`, `c139_cdar_return_found`, `c132_min_volatility`, `c132_max_quadratic_utility`, `c132_efficient_return`, `c132_max_sharpe`, `c132_max_sharpe_constraints`, `c132_cvar`, `c132_cdar`, `c132_negative_cvar_refuted`, `c132_no_returns_tails`, `c106_expressions`, `c106_constraints`, `c106_unlimited_refuted`, `c25_found`, `c28_found`, `c29_found`, `c30_short_refuted`, `c119_capm_flat_market`, `c25_wrong_shape`, `c142_min_volatility`, `c142_quadratic_utility`, `c142_efficient_return`, `c142_min_cvar`, `c142_cvar_risk`, `c142_cvar_return`, `c142_cvar_accepted`, `c142_min_cdar`, `c142_cdar_risk`, `c142_cdar_return`, `c142_cdar_accepted`, `c42_raw_allocation`, `c43_recursive_bisection`, `c44_raw_inverse_variance`, `c45_raw_scale`, `c125_efficient_frontier_stored`, `c125_any_shape_refuted`, `c125_semivariance`, `c125_cvar`, `c125_cdar`, `c125_semivariance_stored`, `c125_cvar_stored`, `c125_cdar_stored`, `c125_cla`, `c125_cla_stored`, `c140_cvar_accepted`, `c140_min_cvar`, `c140_min_cvar_both`, `c140_cvar_risk`, `c140_cvar_risk_both`, `c140_cvar_return`, `c140_cvar_return_both`, `c140_cdar_accepted`, `c140_min_cdar_neutral`, `c140_min_cdar_neutral_both`, `c140_cdar_risk_neutral`, `c140_cdar_risk_neutral_both`, `c140_cdar_return_neutral`, `c140_cdar_return_neutral_both`, `c134_constraints`, `c134_sectors`, `c134_min_volatility`, `c134_utility`, `c134_efficient_return`, `c134_tails`, `c123_exact`, `c123_min_volatility`, `c123_efficient_return`, `c123_refusal`, `c123_utility`, `c123_convex_objective`, `c123_returned`, `c124_min_cvar`, `c124_cvar_efficient_return`, `c124_cvar_efficient_risk`, `c124_min_cdar`, `c124_cdar_efficient_return`, `c124_cdar_efficient_risk`, `c76_variance`, `c76_l2`, `c76_cost`, `c76_ex_ante`, `c76_ex_post`, `c76_utility`, `c76_signs`, `c76_values`, `c77_periods_times_variance`, `c77_constant_shift`, `c128_greedy`, `c128_greedy_rounded`, `c128_greedy_ties_refuted`, `c41_best_portfolios_reordered`, `c41_min_volatility_both`, `c41_utility_both`, `c41_return_both`, `c41_min_volatility`, `c41_utility`, `c41_return`, `c41_same_min_volatility`, `c41_same_utility`, `c41_same_return`, `c41_mismatch`, `c09_found`, `c93_found`, `c108_weights_to_shares`, `c18_missing_pairs`, `c18_missing_arrays`, `c18_missing_scalars`, `c21_name_clash_utility`, `c21_name_clash_return`, `c102_prepared`, `c102_min_volatility`, `c102_utility`, `c102_efficient_return`, `c31_other_constraints`, `c05_both_sides_follow_their_targets`, `c92_verbose_greedy_same`, `c92_verbose_lp_same`, `c92_verbose_lp_same_refuted`, `c93_lp_long_short`, `c94_bars_show_all_weights`, `c68_bounds`, `c68_weights`, `c68_missing_data`, `c118_hrp`, `c118_hrp_nonnegative_covariances`, `c118_greedy`, `c127_long_short`, `c127_clean_weights`, `c127_round_twice`, `c126_added`, `c126_added_found`, `c138_min_volatility_both`, `c138_utility_both`, `c138_return_both`, `c138_min_volatility`, `c138_utility`, `c138_return`, `c138_same_min_volatility`, `c138_same_utility`, `c138_same_return`, `c138_return_neutral_up`, `c138_return_neutral_refuted`, `c145_min_volatility`, `c145_quadratic_utility`, `c145_efficient_return`, `c145_min_cvar`, `c145_cvar_risk`, `c145_cvar_return`, `c145_min_cdar`, `c145_cdar_risk`, `c145_cdar_return`, `c114_terms`, `c114_cvar_level`, `c114_cdar_level`, `c136_own_view_refuted`, `c136_raised_refuted`, `c133_min_volatility`, `c133_utility`, `c133_efficient_return`, `c133_tails`, `c133_library_terms`, `c129_min_volatility_both`, `c129_utility_both`, `c129_return_both`, `c129_min_volatility`, `c129_utility`, `c129_return`, `c129_same_min_volatility`, `c129_same_utility`, `c129_same_return`, `c129_da_init`, `c129_greedy`, `c129_lp`, `c129_lp_exact`, `c129_lp_solvers`, `c137_accepted`, `c122_recombined_refuted`, `c121_untouched`, `c121_repair_works`, `c121_beta`, `c121_prior`, `c121_caps`, `c121_black_litterman`, `c115_long_only`, `c115_greedy_miss`, `c115_lp_miss`, `c115_long_short`, `c116_utility`, `c117_min_volatility`, `c143_min_volatility`, `c143_quadratic_utility`, `c143_efficient_return`, `c143_cvar_accepted`, `c143_min_cvar`, `c143_cvar_risk`, `c143_cvar_return`, `c143_cdar_accepted`, `c143_min_cdar`, `c143_cdar_risk`, `c143_cdar_return`
* **`ClassicalDedekindReals.sig_forall_dec`; `ClassicalDedekindReals.sig_not_dec`; `FunctionalExtensionality.functional_extensionality_dep`**
  `c61_equation`, `c62_dimensions`, `c63_caching`, `c86_inputs_constant`, `c16_dict_like_array`, `c16_values`, `c16_sharpe`, `c16_without_returns`, `c16_missing_weights`, `c144_efficient_risk`, `c144_max_sharpe`, `c144_min_semivariance`, `c144_semivariance_risk`, `c144_semivariance_return`, `c144_semivariance_utility`, `c54_frontier`, `c95_efficient_risk`, `c95_efficient_return`, `c95_max_quadratic_utility`, `c95_errors_keep_weights`, `c95_disabled`, `c95_frozen`, `c95_min_once`, `c95_covariance_unused`, `c95_negative_risk`, `c95_negative_return`, `c95_negative_semideviation_refuted`, `c96_kept`, `c96_kept_downside`, `c95_methods`, `c95_performance`, `c141_efficient_risk`, `c141_max_sharpe`, `c141_max_sharpe_both`, `c141_min_semivariance`, `c141_min_semivariance_both`, `c141_semivariance_risk`, `c141_semivariance_risk_both`, `c141_semivariance_return`, `c141_semivariance_utility`, `c141_semivariance_utility_both`, `c40_methods_grow`, `c40_values_shared`, `c40_interference`, `c73_round_trip`, `c73_range`, `c75_intensity`, `c113_frontier`, `c113_utility`, `c113_min_volatility`, `c113_max_sharpe`, `c113_semi_frontier`, `c113_min_semivariance`, `c113_semi_utility`, `c131_hrp`, `c130_min_semivariance_both`, `c130_semivariance_risk_both`, `c130_semivariance_return_both`, `c130_semivariance_utility_both`, `c130_min_semivariance`, `c130_semivariance_risk`, `c130_semivariance_return`, `c130_semivariance_utility`, `c135_one_answer`, `c34_min_semivariance`, `c34_efficient_risk`, `c34_efficient_return`, `c34_max_quadratic_utility`, `c34_performance`, `c34_found`, `c35_min_semivariance_neutral`, `c35_efficient_risk_neutral`, `c35_target_missed`, `c103_parameters`, `c103_parameters_downside`, `c20_frozen`, `c21_efficient_risk`, `c23_risk_then_minvol`, `c24_errors_keep_weights`, `c26_efficient_risk`, `c26_bad_target`, `c27_check_sound`, `c27_market_neutral_refuted`, `c30_max_sharpe`, `c132_efficient_risk`, `c132_semivariance`, `c132_reachable_refuted`, `c132_unreachable_refuted`, `c132_no_returns`, `c132_no_returns_semivariance`, `c26_found`, `c27_reachable_accepted`, `c27_rejected_unreachable`, `c30_found`, `c119_prices`, `c110_no_weights`, `c142_efficient_risk`, `c142_max_sharpe`, `c142_min_semivariance`, `c142_semivariance_risk`, `c142_semivariance_return`, `c142_semivariance_utility`, `c42_optimize_cov`, `c42_optimize_returns`, `c44_optimize_inverse_variance`, `c45_optimize_scale`, `c79_optimize_single`, `c140_min_semivariance`, `c140_min_semivariance_both`, `c140_semivariance_risk`, `c140_semivariance_risk_both`, `c140_semivariance_return`, `c140_semivariance_utility`, `c140_semivariance_utility_both`, `c134_efficient_risk`, `c134_max_sharpe`, `c134_min_downside`, `c134_semivariance`, `c98_unknown_target`, `c100_returns`, `c100_covariance`, `c101_returns`, `c101_covariance`, `c101_before`, `c101_inputs_kept`, `c100_unknown_method`, `c123_efficient_risk`, `c123_max_sharpe`, `c124_semivariance_slack`, `c124_min_semivariance`, `c124_semi_efficient_risk`, `c124_semi_efficient_return`, `c124_semi_utility`, `c78_stale_point`, `c78_stale_first_point`, `c78_first_failure`, `c78_skip`, `c78_default_range`, `c88_leverage`, `c88_horizon`, `c88_order`, `c128_hrp_refuted`, `c41_risk_both`, `c41_max_sharpe_both`, `c41_risk`, `c41_max_sharpe`, `c41_same_max_sharpe`, `c54_ends`, `c54_order`, `c97_frontier_assets`, `c97_dendrogram`, `c97_dendrogram_optimizes`, `c97_dendrogram_again`, `c97_correlation`, `c97_correlation_array`, `c21_name_clash_risk`, `c102_efficient_risk`, `c107_rate`, `c107_performance`, `c107_failed_call_refuted`, `c92_rmse_is_distance`, `c92_rmse_undefined`, `c92_rmse_zero_iff_exact`, `c92_greedy_rmse_bounded`, `c126_regularised`, `c126_regularised_found`, `c126_l2`, `c126_cost_refuted`, `c138_risk_both`, `c138_max_sharpe_both`, `c138_risk`, `c138_max_sharpe`, `c138_same_max_sharpe`, `c145_efficient_risk`, `c145_max_sharpe`, `c145_min_semivariance`, `c145_semivariance_risk`, `c145_semivariance_return`, `c145_semivariance_utility`, `c114_weight`, `c114_constraint`, `c114_aversion`, `c114_rate`, `c114_benchmark`, `c133_max_sharpe`, `c133_efficient_risk`, `c133_min_downside`, `c133_semivariance`, `c129_risk_both`, `c129_max_sharpe_both`, `c129_risk`, `c129_max_sharpe`, `c129_same_max_sharpe`, `c137_turning_points`, `c121_call`, `c121_downside_call`, `c121_calls`, `c121_downside_calls`, `c121_same_calls`, `c121_same_downside_calls`, `c121_rate`, `c121_rate_as_given`, `c121_dendrogram`, `c121_corr_of_array`, `c121_corr_of_frame`, `c116_sharpe`, `c143_efficient_risk`, `c143_max_sharpe`, `c143_min_semivariance`, `c143_semivariance_risk`, `c143_semivariance_return`, `c143_semivariance_utility`
* **`ClassicalDedekindReals.sig_forall_dec`; `Classical_Prop.classic`; `FunctionalExtensionality.functional_extensionality_dep`**
  `c58_idzorek_single`, `c58_zero_confidence`, `c59_returns`, `c59_zero_confidence`, `c59_covariance`, `c61_market`, `c62_wrong_weights`, `c136_part_way`, `c136_raised`, `c136_raised_matrix`, `c136_raised_dict`, `c122_recombined`, `c122_reordered`, `c122_rescaled`, `c122_dict_order`, `c122_dict_order_default`, `c122_repeated`, `c122_rescaled_refuted`, `c121_repair`
* **`ClassicalDedekindReals.sig_forall_dec`; `ClassicalDedekindReals.sig_not_dec`; `Classical_Prop.classic`; `FunctionalExtensionality.functional_extensionality_dep`**
  `c111_labels_mean`, `c111_labels_ema`, `c111_labels_capm`, `c111_labels_capm_market`, `c111_labels_sample_cov`, `c111_labels_semicovariance`, `c111_labels_exp_cov`, `c111_labels_min_cov_determinant`, `c111_arrays_returns`, `c111_arrays_matrices`, `c111_arrays_shrinkage`, `c112_arrays`, `c112_array_market_refuted`, `c112_no_common_date`, `c112_series_prices`, `c112_series_returns_refuted`, `c111_series_returns`, `c111_series_matrices`, `c112_series_market`, `c56_bayes_estimate`, `c56_formula`, `c57_views_equal_prior`, `c57_certain_views`, `c60_posterior_covariance`, `c61_sum`, `c61_risk_aversion`, `c63_performance`, `c48_boundary`, `c49_all_calls`, `c53_equal_returns`, `c55_bracket`, `c55_terminates`, `c91_max_sharpe_succeeds`, `c91_tie_refuted`, `c90_sharpe_suffers`, `c49_after_failure_refuted`, `c53_wrong_answer`, `c89_start_fails`, `c89_min_volatility`, `c89_misses_minimum`, `c70_sample_cov`, `c70_sample_cov_prices`, `c71_semicovariance`, `c71_exp_cov`, `c72_sample_cov_any_data`, `c74_shrunk`, `c74_ends`, `c75_constant_correlation`, `c75_single_factor`, `c75_single_factor_variance_refuted`, `c83_semicovariance_any_data`, `c84_two_assets`, `c85_risk_matrix`, `c85_unknown`, `c113_round_trips`, `c66_log_returns`, `c66_log_prices_roundtrip`, `c66_log_returns_roundtrip`, `c104_rows`, `c104_estimate`, `c104_repaired`, `c104_shape`, `c104_prices`, `c105_sample_cov`, `c105_semicovariance`, `c105_exp_cov`, `c105_shrinkage`, `c105_mean`, `c105_ema`, `c105_capm`, `c105_defaults`, `c105_return_defaults`, `c105_misspelt`, `c105_return_misspelt`, `c105_misspelt_refuted`, `c105_unknown_method`, `c105_unknown_return_method`, `c131_mean_historical`, `c131_mean_historical_complete`, `c131_capm`, `c131_capm_market`, `c131_sample_cov`, `c131_semicovariance`, `c131_shrinkage`, `c131_ema_refuted`, `c131_exp_cov_refuted`, `c131_warning_refuted`, `c130_order_of_days_refuted`, `c135_sample_singular`, `c135_shrunk`, `c135_constant_correlation`, `c135_single_factor`, `c135_shrunk_one_answer`, `c103_other`, `c103_engine`, `c103_engine_back`, `c103_saved`, `c103_saved_refuted`, `c103_names`, `c103_hidden`, `c103_assets`, `c103_cla_assets`, `c103_assets_refuted`, `c103_default_refuted`, `c103_tail_refuted`, `c103_tail_error`, `c103_curve`, `c103_curve_semi`, `c103_default_range`, `c103_cla_ignores`, `c103_cla_picture`, `c106_min_volatility`, `c106_utility`, `c106_efficient_risk`, `c106_efficient_return`, `c106_max_sharpe`, `c106_min_semivariance`, `c106_semi_efficient_risk`, `c106_semi_efficient_return`, `c106_semi_utility`, `c106_min_cvar`, `c106_cvar_efficient_risk`, `c106_cvar_efficient_return`, `c106_min_cdar`, `c106_cdar_efficient_risk`, `c106_cdar_efficient_return`, `c119_returns`, `c119_mean`, `c119_mean_compounded`, `c119_ema`, `c119_capm_market`, `c119_capm_default`, `c119_market_columns`, `c119_capm_market_prices`, `c120_sample_cov`, `c120_sample_cov_too_short`, `c120_sample_cov_refuted`, `c120_exp_cov`, `c120_missing_is_zero`, `c120_single_factor`, `c109_line_search`, `c109_best_segment`, `c109_well_posed`, `c109_all_portfolios`, `c110_performance`, `c110_weights_kept`, `c142_min_volatility_found`, `c142_quadratic_utility_found`, `c142_efficient_return_found`, `c142_max_sharpe_found`, `c142_min_semivariance_found`, `c142_semivariance_risk_found`, `c142_semivariance_utility_found`, `c142_min_cvar_found`, `c142_cvar_risk_found`, `c142_cvar_return_found`, `c142_min_cdar_found`, `c142_cdar_risk_found`, `c142_cdar_return_found`, `c140_min_cdar_refuted`, `c81_overwritten`, `c98_sample_cov`, `c98_semicovariance`, `c98_exp_cov`, `c98_ledoit_wolf`, `c98_oracle_approximating`, `c98_single_factor`, `c98_constant_correlation`, `c98_mean_return`, `c98_ema_return`, `c98_capm_return`, `c98_unknown_return`, `c99_constant_correlation`, `c99_single_factor`, `c128_returns`, `c128_covariances`, `c128_single_factor`, `c128_constant_correlation`, `c108_min_volatility`, `c108_max_sharpe`, `c97_curve`, `c97_marker`, `c97_marker_refuted`, `c97_keeps`, `c97_second_plot`, `c97_assets`, `c66_returns`, `c66_prices_roundtrip`, `c66_returns_roundtrip`, `c66_pseudo_prices_mean`, `c67_cagr`, `c67_arithmetic`, `c67_log_returns_refuted`, `c68_average`, `c68_compounded`, `c68_prices`, `c69_average_is_market`, `c69_prices`, `c80_no_data_is_zero`, `c80_no_warning`, `c80_arithmetic_is_nan`, `c81_never_mkt`, `c81_clash`, `c136_single`, `c136_nearer`, `c129_returns`, `c129_return_estimates`, `c129_risk_estimates`, `c137_calls`, `c137_min_volatility`, `c137_max_sharpe`, `c137_frontier`, `c137_performance`, `c121_same_functions`, `c121_sample_cov`, `c121_semicovariance`, `c121_exp_cov`, `c121_min_cov_determinant`, `c121_span`, `c121_estimators`, `c116_market`, `c116_bl_weights`, `c117_max_sharpe`, `c143_min_volatility_found`, `c143_quadratic_utility_found`, `c143_efficient_return_found`, `c143_efficient_risk_found`, `c143_max_sharpe_found`, `c143_min_semivariance_found`, `c143_semivariance_risk_found`, `c143_semivariance_utility_found`, `c143_min_cvar_found`, `c143_cvar_risk_found`, `c143_cvar_return_found`, `c143_min_cdar_found`, `c143_cdar_risk_found`, `c143_cdar_return_found`
* **`ClassicalDedekindReals.sig_forall_dec`; `ClassicalEpsilon.constructive_indefinite_description`; `Classical_Prop.classic`; `FunctionalExtensionality.functional_extensionality_dep`**
  `c37_reported_not_true`, `c22_zero_return_refuted`, `c28_market_neutral_refuted`, `c31_offset_refuted`, `c31_squares_refuted`, `c134_market_neutral_bounds_refuted`, `c123_sum_refuted`, `c133_min_cvar_refuted`, `c143_neutral_refuted`
* **`ClassicalDedekindReals.sig_forall_dec`; `ClassicalDedekindReals.sig_not_dec`; `ClassicalEpsilon.constructive_indefinite_description`; `Classical_Prop.classic`; `FunctionalExtensionality.functional_extensionality_dep`**
  `c135_sample_refuted`, `c142_gaps_refuted`, `c133_efficient_risk_refuted`, `c121_plot_refuted`
* **`abs`; `add`; `div`; `eqb`; `float`; `frshiftexp`; `leb`; `ltb`; `mul`; `normfr_mantissa`; `of_uint63`; `opp`; `sub`; primitive types and operations: PrimInt63.eqb, PrimInt63.int, PrimInt63.land, PrimInt63.lor, PrimInt63.lsl, PrimInt63.lsr, PrimInt63.sub**
  `c04_binary64_refuted`
