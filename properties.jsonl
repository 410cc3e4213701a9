{"id": "C01", "title": "Greedy allocation never loses or creates money", "statement": "For a long-only portfolio, whenever DiscreteAllocation.greedy_portfolio() returns (allocation, leftover), the value of the allocated shares at the given prices plus leftover is exactly total_portfolio_value, and leftover is non-negative.", "quantifier": "all weight dictionaries with non-negative weights, all price series, all positive portfolio values, and any number of second-round purchases", "why_tests_cant": "The second round buys one share at a time for a number of rounds that depends on the inputs; unit tests see a handful of price vectors only.", "anchors": ["pypfopt/discrete_allocation.py:DiscreteAllocation.greedy_portfolio"]}
{"id": "C02", "title": "Greedy allocation buys whole shares of known tickers only", "statement": "For a long-only portfolio every entry of the allocation is a strictly positive whole number of shares of a ticker that occurs in the weights, no ticker occurs twice, and each ticker gets at least the whole number of shares its own weight can pay for (floor(w*total/price)).", "quantifier": "all non-negative weight dictionaries, all positive prices, all portfolio values", "why_tests_cant": "Needs an invariant over every second-round purchase, including rounds where the deficit vector is undefined because nothing has been bought yet.", "anchors": ["pypfopt/discrete_allocation.py:DiscreteAllocation.greedy_portfolio", "pypfopt/discrete_allocation.py:DiscreteAllocation._remove_zero_positions"]}
{"id": "C03", "title": "Greedy allocation always terminates", "statement": "For positive prices, greedy_portfolio() on a long-only portfolio stops after finitely many second-round purchases, however large the portfolio value; it never loops forever.", "quantifier": "all non-empty long-only weight dictionaries, all positive prices, all portfolio values", "why_tests_cant": "Termination over unbounded portfolio values is not observable by a finite test.", "anchors": ["pypfopt/discrete_allocation.py:DiscreteAllocation.greedy_portfolio"]}
{"id": "C04", "title": "The insufficient-funds assertion", "statement": "With positive prices and non-negative weights summing to at most one, greedy_portfolio() never trips its 'Unexpectedly insufficient funds' assertion in exact arithmetic. The bound on the sum matters: weights that sum to slightly more than one, as clean_weights() can produce, can trip it; and in binary64 arithmetic it can trip even for a single weight of exactly 1.0.", "quantifier": "all weight dictionaries with non-negative entries summing to at most one, all positive prices and totals; existence of failing inputs outside that range", "why_tests_cant": "A universally quantified absence of an assertion failure; the failing binary64 inputs are needles in a haystack.", "anchors": ["pypfopt/discrete_allocation.py:DiscreteAllocation.greedy_portfolio", "pypfopt/base_optimizer.py:BaseOptimizer.clean_weights"]}
{"id": "C05", "title": "Greedy long/short accounting", "statement": "For a portfolio with short positions, whenever greedy_portfolio(reinvest) returns, longs are positive, shorts are negative, no ticker is in both, and value of longs + absolute value of shorts + leftover equals total*(1+short_ratio), or total*(1+2*short_ratio) with reinvest=True; leftover is non-negative.", "quantifier": "all weight dictionaries with at least one negative weight, all prices, totals, short ratios and both values of reinvest", "why_tests_cant": "Two nested sub-allocations with data dependent loops; tests fix one price snapshot.", "anchors": ["pypfopt/discrete_allocation.py:DiscreteAllocation.greedy_portfolio"]}
{"id": "C06", "title": "Greedy allocation on degenerate long/short input", "statement": "greedy_portfolio() does not handle every input its constructor accepts: a portfolio consisting only of shorts and an empty portfolio raise IndexError, short_ratio=0 together with a short position raises ValueError, longs that are all exactly zero raise ZeroDivisionError, and integer-typed prices raise TypeError as soon as any cash is left after the first round.", "quantifier": "all inputs of the named shapes", "why_tests_cant": "Error behaviour for whole families of inputs, none of which is in the test-suite.", "anchors": ["pypfopt/discrete_allocation.py:DiscreteAllocation.__init__", "pypfopt/discrete_allocation.py:DiscreteAllocation.greedy_portfolio"]}
{"id": "C07", "title": "What the greedy stopping rule guarantees", "statement": "With at most ten assets, when greedy_portfolio() stops with money left and has bought at least one share, every asset that is still under-weight costs more than the leftover. With more assets this fails: an affordable under-weight asset can be skipped because the search gives up after ten tries.", "quantifier": "all long-only inputs with at most ten assets; existence of an input with more assets", "why_tests_cant": "The cut-off at ten only matters for specific orders of deficits and prices.", "anchors": ["pypfopt/discrete_allocation.py:DiscreteAllocation.greedy_portfolio"]}
{"id": "C08", "title": "Greedy allocation is repeatable", "statement": "Calling greedy_portfolio() twice on the same DiscreteAllocation object returns the same allocation and leftover both times, although the first call re-orders the stored weights.", "quantifier": "all objects and arguments on which the first call returns", "why_tests_cant": "The method mutates its own input list; equality of repeated calls must hold for all states.", "anchors": ["pypfopt/discrete_allocation.py:DiscreteAllocation.greedy_portfolio"]}
{"id": "C09", "title": "LP allocation budget, integrality and optimality", "statement": "When the weights are listed in the same order as the price series and the integer solver is exact, lp_portfolio() on a long-only portfolio returns non-negative whole shares whose value plus leftover equals total_portfolio_value with leftover >= 0, and no other affordable whole-share allocation has a smaller sum of absolute dollar deviations plus leftover. The program always has a best answer: with positive prices and at least one asset, a solver that finds a best answer whenever there is one makes lp_portfolio() succeed.", "quantifier": "all long-only portfolios with aligned order, all solvers meeting the stated contract", "why_tests_cant": "Optimality quantifies over every competing allocation.", "anchors": ["pypfopt/discrete_allocation.py:DiscreteAllocation.lp_portfolio"]}
{"id": "C10", "title": "LP allocation depends on the order of labels", "statement": "lp_portfolio() pairs weights and prices by position, not by ticker: if the two orders differ, or if greedy_portfolio() was called before on the same object, an exact solver can lead to an allocation whose value exceeds total_portfolio_value while a positive leftover is reported.", "quantifier": "existence of an aligned object and call history, and of a mis-ordered input, for a solver meeting the contract", "why_tests_cant": "A history-dependent aliasing effect between two public methods; existing tests never mix them.", "anchors": ["pypfopt/discrete_allocation.py:DiscreteAllocation.lp_portfolio", "pypfopt/discrete_allocation.py:DiscreteAllocation.greedy_portfolio"]}
{"id": "C11", "title": "Latest prices are the last known prices", "statement": "get_latest_prices() returns for each asset its most recent non-missing price, missing exactly when the asset has no price at all, and raises IndexError on an empty frame.", "quantifier": "all price tables with missing entries in any positions", "why_tests_cant": "Quantifies over all patterns of missing data.", "anchors": ["pypfopt/discrete_allocation.py:get_latest_prices"]}
{"id": "C12", "title": "DiscreteAllocation input validation", "statement": "The constructor accepts exactly: a dictionary without NaN, a price series without NaN, a strictly positive total, and a missing or non-negative short ratio; each violation raises the documented error class, and on acceptance the default short ratio is the total absolute value of the negative weights.", "quantifier": "all constructor arguments", "why_tests_cant": "Precedence of errors over all combinations.", "anchors": ["pypfopt/discrete_allocation.py:DiscreteAllocation.__init__"]}
{"id": "C13", "title": "set_weights and the weights dictionary are inverse", "statement": "After set_weights(d) with a dictionary covering all tickers, the optimizer's weight dictionary has exactly the optimizer's tickers in order with d's values, whatever the order or extra keys of d; if a ticker is missing, KeyError is raised and the stored weights are unchanged.", "quantifier": "all ticker lists without duplicates, all dictionaries", "why_tests_cant": "Round trip for all dictionaries and orders.", "anchors": ["pypfopt/base_optimizer.py:BaseOptimizer.set_weights", "pypfopt/base_optimizer.py:BaseOptimizer._make_output_weights"]}
{"id": "C14", "title": "clean_weights meaning", "statement": "clean_weights(cutoff, rounding) keeps tickers and order, maps every weight with absolute value below cutoff to zero and every other weight to itself rounded half-to-even at the given number of decimals, never changes the stored weights, moves each weight by at most max(cutoff, half a unit of the last decimal), hence the total by at most n times that; it raises AttributeError without weights and ValueError for a rounding that is not a positive integer.", "quantifier": "all weight vectors, cutoffs and rounding arguments", "why_tests_cant": "Error bound over all weight vectors.", "anchors": ["pypfopt/base_optimizer.py:BaseOptimizer.clean_weights"]}
{"id": "C15", "title": "clean_weights idempotence", "statement": "Cleaning already cleaned weights with the same arguments changes nothing whenever the cutoff is itself a multiple of the rounding unit (in particular with the default arguments) or when rounding is disabled; for other cutoffs cleaning twice can differ from cleaning once.", "quantifier": "all weight vectors and all cutoffs on the rounding grid; existence of an off-grid counterexample", "why_tests_cant": "Idempotence is a for-all statement about a non-monotone composition (threshold after rounding).", "anchors": ["pypfopt/base_optimizer.py:BaseOptimizer.clean_weights"]}
{"id": "C16", "title": "portfolio_performance is consistent and label-driven", "statement": "The module level portfolio_performance() gives the same triple for an array of weights in the universe order and for any dictionary holding the same weights in any key order with any extra zero entries for unknown tickers; the Sharpe ratio equals (return - risk_free_rate)/volatility; missing weights raise ValueError, and a dictionary whose matched weights sum to zero raises ValueError although the equal array does not.", "quantifier": "all universes, weights, orders of dictionaries", "why_tests_cant": "Representation independence over all key orders.", "anchors": ["pypfopt/base_optimizer.py:portfolio_performance", "pypfopt/objective_functions.py:portfolio_return", "pypfopt/objective_functions.py:portfolio_variance", "pypfopt/objective_functions.py:sharpe_ratio"]}
{"id": "C17", "title": "save_weights_to_file", "statement": "save_weights_to_file() writes the cleaned weights for the extensions csv, json and txt (case-insensitive), and an unsupported extension or missing weights raises without touching any file; but a json save of tickers that are not JSON keys raises after the previous file content was already destroyed.", "quantifier": "all file names, file systems and weights", "why_tests_cant": "Crash behaviour of the file effect.", "anchors": ["pypfopt/base_optimizer.py:BaseOptimizer.save_weights_to_file"]}
{"id": "C18", "title": "Bounds formats agree, except for two assets", "statement": "For any number of assets other than two, giving weight_bounds as one (low, high) pair, as a list of per-asset pairs, or as a pair of arrays with the same content produces the same feasible set of weights; for two assets a pair of arrays is read as two per-asset pairs and a different feasible set results. A missing bound of a per-asset pair is no bound, in a pair of arrays or scalars it is -1 or 1; with two assets a missing scalar lower bound is rejected.", "quantifier": "all universes of size other than two and all numeric bounds; existence of a two asset counterexample", "why_tests_cant": "Format ambiguity appears only at one universe size.", "anchors": ["pypfopt/base_optimizer.py:BaseConvexOptimizer._map_bounds_to_constraints", "pypfopt/cla.py:CLA.__init__"]}
{"id": "C19", "title": "Sector constraints mean what they say", "statement": "After add_sector_constraints(mapper, lower, upper), a weight vector satisfies the added constraints exactly when for each sector in lower (upper) the sum of the weights of the tickers mapped to it is at least (at most) the given number; tickers without a sector are unconstrained; a negative-weight universe only triggers a warning.", "quantifier": "all universes, mappings, bounds and weight vectors", "why_tests_cant": "Equivalence over all weight vectors.", "anchors": ["pypfopt/base_optimizer.py:BaseConvexOptimizer.add_sector_constraints"]}
{"id": "C20", "title": "No objective or constraint can be added after solving", "statement": "Once any convex optimisation has been attempted on an object, add_objective, add_constraint and add_sector_constraints (with at least one sector) raise InstantiationError and leave the object's objectives, constraints and weights unchanged, whatever calls happened in between.", "quantifier": "all call sequences", "why_tests_cant": "Quantifies over all histories.", "anchors": ["pypfopt/base_optimizer.py:BaseConvexOptimizer.add_objective", "pypfopt/base_optimizer.py:BaseConvexOptimizer.add_constraint"]}
{"id": "C21", "title": "Re-optimising with a new parameter equals a fresh optimisation", "statement": "After any sequence of calls to the same parametrised method (efficient_risk, efficient_return or max_quadratic_utility) with varying targets and the same market_neutral flag, calling it with target t gives the same result as calling it with t on a fresh object with the same user constraints and objectives, provided the solver's answer depends only on the problem.", "quantifier": "all sequences of targets, all user constraints and objectives", "why_tests_cant": "History independence over unbounded call sequences.", "anchors": ["pypfopt/efficient_frontier/efficient_frontier.py:EfficientFrontier.efficient_risk", "pypfopt/efficient_frontier/efficient_frontier.py:EfficientFrontier.efficient_return", "pypfopt/efficient_frontier/efficient_frontier.py:EfficientFrontier.max_quadratic_utility", "pypfopt/base_optimizer.py:BaseConvexOptimizer.update_parameter_value"]}
{"id": "C22", "title": "Zero maximum return breaks re-optimisation", "statement": "If the largest achievable expected return is exactly zero, the first efficient_return() call succeeds but every later call on the same object raises InstantiationError, because the cached maximum is treated as missing.", "quantifier": "existence of inputs, for a solver meeting the contract", "why_tests_cant": "A falsy-zero cache only visible on a second call with a boundary value.", "anchors": ["pypfopt/efficient_frontier/efficient_frontier.py:EfficientFrontier.efficient_return", "pypfopt/efficient_frontier/efficient_frontier.py:EfficientFrontier._max_return"]}
{"id": "C23", "title": "Rejected calls are not atomic", "statement": "Calling a different objective on a solved object raises InstantiationError and keeps the weights, but it also replaces the stored objective, so that afterwards a parametrised re-optimisation that would have succeeded also raises.", "quantifier": "all objects solved with efficient_return or efficient_risk and then asked for min_volatility", "why_tests_cant": "Needs three-call histories.", "anchors": ["pypfopt/base_optimizer.py:BaseConvexOptimizer._solve_cvxpy_opt_problem", "pypfopt/efficient_frontier/efficient_frontier.py:EfficientFrontier.min_volatility"]}
{"id": "C24", "title": "A failed optimisation never changes the weights", "statement": "If any EfficientFrontier method raises, the optimizer's stored weights are exactly what they were before the call.", "quantifier": "all methods, arguments, object states and solver answers", "why_tests_cant": "For-all over failures.", "anchors": ["pypfopt/base_optimizer.py:BaseConvexOptimizer._solve_cvxpy_opt_problem", "pypfopt/efficient_frontier/efficient_frontier.py"]}
{"id": "C25", "title": "min_volatility returns the minimum variance portfolio", "statement": "If the solver is exact, min_volatility() returns (up to the documented rounding at 16 decimals) weights within the bounds, summing to one, satisfying every added constraint, and no other such weights have a smaller variance plus added objectives. A covariance matrix without one row and one column per asset is rejected with an error and leaves the optimizer as it was.", "quantifier": "all universes, bounds, user constraints and objectives, all exact solvers", "why_tests_cant": "Optimality against every competitor.", "anchors": ["pypfopt/efficient_frontier/efficient_frontier.py:EfficientFrontier.min_volatility"]}
{"id": "C26", "title": "efficient_risk respects the risk target and maximises return", "statement": "If the solver is exact, efficient_risk(s) returns (up to rounding) weights with volatility at most s, within bounds, summing to one (zero if market neutral), satisfying user constraints, with the largest return net of added objectives; negative or non-numeric targets raise ValueError without side effects on the weights.", "quantifier": "all universes, targets, constraints", "why_tests_cant": "Optimality and feasibility against every competitor.", "anchors": ["pypfopt/efficient_frontier/efficient_frontier.py:EfficientFrontier.efficient_risk"]}
{"id": "C27", "title": "The efficient_risk pre-check is sound for fully invested portfolios and too strict for market neutral ones", "statement": "efficient_risk(s) raises ValueError when s is below sqrt(1/sum(inverse covariance)); no fully invested portfolio has a smaller volatility, so no achievable target is rejected; with market_neutral=True achievable targets (the zero portfolio) are rejected.", "quantifier": "all positive definite covariance matrices and all weights summing to one; existence for market neutral", "why_tests_cant": "A global lower bound on variance over all portfolios.", "anchors": ["pypfopt/efficient_frontier/efficient_frontier.py:EfficientFrontier.efficient_risk"]}
{"id": "C28", "title": "efficient_return meets the target return with minimum variance", "statement": "If the solver is exact, efficient_return(r) returns (up to rounding) weights with expected return at least r, within bounds, fully invested (or summing to zero), satisfying user constraints, of minimum variance plus added objectives; a target above the largest achievable return raises ValueError.", "quantifier": "all universes, targets, constraints, exact solvers", "why_tests_cant": "Optimality against every competitor.", "anchors": ["pypfopt/efficient_frontier/efficient_frontier.py:EfficientFrontier.efficient_return"]}
{"id": "C29", "title": "max_quadratic_utility maximises quadratic utility", "statement": "If the solver is exact, max_quadratic_utility(d) returns (up to rounding) feasible weights maximising return - d/2*variance minus added objectives; d <= 0 raises ValueError.", "quantifier": "all universes, risk aversions, constraints", "why_tests_cant": "Optimality against every competitor.", "anchors": ["pypfopt/efficient_frontier/efficient_frontier.py:EfficientFrontier.max_quadratic_utility"]}
{"id": "C30", "title": "max_sharpe really maximises the Sharpe ratio", "statement": "If the solver is exact, bounds are finite and every user constraint is linear with the constant on one side, max_sharpe(rf) returns (up to rounding) fully invested weights that satisfy the bounds and constraints and have the largest Sharpe ratio among all such weights whose return exceeds rf.", "quantifier": "all universes, risk-free rates, homogeneous linear constraints", "why_tests_cant": "The method solves a transformed problem; equivalence holds for all inputs or not at all.", "anchors": ["pypfopt/efficient_frontier/efficient_frontier.py:EfficientFrontier.max_sharpe"]}
{"id": "C31", "title": "max_sharpe mis-transforms constraints with an offset", "statement": "If a user constraint carries its constant on the same side as the variables (for example w[0] - 0.1 <= 0.2) or is not homogeneous (for example sum of squares <= c), max_sharpe() can return weights that violate it even with an exact solver. Constraints of classes other than equality and inequality are not transformed at all: max_sharpe() raises a TypeError and leaves weights, constraints and problem as they were.", "quantifier": "existence of a universe, a constraint and an exact solver answer", "why_tests_cant": "The failure needs a particular syntactic form of a constraint.", "anchors": ["pypfopt/efficient_frontier/efficient_frontier.py:EfficientFrontier.max_sharpe"]}
{"id": "C32", "title": "Market neutral set-up", "statement": "With market_neutral=True and no negative lower bound, the bounds become [-1,1] for every asset, all user constraints are kept and the weights sum to zero; with an existing negative lower bound the given bounds are kept.", "quantifier": "all bounds and user constraint lists", "why_tests_cant": "Index based deletion of constraints must hit exactly the right ones for all histories.", "anchors": ["pypfopt/efficient_frontier/efficient_frontier.py:EfficientFrontier._make_weight_sum_constraint"]}
{"id": "C33", "title": "convex_objective and nonconvex_objective", "statement": "convex_objective returns an optimum of the custom objective subject to all constraints; nonconvex_objective only passes the bounds, the sum constraint and its own constraints to the solver: constraints added with add_constraint are ignored and the solver's success flag is not checked.", "quantifier": "all objectives and constraints; existence of violating answers", "why_tests_cant": "Negative statement about ignored state.", "anchors": ["pypfopt/base_optimizer.py:BaseConvexOptimizer.convex_objective", "pypfopt/base_optimizer.py:BaseConvexOptimizer.nonconvex_objective"]}
{"id": "C34", "title": "Semivariance optimisation is exact", "statement": "If the solver is exact, EfficientSemivariance.min_semivariance returns the fully invested feasible portfolio with the least semivariance relative to the benchmark, efficient_risk(s) keeps the reported semideviation at or below s, and portfolio_performance reports exactly that semideviation.", "quantifier": "all return histories, benchmarks, constraints, exact solvers", "why_tests_cant": "Equivalence of the split-variable program with the definition for all histories.", "anchors": ["pypfopt/efficient_frontier/efficient_semivariance.py"]}
{"id": "C35", "title": "Semivariance with market_neutral ignores the benchmark", "statement": "With market_neutral=True and a non-zero benchmark, the risk that is optimised and constrained differs from the one portfolio_performance reports: efficient_risk(s) can return a portfolio with reported semideviation above s.", "quantifier": "existence, exact solver", "why_tests_cant": "Only visible for the combination of two options.", "anchors": ["pypfopt/efficient_frontier/efficient_semivariance.py:EfficientSemivariance.efficient_risk", "pypfopt/efficient_frontier/efficient_semivariance.py:EfficientSemivariance.portfolio_performance"]}
{"id": "C36", "title": "CVaR optimisation is exact", "statement": "If the solver is exact, EfficientCVaR.min_cvar returns the feasible portfolio minimising the conditional value at risk, defined as the mean of the worst (1-beta) share of losses, and portfolio_performance then reports exactly that number.", "quantifier": "all return histories, beta in [0,1), constraints", "why_tests_cant": "Equality of a linear program with a tail average for all histories.", "anchors": ["pypfopt/efficient_frontier/efficient_cvar.py"]}
{"id": "C37", "title": "Reported CVaR after efficient_risk", "statement": "After EfficientCVaR.efficient_risk(t) with an exact solver the true CVaR of the weights is at most the reported CVaR, which is at most t; the reported value need not be the true one.", "quantifier": "all return histories, targets; existence for the strict case", "why_tests_cant": "Slack in auxiliary variables depends on the solver's choice among optimal answers.", "anchors": ["pypfopt/efficient_frontier/efficient_cvar.py:EfficientCVaR.efficient_risk", "pypfopt/efficient_frontier/efficient_cvar.py:EfficientCVaR.portfolio_performance"]}
{"id": "C38", "title": "CDaR optimisation is exact", "statement": "If the solver is exact, EfficientCDaR.min_cdar returns the feasible portfolio minimising conditional drawdown at risk, i.e. the mean of the worst (1-beta) share of drawdowns of the uncompounded cumulative return measured from its running maximum (starting at zero); efficient_risk(t) keeps the true CDaR at or below t.", "quantifier": "all return histories, beta in [0,1), constraints", "why_tests_cant": "Inductive statement over time.", "anchors": ["pypfopt/efficient_frontier/efficient_cdar.py"]}
{"id": "C39", "title": "EfficientCDaR does not accept missing expected returns", "statement": "EfficientCDaR documents that expected_returns can be None when only CDaR is optimised, but its constructor raises TypeError for every such call, while EfficientCVaR and EfficientSemivariance accept None.", "quantifier": "all constructor calls with expected_returns=None", "why_tests_cant": "Contradiction between documentation and code for all inputs.", "anchors": ["pypfopt/efficient_frontier/efficient_cdar.py:EfficientCDaR.__init__", "pypfopt/efficient_frontier/efficient_cvar.py:EfficientCVaR.__init__", "pypfopt/efficient_frontier/efficient_semivariance.py:EfficientSemivariance.__init__"]}
{"id": "C40", "title": "deepcopy shares solver variables", "statement": "Constraints added to a deepcopy() never affect the original; but variable values are shared, so optimising the copy changes the CVaR the original reports.", "quantifier": "all call sequences; existence of an interference", "why_tests_cant": "Aliasing across two objects.", "anchors": ["pypfopt/base_optimizer.py:BaseConvexOptimizer.deepcopy", "pypfopt/efficient_frontier/efficient_cvar.py:EfficientCVaR.portfolio_performance"]}
{"id": "C41", "title": "Inputs are matched by position, not by label", "statement": "EfficientFrontier results are equivariant under a simultaneous re-ordering of expected returns and covariance, but expected returns and covariance that carry the same labels in different orders are combined by position without any error.", "quantifier": "all permutations; existence of a mismatch", "why_tests_cant": "For-all permutations.", "anchors": ["pypfopt/efficient_frontier/efficient_frontier.py:EfficientFrontier.__init__", "pypfopt/efficient_frontier/efficient_frontier.py:EfficientFrontier._validate_expected_returns", "pypfopt/efficient_frontier/efficient_frontier.py:EfficientFrontier._validate_cov_matrix"]}
{"id": "C42", "title": "HRP weights form a fully invested long-only portfolio", "statement": "If the covariance matrix has positive diagonal and every sub-portfolio has positive variance, the hierarchical risk parity weights are strictly between 0 and 1 (or 1 for one asset), sum to one, and are defined for exactly the tickers of the universe, whatever the clustering order.", "quantifier": "all covariance matrices, all leaf orders, all universe sizes", "why_tests_cant": "Invariant over a data-dependent bisection loop.", "anchors": ["pypfopt/hierarchical_portfolio.py:HRPOpt._raw_hrp_allocation", "pypfopt/hierarchical_portfolio.py:HRPOpt.optimize"]}
{"id": "C43", "title": "HRP bisection loop equals top-down recursion and terminates", "statement": "The level-by-level loop of HRP terminates for every list of tickers and gives each asset the product of the split factors along the recursive bisection of the ordered list.", "quantifier": "all ordered ticker lists and covariances", "why_tests_cant": "Loop/recursion equivalence for all lengths.", "anchors": ["pypfopt/hierarchical_portfolio.py:HRPOpt._raw_hrp_allocation"]}
{"id": "C44", "title": "HRP on uncorrelated assets is inverse variance", "statement": "For a diagonal covariance matrix with positive variances the HRP weights are exactly the inverse-variance weights, independent of the clustering.", "quantifier": "all diagonal covariance matrices, all orders", "why_tests_cant": "Closed form for all sizes.", "anchors": ["pypfopt/hierarchical_portfolio.py:HRPOpt._raw_hrp_allocation", "pypfopt/hierarchical_portfolio.py:HRPOpt._get_cluster_var"]}
{"id": "C45", "title": "HRP is invariant to the scale of the covariance matrix", "statement": "Multiplying the covariance matrix by any positive constant (for example annualising) does not change the HRP weights for a given leaf order.", "quantifier": "all covariance matrices, positive constants", "why_tests_cant": "For-all scaling.", "anchors": ["pypfopt/hierarchical_portfolio.py:HRPOpt._raw_hrp_allocation"]}
{"id": "C46", "title": "Leaf order is a permutation of the assets", "statement": "For any valid linkage matrix, the leaf order used by HRP lists every asset exactly once.", "quantifier": "all valid linkage matrices of any size", "why_tests_cant": "Structural induction over trees.", "anchors": ["pypfopt/hierarchical_portfolio.py:HRPOpt._get_quasi_diag"]}
{"id": "C47", "title": "CLA starts at the maximum return portfolio", "statement": "If lower bounds are below upper bounds, sum to less than one, and upper bounds sum to at least one, CLA's first turning point is feasible, fully invested, has exactly one free asset and no feasible portfolio has a larger expected return.", "quantifier": "all expected returns, all such bounds, all sizes", "why_tests_cant": "Greedy optimality against every competitor.", "anchors": ["pypfopt/cla.py:CLA._init_algo"]}
{"id": "C48", "title": "CLA crashes on boundary-feasible bounds", "statement": "If the lower bounds sum to exactly one (a single feasible portfolio) or more, or if the upper bounds sum to less than one, CLA's optimisation raises IndexError.", "quantifier": "all bounds of these shapes", "why_tests_cant": "For-all over degenerate bounds.", "anchors": ["pypfopt/cla.py:CLA._init_algo"]}
{"id": "C49", "title": "Every portfolio returned by CLA is feasible", "statement": "Whatever the linear algebra produces, every turning point kept by CLA and every portfolio returned by min_volatility(), max_sharpe() and efficient_frontier() satisfies the bounds and sums to one up to the code's tolerance.", "quantifier": "all inputs and all numerical behaviour of the inverse, all executions", "why_tests_cant": "Independent of numerical path.", "anchors": ["pypfopt/cla.py:CLA._purge_num_err", "pypfopt/cla.py:CLA._purge_excess", "pypfopt/cla.py:CLA.max_sharpe", "pypfopt/cla.py:CLA.min_volatility", "pypfopt/cla.py:CLA.efficient_frontier"]}
{"id": "C50", "title": "CLA turning points satisfy the optimality conditions", "statement": "With exact inverses, the weights CLA computes for a given set of free assets sum to one together with the fixed ones, satisfy the stationarity equations for the free assets at the current lambda, and at the lambda computed for an asset this asset's weight equals the stated bound.", "quantifier": "all covariance matrices, expected returns, free sets", "why_tests_cant": "Algebraic identity for all sizes.", "anchors": ["pypfopt/cla.py:CLA._compute_w", "pypfopt/cla.py:CLA._compute_lambda"]}
{"id": "C51", "title": "CLA purge keeps returns sorted", "statement": "After clean-up, the expected returns of all turning points after the first are non-increasing, the removed points are only ones dominated in return by a later point, and order is preserved.", "quantifier": "all lists of turning points", "why_tests_cant": "Loop with in-place deletions.", "anchors": ["pypfopt/cla.py:CLA._purge_excess"]}
{"id": "C52", "title": "CLA min_volatility picks the least variance turning point", "statement": "min_volatility() returns weights whose variance is not larger than the variance of any kept turning point.", "quantifier": "all executions", "why_tests_cant": "For-all executions.", "anchors": ["pypfopt/cla.py:CLA.min_volatility"]}
{"id": "C53", "title": "A failed CLA run leaves a poisoned object", "statement": "If the first optimisation on a CLA object raises (for example when all expected returns are equal), calling min_volatility() again on the same object returns the maximum-return starting portfolio as if it were the minimum volatility portfolio.", "quantifier": "existence of inputs (exact arithmetic)", "why_tests_cant": "Needs a failing call followed by another.", "anchors": ["pypfopt/cla.py:CLA._solve", "pypfopt/cla.py:CLA.min_volatility"]}
{"id": "C54", "title": "Number and position of CLA frontier points", "statement": "efficient_frontier(points) returns three lists of equal length (m-1)*(k-1)+1 with k = points div m for m turning points when k >= 1 and m >= 2, and empty lists when points < m; every returned portfolio lies on a segment between consecutive turning points.", "quantifier": "all numbers of points and turning points", "why_tests_cant": "Counting for all sizes.", "anchors": ["pypfopt/cla.py:CLA.efficient_frontier"]}
{"id": "C55", "title": "Golden section stays in the bracket", "statement": "CLA's golden section search returns a mixing factor in [0,1] and the objective value at exactly that factor, for any objective function.", "quantifier": "all objective functions", "why_tests_cant": "Numerical drift of an inexact golden ratio.", "anchors": ["pypfopt/cla.py:CLA._golden_section", "pypfopt/cla.py:CLA.max_sharpe"]}
{"id": "C56", "title": "Black-Litterman posterior returns are the Bayesian estimate", "statement": "With exact linear algebra, bl_returns() is the unique minimiser of the precision-weighted distance to the prior and to the views, and equals the documented closed formula.", "quantifier": "all sizes, priors, views, positive definite covariance and uncertainty matrices", "why_tests_cant": "Matrix identity for all sizes.", "anchors": ["pypfopt/black_litterman.py:BlackLittermanModel.bl_returns"]}
{"id": "C57", "title": "Views equal to the prior change nothing; certain views are met exactly", "statement": "If every view agrees with the prior, bl_returns() is the prior; if the uncertainty matrix is zero, the posterior satisfies every view exactly.", "quantifier": "all sizes and inputs", "why_tests_cant": "For-all identity.", "anchors": ["pypfopt/black_litterman.py:BlackLittermanModel.bl_returns"]}
{"id": "C58", "title": "Idzorek confidences interpolate", "statement": "With a single view and omega='idzorek' with confidence c in (0,1], the posterior view portfolio return is exactly (1-c)*prior + c*view; confidence 0 does not exactly reproduce the prior.", "quantifier": "all universes, views, confidences, taus", "why_tests_cant": "For-all identity plus a boundary exception.", "anchors": ["pypfopt/black_litterman.py:BlackLittermanModel.idzorek_method", "pypfopt/black_litterman.py:BlackLittermanModel.bl_returns"]}
{"id": "C59", "title": "tau does not matter for default omega", "statement": "With the default omega, or Idzorek's method with strictly positive confidences, posterior returns do not depend on tau; with a zero confidence they do; posterior covariance always does.", "quantifier": "all taus, sizes, inputs", "why_tests_cant": "Documented claim quantified over all tau.", "anchors": ["pypfopt/black_litterman.py:BlackLittermanModel.default_omega", "pypfopt/black_litterman.py:BlackLittermanModel.idzorek_method", "pypfopt/black_litterman.py:BlackLittermanModel.bl_returns"]}
{"id": "C60", "title": "Black-Litterman posterior covariance is between Sigma and (1+tau)Sigma", "statement": "With exact linear algebra bl_cov() is symmetric, and for every portfolio its variance under bl_cov() lies between its variance under Sigma and (1+tau) times that.", "quantifier": "all sizes, inputs, portfolios", "why_tests_cant": "Loewner order over all portfolios.", "anchors": ["pypfopt/black_litterman.py:BlackLittermanModel.bl_cov"]}
{"id": "C61", "title": "bl_weights sums to one and ignores risk aversion; market portfolio is a fixed point", "statement": "bl_weights() returns weights summing to one that do not depend on the (positive) risk aversion; with market-implied prior (risk-free rate 0) and views agreeing with it, the weights are the market-cap weights.", "quantifier": "all inputs", "why_tests_cant": "Identity for all sizes.", "anchors": ["pypfopt/black_litterman.py:BlackLittermanModel.bl_weights", "pypfopt/black_litterman.py:market_implied_prior_returns"]}
{"id": "C62", "title": "bl_weights on a singular covariance matrix", "statement": "When the covariance matrix is singular bl_weights() falls back to least squares on the wrong matrix: it raises whenever the number of views differs from the number of assets, and otherwise returns weights that do not satisfy the documented equation.", "quantifier": "all singular inputs with different dimensions; existence otherwise", "why_tests_cant": "Fallback branch is never exercised by tests.", "anchors": ["pypfopt/black_litterman.py:BlackLittermanModel.bl_weights"]}
{"id": "C63", "title": "Black-Litterman caching is transparent", "statement": "The results of bl_returns(), bl_cov() and bl_weights() on an object do not depend on which of them were called before, in which order or how often. After bl_weights(), portfolio_performance() reports the expected return of these weights under bl_returns(), their volatility under bl_cov() and the Sharpe ratio made of the two.", "quantifier": "all call sequences", "why_tests_cant": "Histories of unbounded length.", "anchors": ["pypfopt/black_litterman.py:BlackLittermanModel.bl_returns", "pypfopt/black_litterman.py:BlackLittermanModel.bl_cov", "pypfopt/black_litterman.py:BlackLittermanModel.bl_weights", "pypfopt/black_litterman.py:BlackLittermanModel.portfolio_performance"]}
{"id": "C64", "title": "Absolute views become picking rows", "statement": "For an absolute view dictionary, the i-th row of the picking matrix applied to any return vector gives the return of the i-th named asset, and an unknown ticker raises ValueError.", "quantifier": "all view dictionaries and universes", "why_tests_cant": "For-all vectors.", "anchors": ["pypfopt/black_litterman.py:BlackLittermanModel._parse_views"]}
{"id": "C65", "title": "Market-implied prior is independent of the currency of market caps", "statement": "Multiplying all market caps by the same positive number leaves market_implied_prior_returns() unchanged.", "quantifier": "all caps and covariances", "why_tests_cant": "For-all scaling.", "anchors": ["pypfopt/black_litterman.py:market_implied_prior_returns"]}
{"id": "C66", "title": "Prices and returns are inverse up to the first row", "statement": "For price tables without missing data, prices_from_returns(returns_from_prices(P)) is P without its first row divided by its second row, and returns_from_prices(prices_from_returns(R)) is R without its first row; so the pseudo-prices lose the first return and mean_historical_return changes.", "quantifier": "all positive price tables and return tables", "why_tests_cant": "Round trip over all histories.", "anchors": ["pypfopt/expected_returns.py:returns_from_prices", "pypfopt/expected_returns.py:prices_from_returns"]}
{"id": "C67", "title": "Compounded mean historical return is the CAGR", "statement": "For complete prices, mean_historical_return(prices, compounding=True) equals (last/first)^(frequency/number of returns) - 1, so only the first and last price matter; with log_returns=True this is false.", "quantifier": "all positive price histories", "why_tests_cant": "Telescoping product for all lengths.", "anchors": ["pypfopt/expected_returns.py:mean_historical_return"]}
{"id": "C68", "title": "EMA return is a weighted average", "statement": "The exponential average used by ema_historical_return lies between the smallest and largest observed return, is exact for constant returns, and gives later returns a larger weight.", "quantifier": "all return series and spans", "why_tests_cant": "For-all series.", "anchors": ["pypfopt/expected_returns.py:ema_historical_return"]}
{"id": "C69", "title": "CAPM with the default market reproduces the market", "statement": "When no market series is given, the average over assets of capm_return equals the market mean return (average beta one).", "quantifier": "all complete return tables with non-constant market", "why_tests_cant": "Identity for all tables.", "anchors": ["pypfopt/expected_returns.py:capm_return"]}
{"id": "C70", "title": "Sample covariance is the variance of portfolios", "statement": "For complete data, w' sample_cov w equals frequency times the sample variance of the portfolio return series, for every w; hence the matrix is positive semidefinite, symmetric and returned unmodified.", "quantifier": "all return tables, all portfolios", "why_tests_cant": "For-all portfolios.", "anchors": ["pypfopt/risk_models.py:sample_cov", "pypfopt/risk_models.py:fix_nonpositive_semidefinite"]}
{"id": "C71", "title": "Semicovariance and exponential covariance are positive semidefinite", "statement": "For complete data, semicovariance and exp_cov are symmetric positive semidefinite before any fix, so no fix is applied.", "quantifier": "all return tables, benchmarks, spans", "why_tests_cant": "For-all quadratic forms.", "anchors": ["pypfopt/risk_models.py:semicovariance", "pypfopt/risk_models.py:exp_cov"]}
{"id": "C72", "title": "fix_nonpositive_semidefinite returns a PSD matrix", "statement": "Given an exact eigendecomposition, both the 'spectral' and the 'diag' fix return a symmetric positive semidefinite matrix; a matrix that already passes the check is returned unchanged; 'spectral' returns the nearest PSD matrix in Frobenius norm; an unknown fix_method raises only if a fix is needed.", "quantifier": "all symmetric matrices", "why_tests_cant": "Spectral statement for all matrices.", "anchors": ["pypfopt/risk_models.py:fix_nonpositive_semidefinite", "pypfopt/risk_models.py:_is_positive_semidefinite"]}
{"id": "C73", "title": "Correlation and covariance conversions are inverse", "statement": "For a covariance matrix with positive diagonal, corr_to_cov(cov_to_corr(S), standard deviations) is S; correlations have unit diagonal and, for positive semidefinite S, lie in [-1,1].", "quantifier": "all such matrices", "why_tests_cant": "Round trip for all matrices.", "anchors": ["pypfopt/risk_models.py:cov_to_corr", "pypfopt/risk_models.py:corr_to_cov"]}
{"id": "C74", "title": "Shrinkage keeps the trace and positive semidefiniteness", "statement": "shrunk_covariance(delta) with delta in [0,1] keeps the trace of the sample covariance and its positive semidefiniteness, is the sample covariance for delta 0 and a multiple of the identity for delta 1.", "quantifier": "all return tables, deltas", "why_tests_cant": "For-all matrices.", "anchors": ["pypfopt/risk_models.py:CovarianceShrinkage.shrunk_covariance"]}
{"id": "C75", "title": "Ledoit-Wolf targets keep variances", "statement": "The constant-correlation and single-factor shrinkage estimators are symmetric, use a shrinkage intensity in [0,1] for every input, and leave every asset's own sample variance unchanged.", "quantifier": "all return tables", "why_tests_cant": "Clamp and diagonal identities for all tables.", "anchors": ["pypfopt/risk_models.py:CovarianceShrinkage._ledoit_wolf_single_factor", "pypfopt/risk_models.py:CovarianceShrinkage._ledoit_wolf_constant_correlation"]}
{"id": "C76", "title": "Objective functions have the convexity cvxpy relies on", "statement": "portfolio_variance, L2 regularisation, transaction cost and the tracking errors are convex in the weights and non-negative, quadratic_utility is concave for positive semidefinite covariance, and the sign of each objective makes minimisation meaningful.", "quantifier": "all weights, matrices, parameters", "why_tests_cant": "Convexity is a for-all inequality.", "anchors": ["pypfopt/objective_functions.py"]}
{"id": "C77", "title": "ex_post_tracking_error is not a variance", "statement": "ex_post_tracking_error documents Var(r - r_b) but returns the number of periods times that variance; it is invariant to adding a constant to the benchmark returns.", "quantifier": "all return histories", "why_tests_cant": "Scale factor depends on the length.", "anchors": ["pypfopt/objective_functions.py:ex_post_tracking_error"]}
{"id": "C78", "title": "Frontier plotting can repeat a stale point", "statement": "When a parameter on the plotted frontier raises ValueError, the plot still appends a point: the performance of the previously solved portfolio; when it raises OptimizationError the parameter is skipped.", "quantifier": "all parameter lists and optimizer behaviours", "why_tests_cant": "Depends on the error class inside a loop.", "anchors": ["pypfopt/plotting.py:_plot_ef"]}
{"id": "C79", "title": "HRPOpt.optimize cannot handle a single asset", "statement": "With one asset HRPOpt.optimize raises ValueError for every linkage method (scipy refuses an empty distance vector), although the recursive bisection on its own returns weight 1 for that asset.", "quantifier": "all one-asset covariance matrices with positive variance, all linkage oracles", "why_tests_cant": "The failing path is in a library call that a unit test on several assets never reaches with an empty input.", "anchors": ["pypfopt/hierarchical_portfolio.py:HRPOpt.optimize", "pypfopt/hierarchical_portfolio.py:HRPOpt._raw_hrp_allocation"]}
{"id": "C80", "title": "An asset without data gets expected return zero", "statement": "With compounding, mean_historical_return gives an asset whose returns are all missing the expected return 0 (1 ** infinity - 1) and does not warn, while the arithmetic mean of the same column is NaN.", "quantifier": "all return tables with a column that has no numbers", "why_tests_cant": "Tests look at complete or partly missing columns; the value 0 looks plausible.", "anchors": ["pypfopt/expected_returns.py:mean_historical_return", "pypfopt/expected_returns.py:_check_returns"]}
{"id": "C81", "title": "capm_return cannot handle an asset called mkt", "statement": "capm_return never returns an estimate for an asset labelled 'mkt': without a market series the asset's returns are silently overwritten by the market proxy and the asset is dropped, with a market series ValueError is raised.", "quantifier": "all tables and arguments", "why_tests_cant": "Depends on a reserved label.", "anchors": ["pypfopt/expected_returns.py:capm_return"]}
{"id": "C82", "title": "capm_return renames the caller's market table", "statement": "With returns_data=True, capm_return changes the column label of the market table passed by the caller to 'mkt'; with prices the caller's table is left alone.", "quantifier": "all market tables with one column", "why_tests_cant": "Side effect on an argument.", "anchors": ["pypfopt/expected_returns.py:capm_return"]}
{"id": "C83", "title": "Semicovariance treats missing returns as no loss", "statement": "For a table with missing values semicovariance is still symmetric positive semidefinite, but every missing return counts as a return not below the benchmark: an asset observed in m of T periods gets m/T times the semivariance of its observed returns.", "quantifier": "all tables with missing values, benchmarks", "why_tests_cant": "The results look plausible; the scaling holds for every table.", "anchors": ["pypfopt/risk_models.py:semicovariance"]}
{"id": "C84", "title": "Constant-correlation shrinkage does nothing for two assets", "statement": "With two assets the constant-correlation target is the sample covariance itself, so ledoit_wolf(constant_correlation) returns exactly sample_cov whatever the shrinkage intensity (which is then a quotient by zero).", "quantifier": "all complete tables of two assets", "why_tests_cant": "For-all tables; the intensity is an undefined quotient.", "anchors": ["pypfopt/risk_models.py:CovarianceShrinkage._ledoit_wolf_constant_correlation"]}
{"id": "C85", "title": "Every method of risk_matrix returns a covariance matrix", "statement": "For complete positive prices every documented method name of risk_matrix returns a symmetric positive semidefinite matrix labelled with the assets in order, without needing a fix; any other name raises NotImplementedError.", "quantifier": "all complete price tables, all method names", "why_tests_cant": "For-all tables and quadratic forms.", "anchors": ["pypfopt/risk_models.py:risk_matrix"]}
{"id": "C86", "title": "Black-Litterman constructor stores and validates its inputs", "statement": "A constructed model has tau in (0,1], positive risk aversion, matching dimensions and confidences in [0,1]; prior, views and uncertainty matrix are exactly those given (or the documented defaults), and no later call changes them; pi='market' with an unlabelled covariance array always raises.", "quantifier": "all arguments, all later call sequences", "why_tests_cant": "the combinations of argument kinds are many and the object caches intermediate results", "anchors": ["pypfopt/black_litterman.py:BlackLittermanModel.__init__", "pypfopt/black_litterman.py:BlackLittermanModel._set_pi", "pypfopt/black_litterman.py:BlackLittermanModel._set_omega"]}
{"id": "C87", "title": "Market-implied prior and risk aversion", "statement": "The market portfolio's prior return is risk aversion times its variance plus the risk-free rate; market_implied_risk_aversion is annual mean excess return over annual variance, does not depend on the price level and, for a zero risk-free rate, not on the frequency.", "quantifier": "all caps, covariance matrices, price series, frequencies", "why_tests_cant": "holds for all real inputs only with exact arithmetic; tests compare single numbers", "anchors": ["pypfopt/black_litterman.py:market_implied_prior_returns", "pypfopt/black_litterman.py:market_implied_risk_aversion"]}
{"id": "C88", "title": "Scaling laws of the Sharpe ratio", "statement": "With a zero risk-free rate the Sharpe ratio does not change when all weights are multiplied by a positive number; over a horizon f times as long (returns, covariance and rate times f) it grows by sqrt f; a portfolio with no less return and no more variance has no smaller ratio.", "quantifier": "all weights, expected returns, covariance matrices with positive portfolio variance, f > 0", "why_tests_cant": "Scaling laws quantify over a continuum of factors.", "anchors": ["pypfopt/objective_functions.py:sharpe_ratio"]}
{"id": "C89", "title": "Integer lower bounds break the critical line algorithm", "statement": "If every lower bound in a sequence of bounds is a Python integer, CLA keeps its weights in an integer array: with lower bounds 0 and upper bounds below 1 every optimisation raises IndexError although portfolios exist, and otherwise every stored turning point is a vector of integers, so with bounds in [0,1] min_volatility() can only return a portfolio that holds a single asset, even when a mixture has a smaller variance.", "quantifier": "all expected returns, covariance matrices and such bounds", "why_tests_cant": "Depends on numpy dtype inference from the literal types of the bounds.", "anchors": ["pypfopt/cla.py:CLA.__init__", "pypfopt/cla.py:CLA._init_algo", "pypfopt/cla.py:CLA._solve"]}
{"id": "C90", "title": "CLA drops turning points where an asset reaches a bound", "statement": "When an asset leaves the set of free assets, the turning point CLA computes uses the weight this asset had at the previous turning point for the other assets and the bound for the asset itself, so the weights sum to one plus the difference; the clean-up step therefore deletes this turning point whenever the weight moved by more than the tolerance, and the frontier between its neighbours is not optimal. All other turning points sum to exactly one.", "quantifier": "all inputs with an exact inverse; existence of inputs where the Sharpe ratio suffers", "why_tests_cant": "Requires comparing intermediate turning points with exact arithmetic.", "anchors": ["pypfopt/cla.py:CLA._solve", "pypfopt/cla.py:CLA._purge_num_err", "pypfopt/cla.py:CLA._get_matrices"]}
{"id": "C91", "title": "CLA terminates and its turning points are optimal", "statement": "For a positive definite covariance matrix, an exact inverse and a problem in general position, CLA terminates within 3^n iterations, every kept turning point that sums to one solves the mean-variance problem for its lambda, mixtures of two kept points with nested free sets solve it for the mixed lambda, and min_volatility() returns a portfolio with the smallest variance of all feasible portfolios. Without general position (a tie at lambda zero) min_volatility() can miss the minimum.", "quantifier": "all sizes, all problems in general position; existence of a degenerate counterexample", "why_tests_cant": "Global optimality and termination of an active set method for all inputs.", "anchors": ["pypfopt/cla.py:CLA._solve", "pypfopt/cla.py:CLA.min_volatility"]}
{"id": "C92", "title": "Allocation error report", "statement": "The root mean square error reported by verbose=True is the RMS distance between the target weights and the fractions of the allocation's value really held; it is zero exactly if every ticker is held in its target proportion, and after a successful greedy long-only allocation with weights summing to at most 1 it is always defined and lies between 0 and sqrt(2/n). Asking for the report (verbose=True) never changes the result or raises.", "quantifier": "all allocations with priced tickers; all greedy runs; both values of verbose; all solvers", "why_tests_cant": "The bound holds for every price vector and portfolio size; whether reporting changes the result depends on labels that do not match, which tests never combine with verbose.", "anchors": ["pypfopt/discrete_allocation.py:DiscreteAllocation._allocation_rmse_error", "pypfopt/discrete_allocation.py:DiscreteAllocation.greedy_portfolio", "pypfopt/discrete_allocation.py:DiscreteAllocation.lp_portfolio"]}
{"id": "C93", "title": "LP long/short allocation", "statement": "For a portfolio with short positions and an exact integer solver, whenever lp_portfolio(reinvest) returns: longs are positive and shorts negative share counts; the long half spends at most total (plus the short proceeds with reinvest=True) and the short half at most total*short_ratio; gross value plus leftover equals total*(1+short_ratio) or total*(1+2*short_ratio); and no other affordable whole-share holding of either half has a smaller sum of absolute dollar deviations plus leftover. This holds in whatever order prices and weights are listed. With some positive weight, positive prices, a positive short_ratio and a solver that finds a best answer whenever there is one, it does return.", "quantifier": "all weight dictionaries with a negative weight, all price series and orders, all exact solvers, both values of reinvest", "why_tests_cant": "Optimality quantifies over every competing allocation of both halves, and order independence over all permutations.", "anchors": ["pypfopt/discrete_allocation.py:DiscreteAllocation.lp_portfolio"]}
{"id": "C94", "title": "Weight plot shows the portfolio", "statement": "The bars drawn by plot_weights are exactly the given weights, each once and under its own ticker, in descending order.", "quantifier": "all weight dictionaries", "why_tests_cant": "Tests only check that a plot object is returned.", "anchors": ["pypfopt/plotting.py:plot_weights"]}
{"id": "C95", "title": "Downside-risk optimisers can be reused safely", "statement": "EfficientSemivariance, EfficientCVaR and EfficientCDaR: after any earlier targets, accepted or rejected, a call of efficient_risk, efficient_return or max_quadratic_utility with a new target has the result, weights and performance it has on a fresh object; a call that raises keeps the weights; disabled methods change nothing; after an optimisation no objective or constraint can be added, and the minimum-risk method cannot run again; the placeholder covariance matrix never influences any result; negative targets are rejected with ValueError.", "quantifier": "all solvers, objects, user constraints and objectives, all sequences of calls", "why_tests_cant": "Quantifies over call histories and over every answer a solver may give.", "anchors": ["pypfopt/efficient_frontier/efficient_semivariance.py:EfficientSemivariance.efficient_risk", "pypfopt/efficient_frontier/efficient_semivariance.py:EfficientSemivariance.efficient_return", "pypfopt/efficient_frontier/efficient_semivariance.py:EfficientSemivariance.max_quadratic_utility", "pypfopt/efficient_frontier/efficient_cvar.py:EfficientCVaR.efficient_risk", "pypfopt/efficient_frontier/efficient_cvar.py:EfficientCVaR.efficient_return", "pypfopt/efficient_frontier/efficient_cdar.py:EfficientCDaR.efficient_risk", "pypfopt/efficient_frontier/efficient_cdar.py:EfficientCDaR.efficient_return", "pypfopt/base_optimizer.py:BaseConvexOptimizer._solve_cvxpy_opt_problem"]}
{"id": "C96", "title": "Results carry the labels of the inputs", "statement": "The tickers of an EfficientFrontier are the labels of its expected returns if they have labels, else those of its covariance matrix, else 0, 1, ..., n-1 in order. CLA: the labels of its expected returns, else 0, 1, ..., n-1; without expected returns it raises TypeError. Black-Litterman: the labels of its covariance matrix, else 0, 1, ..., n-1. HRP: the columns of the returns, else of the covariance matrix. No later call on a convex optimizer changes them.", "quantifier": "all inputs of the four constructors, all sequences of calls", "why_tests_cant": "The combinations of labelled and unlabelled inputs and call histories are unbounded.", "anchors": ["pypfopt/base_optimizer.py:BaseOptimizer.__init__", "pypfopt/efficient_frontier/efficient_frontier.py:EfficientFrontier.__init__", "pypfopt/cla.py:CLA.__init__", "pypfopt/black_litterman.py:BlackLittermanModel.__init__", "pypfopt/hierarchical_portfolio.py:HRPOpt.__init__"]}
{"id": "C97", "title": "Plots show what the optimizer computed", "statement": "The CLA plot shows the curve that efficient_frontier(points) returns and a marker at risk and return of the max-Sharpe portfolio; every asset is drawn at its volatility and expected return; plotting never changes inputs, existing weights, turning points or a stored frontier; plotting twice shows the same. A dendrogram shows the clusters of the last optimisation with the tickers as leaf names, or optimises first. The covariance plot shows the matrix, or its correlation matrix, with the asset labels.", "quantifier": "all CLA, HRP and EfficientFrontier objects in any state, all matrices, all numbers of points", "why_tests_cant": "Quantifies over object states and call orders; the plots are images that tests do not inspect.", "anchors": ["pypfopt/plotting.py:_plot_cla", "pypfopt/plotting.py:plot_dendrogram", "pypfopt/plotting.py:plot_covariance", "pypfopt/plotting.py:_plot_ef"]}
{"id": "C98", "title": "Method names select the documented estimator", "statement": "risk_matrix and return_model compute, for every documented method name with default arguments, exactly the documented estimate of the price table: sample covariance, semicovariance (also under the alias semivariance), exponential covariance of span 180, the Ledoit-Wolf covariance with each of its three targets, the oracle approximating one; mean, exponential average of span 500 and CAPM return. An unknown return method or shrinkage target raises NotImplementedError.", "quantifier": "all complete positive price tables with at least three rows, all names", "why_tests_cant": "A test checks that a name works, not that for all tables it selects the right estimator with the right defaults.", "anchors": ["pypfopt/risk_models.py:risk_matrix", "pypfopt/risk_models.py:CovarianceShrinkage.ledoit_wolf", "pypfopt/expected_returns.py:return_model"]}
{"id": "C99", "title": "Ledoit-Wolf intensities are the published ones", "statement": "The shrinkage intensity of the constant-correlation target is the estimator of Ledoit and Wolf (2003), that of the single-factor target the estimator of Ledoit and Wolf (2001): (pi - rho) / gamma / T clipped to [0, 1], with pi, rho and gamma the published sums of asymptotic covariances.", "quantifier": "all complete tables of returns with gamma (and the market variance) not zero", "why_tests_cant": "A vectorised formula with four sums; tests compare one number with a recorded value.", "anchors": ["pypfopt/risk_models.py:CovarianceShrinkage._ledoit_wolf_single_factor", "pypfopt/risk_models.py:CovarianceShrinkage._ledoit_wolf_constant_correlation"]}
{"id": "C100", "title": "HRP clusters by correlation distance and bisects along the leaf order", "statement": "HRPOpt.optimize clusters on the distances sqrt((1 - rho) / 2) of the correlations (rounded to 6 digits if only a covariance matrix is given), stores that linkage, orders the assets so that every cluster is contiguous and the first of two merged clusters comes first, and bisects along that order. Without inputs the constructor raises ValueError, with returns that are no table TypeError.", "quantifier": "all return tables and covariance matrices with positive risk, all linkage methods, all linkage matrices", "why_tests_cant": "Quantifies over dendrograms; tests fix one dataset.", "anchors": ["pypfopt/hierarchical_portfolio.py:HRPOpt.optimize", "pypfopt/hierarchical_portfolio.py:HRPOpt._get_quasi_diag", "pypfopt/hierarchical_portfolio.py:HRPOpt.__init__"]}
{"id": "C101", "title": "HRP performance comes from annualised mean and covariance", "statement": "HRPOpt.portfolio_performance of weights w reports w . mean * frequency, the square root of w' (cov * frequency) w, and (return - rf) / volatility if returns were given; only the volatility, not annualised, if a covariance matrix was given; nothing before optimize. optimize never changes the inputs.", "quantifier": "all tables, weights, rates and frequencies", "why_tests_cant": "Tests compare one recorded tuple.", "anchors": ["pypfopt/hierarchical_portfolio.py:HRPOpt.portfolio_performance"]}
{"id": "C102", "title": "Everything added to an optimizer takes effect", "statement": "After any sequence of add_objective, add_constraint and add_sector_constraints calls on a new EfficientFrontier, the portfolio that min_volatility, efficient_risk, efficient_return or max_quadratic_utility returns satisfies all added constraints, the bounds and the weight sum, and has the least cost plus the sum of all added terms among all such portfolios. A constraint that is not callable raises TypeError and changes nothing.", "quantifier": "all inputs, all bounds, all finite sequences of preparatory calls, all exact solvers", "why_tests_cant": "Quantifies over call sequences, constraints and objectives; tests add one or two and check a recorded result.", "anchors": ["pypfopt/base_optimizer.py:BaseConvexOptimizer.add_objective", "pypfopt/base_optimizer.py:BaseConvexOptimizer.add_constraint", "pypfopt/base_optimizer.py:BaseConvexOptimizer.add_sector_constraints", "pypfopt/efficient_frontier/efficient_frontier.py:EfficientFrontier.min_volatility"]}
{"id": "C103", "title": "plot_efficient_frontier draws the object it is given", "statement": "plot_efficient_frontier accepts CLA and EfficientFrontier objects, including subclasses, and raises NotImplementedError for anything else. The points of the curve are the risks and returns that portfolio_performance reports after optimising for each parameter; each asset is drawn at its own risk and return and labelled with its own ticker if requested; static and interactive plots show the same data; a file is saved if and only if a filename is given.", "quantifier": "all optimizer objects and states, all solvers, all parameter ranges, all display options", "why_tests_cant": "Tests look at the number of artists in a figure for one data set and never plot a downside-risk optimizer.", "anchors": ["pypfopt/plotting.py:plot_efficient_frontier", "pypfopt/plotting.py:_plot_ef", "pypfopt/plotting.py:_plot_cla", "pypfopt/plotting.py:_plot_io", "pypfopt/plotting.py:_ef_default_returns_range"]}
{"id": "C104", "title": "min_cov_determinant estimates from complete rows only", "statement": "min_cov_determinant passes exactly the rows without missing values to the estimator, in order; its result carries the asset names on both axes, is the annualised estimate whenever the estimate is positive semidefinite, and is positive semidefinite up to the tolerance of the repair otherwise. Prices and their returns give the same result.", "quantifier": "all tables with missing values, all frequencies, all estimator answers", "why_tests_cant": "Quantifies over tables with arbitrary missing entries and over the answers of the estimator.", "anchors": ["pypfopt/risk_models.py:min_cov_determinant"]}
{"id": "C105", "title": "Keyword arguments of risk_matrix and return_model reach the estimators", "statement": "risk_matrix and return_model with keyword arguments give the result of calling the named estimator with these arguments and the documented defaults for the others. A keyword that the estimator does not know raises TypeError; an unknown method raises NotImplementedError.", "quantifier": "all tables, all methods, all keyword dictionaries", "why_tests_cant": "Quantifies over all combinations of keywords; tests use one or two.", "anchors": ["pypfopt/risk_models.py:risk_matrix", "pypfopt/expected_returns.py:return_model", "pypfopt/risk_models.py:sample_cov", "pypfopt/risk_models.py:semicovariance", "pypfopt/risk_models.py:exp_cov", "pypfopt/risk_models.py:CovarianceShrinkage.__init__"]}
{"id": "C106", "title": "An optimizer succeeds exactly when there is a portfolio that meets all demands", "statement": "With finite bounds and a solver that finds an optimum when there is one, an optimization method returns weights exactly when some weights respect the bounds, the weight sum, every constraint added before, and the target of the method; otherwise it raises. Costs and constraints written with the weights and the modelled cvxpy functions never stand in the way.", "quantifier": "all inputs of the constructors with finite bounds, all lists of preparatory calls, all targets, all exact and complete solvers", "why_tests_cant": "That a best portfolio exists in every non-empty bounded set is a compactness argument; a test sees single problems, and cannot distinguish an infeasible problem from one that the code made infeasible.", "anchors": ["pypfopt/efficient_frontier/efficient_frontier.py:EfficientFrontier.min_volatility", "pypfopt/efficient_frontier/efficient_frontier.py:EfficientFrontier.max_sharpe", "pypfopt/efficient_frontier/efficient_frontier.py:EfficientFrontier.max_quadratic_utility", "pypfopt/efficient_frontier/efficient_frontier.py:EfficientFrontier.efficient_risk", "pypfopt/efficient_frontier/efficient_frontier.py:EfficientFrontier.efficient_return", "pypfopt/efficient_frontier/efficient_semivariance.py:EfficientSemivariance.min_semivariance", "pypfopt/efficient_frontier/efficient_cvar.py:EfficientCVaR.min_cvar", "pypfopt/efficient_frontier/efficient_cdar.py:EfficientCDaR.min_cdar", "pypfopt/base_optimizer.py:BaseConvexOptimizer._solve_cvxpy_opt_problem"]}
{"id": "C107", "title": "portfolio_performance of EfficientFrontier uses the rate of the last acceptable max_sharpe", "statement": "For every sequence of calls on an EfficientFrontier, failed calls included: the expected return that portfolio_performance reports is that of the weights held, the volatility is positive and its square is their variance, and the Sharpe ratio is excess return over volatility at one rate. That rate is the one of the last max_sharpe whose argument was a number below some expected return; if there was no such call, it is the argument of portfolio_performance.", "quantifier": "all expected returns, covariance matrices, bounds, solvers, call sequences, rates and weights of positive variance", "why_tests_cant": "A test checks a call or two in a fixed order; which rate applies depends on the whole history of calls, including those that raised an exception.", "anchors": ["pypfopt/efficient_frontier/efficient_frontier.py:portfolio_performance", "pypfopt/efficient_frontier/efficient_frontier.py:max_sharpe", "pypfopt/base_optimizer.py:portfolio_performance"]}
{"id": "C108", "title": "From a table of prices to shares", "statement": "For every complete table of positive prices with at least three rows and different column names, with the default arguments and with solvers that find a best answer whenever there is one: mean_historical_return, sample_cov, EfficientFrontier, min_volatility, clean_weights, get_latest_prices, DiscreteAllocation and lp_portfolio, called one after the other as in the README, all succeed. The result consists of whole positive numbers of shares of the listed assets which at the last prices together with the leftover are worth exactly the money given. There is a long-only, fully invested portfolio of least variance of the past returns such that the deviations of the amounts invested from it, in dollars, plus the leftover, add up to at most two shares of each asset plus 2*n*(10^-4+10^-16) of the money. The same holds for max_sharpe and the largest Sharpe ratio, if some asset has grown faster than the risk-free rate and no portfolio is without risk.", "quantifier": "all price tables, column names, amounts of money, risk-free rates, exact and complete solvers", "why_tests_cant": "A statement about the composition of eight public functions over all tables; tests run the steps on one data set and compare the end result with recorded numbers.", "anchors": ["pypfopt/expected_returns.py:mean_historical_return", "pypfopt/risk_models.py:sample_cov", "pypfopt/efficient_frontier/efficient_frontier.py:EfficientFrontier.min_volatility", "pypfopt/efficient_frontier/efficient_frontier.py:EfficientFrontier.max_sharpe", "pypfopt/base_optimizer.py:BaseOptimizer.clean_weights", "pypfopt/discrete_allocation.py:get_latest_prices", "pypfopt/discrete_allocation.py:DiscreteAllocation.lp_portfolio"]}
{"id": "C109", "title": "CLA.max_sharpe finds the best Sharpe ratio on its frontier, to eight digits", "statement": "The golden section search of cla.py uses the constant 0.618033989, which is not exactly the golden section, so that a retained inner point drifts and the bracket does not shrink as computed in the comment; nevertheless, for every function with a single peak on [0, 1], the point returned lies in an interval no longer than 2e-8 outside of which no point is better. For a positive definite covariance matrix the Sharpe ratio has a single peak on a segment between two portfolios if neither expected return is negative, or if no portfolio in between has a smaller variance than the end with the smaller return; the second always holds between consecutive kept turning points of a well posed problem in general position whose kept points sum to one. So the portfolio returned is feasible and no worse than a point within 2e-8 of the best point of every segment. If moreover no turning point was discarded and some portfolio has a nonnegative expected return, then for every feasible portfolio v there is a feasible u with a ratio at least that of v, and a feasible u' whose weights differ from those of u by at most 2e-8 of the width of their bounds, with a ratio not above that of the result.", "quantifier": "all objective functions with a single peak; all problem sizes, expected returns, positive definite covariance matrices and bounds, all sound inverses and set orders, all runs", "why_tests_cant": "the accuracy rests on an error analysis of 38 steps for all possible branchings of the search, and on quasi-concavity of the ratio along every segment; a test sees single runs on one data set", "anchors": ["pypfopt/cla.py:CLA._golden_section", "pypfopt/cla.py:CLA._eval_sr", "pypfopt/cla.py:CLA.max_sharpe"]}
{"id": "C110", "title": "CLA.portfolio_performance reports the figures of the weights the last optimisation returned", "statement": "After a successful max_sharpe or min_volatility on a new or solved CLA object with a positive definite covariance matrix, portfolio_performance(risk_free_rate=rf) returns the expected return, the volatility and the ratio (return - rf)/volatility of exactly the weights that were returned. A call that fails, and efficient_frontier, leave the weights as they were; before the first optimisation portfolio_performance raises ValueError; set_weights always raises NotImplementedError and changes nothing.", "quantifier": "all CLA objects, calls, risk-free rates", "why_tests_cant": "an example checks one portfolio; the claim is about all objects, including after failed calls", "anchors": ["pypfopt/cla.py:CLA.portfolio_performance", "pypfopt/cla.py:CLA.set_weights"]}
{"id": "C111", "title": "The estimators read numbers, not labels: arrays and relabelled tables give the same estimates", "statement": "Two tables with the same numbers, whatever their dates and asset names, give the same numbers, the same warning and the same exceptions in mean_historical_return, ema_historical_return, capm_return, sample_cov, semicovariance, exp_cov, min_cov_determinant and the shrinkage estimators; the results carry the labels of the respective table (for capm_return: if the asset names are different from each other and from mkt; with a market, if in both cases the same rows have equal dates). An array is read like a table whose assets are called 0, 1, 2, ..., after a RuntimeWarning.", "quantifier": "all tables, arrays, missing values, parameters, eigen-decompositions and sklearn estimators", "why_tests_cant": "a relational statement over pairs of arbitrary tables; the tests compare one array with one table for some of the functions", "anchors": ["pypfopt/expected_returns.py:mean_historical_return", "pypfopt/expected_returns.py:ema_historical_return", "pypfopt/expected_returns.py:capm_return", "pypfopt/risk_models.py:sample_cov", "pypfopt/risk_models.py:semicovariance", "pypfopt/risk_models.py:exp_cov", "pypfopt/risk_models.py:min_cov_determinant", "pypfopt/risk_models.py:CovarianceShrinkage.__init__"]}
{"id": "C112", "title": "capm_return with a market that is not a DataFrame", "statement": "Market prices may be given as an array or a Series, like the prices themselves: the estimates are those for the DataFrame with the same numbers. True if prices and market are both arrays, and for Series of prices. False otherwise: an array of market prices next to dated asset prices shares no date with them, and every estimate is silently missing; an array of market returns raises AttributeError; a Series of market returns is accepted if and only if it happens to be called mkt.", "quantifier": "all price tables, markets, dates, names and parameters", "why_tests_cant": "the outcome depends on the labels of both inputs, which tests draw from one file; silent missing values occur for every table that shares no date with the market", "anchors": ["pypfopt/expected_returns.py:capm_return"]}
{"id": "C113", "title": "The methods of one optimizer trace one efficient frontier", "statement": "For a mean-variance optimizer with convex constraints and no added objectives: efficient_risk with more risk allowed finds at least the return, efficient_return with more return demanded finds at least the volatility; going from a risk to the return found for it and back gives the same return at no more risk, and the other way round (with finite bounds the second call always succeeds); the return is a concave function of the risk allowed and the risk a convex function of the return demanded. The answers of max_quadratic_utility and max_sharpe lie on that frontier, min_volatility is where it starts. The same holds for semideviation (fully invested), CVaR and CDaR.", "quantifier": "all optimizers, convex constraints, targets, exact solvers (possibly a different one per call)", "why_tests_cant": "a relation between the answers of several calls for arbitrary targets; the tests compare three targets with one data set", "anchors": ["pypfopt/efficient_frontier/efficient_frontier.py:EfficientFrontier.efficient_risk", "pypfopt/efficient_frontier/efficient_frontier.py:EfficientFrontier.efficient_return", "pypfopt/efficient_frontier/efficient_frontier.py:EfficientFrontier.max_quadratic_utility", "pypfopt/efficient_frontier/efficient_frontier.py:EfficientFrontier.max_sharpe", "pypfopt/efficient_frontier/efficient_frontier.py:EfficientFrontier.min_volatility", "pypfopt/efficient_frontier/efficient_semivariance.py:EfficientSemivariance.efficient_risk", "pypfopt/efficient_frontier/efficient_semivariance.py:EfficientSemivariance.efficient_return", "pypfopt/efficient_frontier/efficient_cvar.py:EfficientCVaR.efficient_risk", "pypfopt/efficient_frontier/efficient_cvar.py:EfficientCVaR.efficient_return", "pypfopt/efficient_frontier/efficient_cdar.py:EfficientCDaR.efficient_risk", "pypfopt/efficient_frontier/efficient_cdar.py:EfficientCDaR.efficient_return"]}
{"id": "C114", "title": "How the answers move when a parameter moves", "statement": "More weight on an added term (gamma of L2_reg, k of transaction_cost, or any other weighted term), with everything else equal, never gives a portfolio with more of that term, and never a better value of what the method optimises; neither does one more constraint. More risk_aversion never gives more variance, and never more return. A higher risk_free_rate never gives max_sharpe less volatility or less return, and always a smaller ratio. A higher beta never lowers the CVaR or CDaR found by min_cvar or min_cdar, a higher benchmark never the semivariance found by min_semivariance.", "quantifier": "all optimizers, weights, terms, constraints, rates, levels, benchmarks, exact solvers", "why_tests_cant": "a relation between two calls for all pairs of parameters; the tests compare gamma 0 and 1 for one data set", "anchors": ["pypfopt/objective_functions.py:L2_reg", "pypfopt/objective_functions.py:transaction_cost", "pypfopt/base_optimizer.py:BaseConvexOptimizer.add_objective", "pypfopt/base_optimizer.py:BaseConvexOptimizer.add_constraint", "pypfopt/efficient_frontier/efficient_frontier.py:EfficientFrontier.max_quadratic_utility", "pypfopt/efficient_frontier/efficient_frontier.py:EfficientFrontier.max_sharpe", "pypfopt/efficient_frontier/efficient_cvar.py:EfficientCVaR.min_cvar", "pypfopt/efficient_frontier/efficient_cdar.py:EfficientCDaR.min_cdar", "pypfopt/efficient_frontier/efficient_semivariance.py:EfficientSemivariance.min_semivariance"]}
{"id": "C115", "title": "lp_portfolio never does worse than greedy_portfolio", "statement": "Measure an allocation by the sum of the absolute deviations in money from the target amounts plus the money left over. If lp_portfolio() and greedy_portfolio() both answer for the same object (weights and prices listing the same assets in the same order), the measure of the first is at most that of the second; with short positions this holds for the long side and for the short side separately. Neither measure exceeds twice the sum of one share of each asset plus the part of the money that the weights leave uninvested.", "quantifier": "all long-only and long/short objects, prices, amounts of money; every exact mixed integer solver", "why_tests_cant": "Compares two algorithms over all inputs; the bound does not depend on the amount of money.", "anchors": ["pypfopt/discrete_allocation.py:DiscreteAllocation.lp_portfolio", "pypfopt/discrete_allocation.py:DiscreteAllocation.greedy_portfolio"]}
{"id": "C116", "title": "Implied returns lead back to the portfolio they come from", "statement": "If the expected returns are c * covariance * x + k with c > 0 and an admissible portfolio x, then max_quadratic_utility(c) and, for weights that sum to one, max_sharpe(k) return exactly x. In particular market_implied_prior_returns() with risk aversion c and risk-free rate k, given to a new EfficientFrontier whose bounds admit the market portfolio, leads to the capitalisation weights, whatever the order of the capitalisations; and max_sharpe(0) on bl_returns() and the prior covariance returns bl_weights() if these are within the bounds and have a positive posterior return.", "quantifier": "all positive definite covariances, capitalisations, risk aversions, rates, bounds; every exact solver", "why_tests_cant": "Round trip through three modules for all inputs; needs uniqueness of the optimum.", "anchors": ["pypfopt/black_litterman.py:market_implied_prior_returns", "pypfopt/black_litterman.py:BlackLittermanModel.bl_weights", "pypfopt/efficient_frontier/efficient_frontier.py:EfficientFrontier.max_quadratic_utility", "pypfopt/efficient_frontier/efficient_frontier.py:EfficientFrontier.max_sharpe"]}
{"id": "C117", "title": "CLA and EfficientFrontier agree", "statement": "On the same expected returns, covariances and bounds, in general position: the variance of CLA.min_volatility() is at most that of EfficientFrontier.min_volatility(), and if the CLA weights are exactly feasible both portfolios are the same. If all turning points sum to one, CLA.max_sharpe() has at most the Sharpe ratio of EfficientFrontier.max_sharpe(0), and if no turning point was discarded it has at least the ratio of a portfolio whose weights differ from the latter by at most 2e-8 of the width of the bounds.", "quantifier": "all well posed problems; every exact solver, every exact inverse", "why_tests_cant": "Relates two independent algorithms for all inputs.", "anchors": ["pypfopt/cla.py:CLA.min_volatility", "pypfopt/cla.py:CLA.max_sharpe", "pypfopt/efficient_frontier/efficient_frontier.py:EfficientFrontier.min_volatility", "pypfopt/efficient_frontier/efficient_frontier.py:EfficientFrontier.max_sharpe"]}
{"id": "C118", "title": "HRP and greedy_portfolio are sound in rounded arithmetic", "statement": "With every arithmetic operation rounded (any monotone idempotent rounding that keeps 0 and 1 and has relative error at most u): the raw HRP weights lie between 0 and 1 and their sum differs from 1 by at most (1+3u)^d - 1 for at most 2^d assets, provided the computed cluster variances are not negative (for instance no negative covariance); greedy_portfolio without shorts never leaves a negative amount or more than the total, buys positive whole numbers of shares of known tickers, at least as many as the weight pays for (up to (1-u)^2), and the value of the shares plus the leftover differs from the total by at most u*total*(5*assets + shares).", "quantifier": "for all roundings, errors u, covariance matrices, orders, weights, prices, totals, fuel", "why_tests_cant": "Tests run one float format on a few inputs and compare up to a tolerance; the bound holds for every input.", "anchors": ["pypfopt/hierarchical_portfolio.py:HRPOpt._raw_hrp_allocation", "pypfopt/hierarchical_portfolio.py:HRPOpt._get_cluster_var", "pypfopt/discrete_allocation.py:DiscreteAllocation.greedy_portfolio"]}
{"id": "C119", "title": "Return estimates of tables with missing entries", "statement": "With entries missing anywhere: returns_from_prices gives a return exactly between two known consecutive prices and drops the periods in which no asset has one; prices_from_returns starts at 1 and multiplies the known growth factors, leaving missing entries missing; mean_historical_return and ema_historical_return average the known returns of each column (growth rate over the number of known returns, -1 after a total loss, 0 without data; exponential weights by age) and warn exactly when a number is followed by a missing entry; capm_return matches the market by date, takes each beta from the days where asset and market are both known and the market mean from its known days, gives no estimate for a market that does not vary, and raises ValueError unless the market table has exactly one column.", "quantifier": "for all tables, positions of missing entries, dates, frequencies, spans, risk free rates", "why_tests_cant": "Tests use complete price files; the patterns of missing data and mismatched dates are unbounded.", "anchors": ["pypfopt/expected_returns.py:returns_from_prices", "pypfopt/expected_returns.py:prices_from_returns", "pypfopt/expected_returns.py:mean_historical_return", "pypfopt/expected_returns.py:ema_historical_return", "pypfopt/expected_returns.py:capm_return"]}
{"id": "C120", "title": "Covariance estimates of tables with missing entries", "statement": "sample_cov estimates each entry from the rows where both assets are known (two are needed for every pair) and exp_cov likewise with weights by age around the means of the whole columns, and both return these entries scaled to a year whenever they form a positive semidefinite matrix; they need not, and then sample_cov warns and returns other numbers. The scikit-learn estimators and the single factor estimator drop rows without any entry and treat every other missing return as a return of 0; the reported intensity is the estimator's.", "quantifier": "for all tables, positions of missing entries, frequencies, spans, eigen-decompositions", "why_tests_cant": "Whether the pairwise entries stay what they are depends on the pattern of missing data; tests use complete data.", "anchors": ["pypfopt/risk_models.py:sample_cov", "pypfopt/risk_models.py:exp_cov", "pypfopt/risk_models.py:CovarianceShrinkage.ledoit_wolf", "pypfopt/risk_models.py:CovarianceShrinkage.oracle_approximating"]}
{"id": "C121", "title": "Nothing is changed without a warning", "statement": "Whatever calls are made on an optimizer, its weight bounds stay those of the constructor unless the warning about amended bounds was issued; that warning is issued at most once in the life of an object, only by a call with market_neutral=True when no lower bound was negative, and then the bounds are -1 and 1 for every asset. add_sector_constraints warns exactly if a lower bound is negative or missing, and max_sharpe, if it returns, exactly if objectives were added. A covariance estimator that did not announce a matrix that is not positive semidefinite returns its estimate untouched, and the repair never announces a failure; rows of returns are removed only with a warning; portfolio_performance warns exactly if it uses another rate than it was given. The points of a frontier plot are those of the parameters, unless there was a warning.", "quantifier": "all optimizers, call sequences, solvers, matrices, tables and parameters", "why_tests_cant": "A test sees the warnings of the calls it makes; that no sequence of calls changes the bounds silently is a statement about all of them.", "anchors": ["pypfopt/efficient_frontier/efficient_frontier.py:_make_weight_sum_constraint", "pypfopt/base_optimizer.py:add_sector_constraints", "pypfopt/efficient_frontier/efficient_frontier.py:max_sharpe", "pypfopt/risk_models.py:fix_nonpositive_semidefinite", "pypfopt/efficient_frontier/efficient_frontier.py:_validate_returns", "pypfopt/efficient_frontier/efficient_frontier.py:portfolio_performance", "pypfopt/plotting.py:_plot_ef"]}
{"id": "C122", "title": "The same views written differently give the same posterior", "statement": "A set of Black-Litterman views can be written in many ways that carry the same information, and the way of writing must not matter. If the views (Q, P) are recombined by any linear map D that loses nothing (D may have more rows than views), and omega is recombined as D omega D^T, then posterior returns, posterior covariance and (for an invertible covariance matrix) the weights are unchanged, provided the views do not contradict each other with certainty. Views in another order, together with their uncertainties or confidences, give the same answers without that proviso, so the order of a dictionary of absolute views is irrelevant. With omega left to the library (default, or Idzorek with positive confidences) a view may be stated in other units or with the opposite sign. Not so: (a) the default omega is not recombined with the views, so stating views on A and A+B instead of A and B changes the answer; (b) a view stated m times moves the view portfolio m/(m+1) of the way to the view, so repetition counts as evidence; (c) a view with confidence zero gets an uncertainty of 1e6 regardless of its units, so rescaling it changes the answer.", "quantifier": "for all covariance matrices that are symmetric and positive semidefinite, priors, views, picking matrices, uncertainty matrices, confidences, one-to-one maps D, permutations and non-zero scale factors, and all exact solvers", "why_tests_cant": "The claim relates pairs of models over all views and all recombinations; a test compares a few of them up to rounding.", "anchors": ["pypfopt/black_litterman.py:_parse_views", "pypfopt/black_litterman.py:_set_Q_P", "pypfopt/black_litterman.py:_set_omega", "pypfopt/black_litterman.py:default_omega", "pypfopt/black_litterman.py:idzorek_method", "pypfopt/black_litterman.py:bl_returns", "pypfopt/black_litterman.py:bl_cov", "pypfopt/black_litterman.py:bl_weights"]}
{"id": "C123", "title": "Solvers of limited accuracy: the mean-variance optimizers degrade gracefully", "statement": "Numerical solvers meet the constraints only up to a tolerance t and reach the optimum only up to g. With such a solver the weights of min_volatility, efficient_risk, efficient_return, max_quadratic_utility and convex_objective satisfy the bounds, the sum, the user's constraints and the target up to t (plus half a unit in the 16th decimal from rounding), and no portfolio that satisfies them exactly is better by more than g. efficient_return refuses only targets beyond the largest return less 2g. max_sharpe, with all bounds in [-c, c] and t small against the excess returns, is admissible up to an enlarged tolerance and its ratio is nearly the largest. For t = g = 0 this is the exact case. The sum is not repaired: it can differ from one by the tolerance of the solver.", "quantifier": "for all tolerances t, g, all solvers that keep to them, all problems, bounds, targets, user constraints and objectives", "why_tests_cant": "No test controls the error of the solver; tests compare with the numbers one solver happens to give.", "anchors": ["pypfopt/efficient_frontier/efficient_frontier.py:EfficientFrontier.min_volatility", "pypfopt/efficient_frontier/efficient_frontier.py:EfficientFrontier.max_sharpe", "pypfopt/efficient_frontier/efficient_frontier.py:EfficientFrontier.max_quadratic_utility", "pypfopt/efficient_frontier/efficient_frontier.py:EfficientFrontier.efficient_risk", "pypfopt/efficient_frontier/efficient_frontier.py:EfficientFrontier.efficient_return", "pypfopt/base_optimizer.py:BaseConvexOptimizer.convex_objective", "pypfopt/base_optimizer.py:BaseConvexOptimizer._solve_cvxpy_opt_problem"]}
{"id": "C124", "title": "Solvers of limited accuracy: the downside optimizers", "statement": "With a solver of tolerance t and accuracy g the portfolios of EfficientCVaR, EfficientCDaR and EfficientSemivariance are admissible up to t and nearly best. The true CVaR exceeds the reported one by at most t/(1-beta), the true CDaR by at most (T+1)t + t/(1-beta) over T periods, and the semideviation exceeds that seen by the solver by at most t(2 sqrt T + |benchmark|); targets for the risk are exceeded by at most these amounts plus t. The reported risk itself is at most g above that of any admissible portfolio.", "quantifier": "for all tolerances t, g, all solvers that keep to them, all return histories, confidence levels, benchmarks, targets, bounds and user constraints", "why_tests_cant": "How an error in the auxiliary variables of the problem spreads to the true risk is not visible in a test that compares numbers from one solver.", "anchors": ["pypfopt/efficient_frontier/efficient_cvar.py:EfficientCVaR.min_cvar", "pypfopt/efficient_frontier/efficient_cvar.py:EfficientCVaR.efficient_return", "pypfopt/efficient_frontier/efficient_cvar.py:EfficientCVaR.efficient_risk", "pypfopt/efficient_frontier/efficient_cvar.py:EfficientCVaR.portfolio_performance", "pypfopt/efficient_frontier/efficient_cdar.py:EfficientCDaR.min_cdar", "pypfopt/efficient_frontier/efficient_cdar.py:EfficientCDaR.efficient_return", "pypfopt/efficient_frontier/efficient_cdar.py:EfficientCDaR.efficient_risk", "pypfopt/efficient_frontier/efficient_cdar.py:EfficientCDaR.portfolio_performance", "pypfopt/efficient_frontier/efficient_semivariance.py:EfficientSemivariance.min_semivariance", "pypfopt/efficient_frontier/efficient_semivariance.py:EfficientSemivariance.efficient_risk", "pypfopt/efficient_frontier/efficient_semivariance.py:EfficientSemivariance.efficient_return", "pypfopt/efficient_frontier/efficient_semivariance.py:EfficientSemivariance.max_quadratic_utility"]}
{"id": "C125", "title": "Constructors: which arguments are accepted and what is stored", "statement": "EfficientFrontier is built exactly if the expected returns are absent, a Series, a list or an array of the size of the covariance matrix, and the bounds are a pair or one pair per asset; the other arguments raise TypeError or ValueError, before any variable is created. The downside optimizers are built exactly if the returns are a table whose width fits the expected returns and the bounds (CVaR, CDaR: and 0 <= beta < 1). CLA is built exactly if there are expected returns and two numbers, two vectors, or one pair per asset as bounds. HRPOpt needs returns or covariances. The new object holds the given data, the tickers of the universe, the bounds as its only constraints and no weights.", "quantifier": "for all arguments and all earlier states of the modelling layer", "why_tests_cant": "Tests try some wrong types and shapes; that no other argument is refused or accepted, and that nothing else is stored, needs a proof about all arguments.", "anchors": ["pypfopt/efficient_frontier/efficient_frontier.py:EfficientFrontier.__init__", "pypfopt/base_optimizer.py:BaseConvexOptimizer.__init__", "pypfopt/base_optimizer.py:BaseConvexOptimizer._map_bounds_to_constraints", "pypfopt/efficient_frontier/efficient_semivariance.py:EfficientSemivariance.__init__", "pypfopt/efficient_frontier/efficient_cvar.py:EfficientCVaR.__init__", "pypfopt/efficient_frontier/efficient_cdar.py:EfficientCDaR.__init__", "pypfopt/cla.py:CLA.__init__", "pypfopt/hierarchical_portfolio.py:HRPOpt.__init__"]}
{"id": "C126", "title": "max_sharpe: what becomes of added objectives", "statement": "With added objectives, an exact solver and constraints with a constant on one side, max_sharpe returns an admissible portfolio with positive excess return that minimises variance / excess return squared plus the added objectives evaluated at the weights divided by their excess return; such a portfolio is found if there is one. Objectives of degree two that are never negative therefore count as risk: the answer maximises the Sharpe ratio for the total risk, with L2 penalties that for the covariance matrix plus the penalty on its diagonal. Other objectives change their meaning: with a transaction cost the previous weights may cost nothing and have the best Sharpe ratio and still be abandoned.", "quantifier": "for all expected returns, covariance matrices, bounds, user constraints of the stated form, added objectives and exact solvers", "why_tests_cant": "The library only warns that the result may not be the intended one; a test shows one number and cannot say which problem it is the optimum of.", "anchors": ["pypfopt/efficient_frontier/efficient_frontier.py:EfficientFrontier.max_sharpe", "pypfopt/base_optimizer.py:BaseConvexOptimizer.add_objective", "pypfopt/objective_functions.py:L2_reg", "pypfopt/objective_functions.py:transaction_cost"]}
{"id": "C127", "title": "Long/short greedy_portfolio and clean_weights are sound in rounded arithmetic", "statement": "With every arithmetic operation rounded (any monotone idempotent rounding that keeps 0 and 1 and has relative error at most u <= 1/4): greedy_portfolio with short positions never leaves a negative amount, gives each asset at most one entry, positive for weights that are not negative and negative for negative weights; the value of the shares held and owed plus the leftover differs from the money put to work by at most u times that money times (8*assets + 2*shares + 4); every long and every short position is less than one share short of its normalised target up to a factor (1-u)^5/(1+u)^n. clean_weights keeps the labels and the object, turns weights below the cutoff into exactly 0, replaces the others by a multiple of 10^-d at most half a unit away up to rounding errors, and never changes a sign; rounding a second time changes nothing while the numbers are small enough for the format.", "quantifier": "for all roundings, errors u, weights, prices, totals, short ratios, fuel, cutoffs, numbers of decimals", "why_tests_cant": "Tests run one float format on a few inputs and compare up to a tolerance; the bound holds for every input.", "anchors": ["pypfopt/discrete_allocation.py:DiscreteAllocation.greedy_portfolio", "pypfopt/base_optimizer.py:BaseOptimizer.clean_weights"]}
{"id": "C128", "title": "The order in which the assets are listed", "statement": "Re-ordering the columns of the price table re-orders the expected returns and the covariance matrix accordingly and changes nothing else; with pairwise different weights the greedy allocation is the same whatever the order of the tickers. For equal weights, and for hierarchical risk parity, this is false, and witnesses are given.", "quantifier": "for all price tables, orderings, weights, prices and rounding functions", "why_tests_cant": "A test tries one or two orders of one data set; with typical data the differences of the order-dependent methods are easily missed.", "anchors": ["pypfopt/expected_returns.py:return_model", "pypfopt/risk_models.py:risk_matrix", "pypfopt/discrete_allocation.py:DiscreteAllocation.greedy_portfolio", "pypfopt/hierarchical_portfolio.py:HRPOpt.optimize"]}
{"id": "C129", "title": "Units of measurement do not matter", "statement": "Expected returns multiplied by a and covariances by k (daily or yearly figures, fractions or per cent) give the same portfolios when the targets are converted: the calls succeed in both units or in neither, each answer is best for the problem in the other unit, and with a positive definite matrix the weights are equal. Prices of each asset in a unit of its own (splits, currencies) give the same returns and the same estimates of every kind. With prices and total in another currency both allocators buy the same shares and leave the same money.", "quantifier": "for all factors, assets, targets, price tables (with gaps and zero prices), keyword arguments, solvers and allocation problems", "why_tests_cant": "A test compares two fixed units on one data set; an absolute tolerance or threshold hidden in the code shows only for particular magnitudes.", "anchors": ["pypfopt/efficient_frontier/efficient_frontier.py:EfficientFrontier.max_sharpe", "pypfopt/efficient_frontier/efficient_frontier.py:EfficientFrontier.efficient_risk", "pypfopt/expected_returns.py:returns_from_prices", "pypfopt/risk_models.py:risk_matrix", "pypfopt/discrete_allocation.py:DiscreteAllocation.greedy_portfolio", "pypfopt/discrete_allocation.py:DiscreteAllocation.lp_portfolio"]}
{"id": "C130", "title": "Downside optimizers: units, order of the assets and order of the days", "statement": "A table of returns with its columns in another order, its rows in another order and its returns in another unit gives EfficientSemivariance and EfficientCVaR the same problem: the constructors accept both forms, every call (with its target converted) succeeds on both or on neither, and each answer is best for the other form, ticker by ticker. For EfficientCDaR this holds with the rows in their order; with the rows in another order the answer can change.", "quantifier": "for all tables (also with gaps), orders of assets and days, units of the returns and of the expected returns, benchmarks, frequencies, bounds, targets, market_neutral flags and exact solvers", "why_tests_cant": "A test permutes one data set; whether weights follow the labels and not the positions, and whether a unit is hidden in a formula, is a statement about all tables and all factors.", "anchors": ["pypfopt/efficient_frontier/efficient_semivariance.py:EfficientSemivariance.min_semivariance", "pypfopt/efficient_frontier/efficient_semivariance.py:EfficientSemivariance.max_quadratic_utility", "pypfopt/efficient_frontier/efficient_cvar.py:EfficientCVaR.min_cvar", "pypfopt/efficient_frontier/efficient_cvar.py:EfficientCVaR.efficient_risk", "pypfopt/efficient_frontier/efficient_cdar.py:EfficientCDaR.min_cdar", "pypfopt/efficient_frontier/efficient_frontier.py:EfficientFrontier._validate_returns"]}
{"id": "C131", "title": "The order of the days in a table of returns does not change mean_historical_return, capm_return, the sample and shrinkage covariances and HRP", "statement": "For two tables of returns with the same columns and the same days (date and row) in another order, mean_historical_return and capm_return (with the default market, or with a market table in its own order) give the same estimates or raise the same exception; sample_cov, semicovariance, shrunk_covariance, ledoit_wolf (single_factor, constant_correlation, and constant_variance if scikit-learn's part does not look at the order) give the same matrix and the same intensity; HRPOpt gives the same weights and performance. For ema_historical_return and exp_cov this is false: they weigh rows by position and nothing sorts the table. The warning about gaps depends on the order as well.", "quantifier": "all tables (any number of days and assets, with gaps, with repeated dates), all orders of the days, all frequencies, risk-free rates, benchmarks, fix methods, shrinkage intensities and linkage oracles", "why_tests_cant": "A test shuffles one table; whether any step looks at neighbouring rows or at the position of a row is a statement about all tables and all permutations.", "anchors": ["pypfopt/expected_returns.py:mean_historical_return", "pypfopt/expected_returns.py:capm_return", "pypfopt/expected_returns.py:ema_historical_return", "pypfopt/risk_models.py:sample_cov", "pypfopt/risk_models.py:semicovariance", "pypfopt/risk_models.py:exp_cov", "pypfopt/risk_models.py:CovarianceShrinkage._ledoit_wolf_single_factor", "pypfopt/risk_models.py:CovarianceShrinkage._ledoit_wolf_constant_correlation", "pypfopt/hierarchical_portfolio.py:HRPOpt.optimize"]}
{"id": "C132", "title": "Which arguments a method rejects, and with which exception", "statement": "On an optimizer that has not been used before, each method raises ValueError exactly when its argument is one of a stated set (risk aversion not positive, target not a number, negative or below the lowest volatility, target return above the best one, no expected return above the risk-free rate, ...), and every other failure is an OptimizationError; no other exception escapes, except a TypeError of max_sharpe for constraints that are neither equations nor inequalities. For EfficientSemivariance and EfficientCVaR the set is not that of the unreachable targets.", "quantifier": "all expected returns, covariances, tables of returns, bounds, added constraints and objectives, all argument values, and all solvers that raise only the exceptions the library expects", "why_tests_cant": "Tests try one bad value for a method; they cannot show that no other value is rejected, nor that no other kind of exception escapes for any constraints, objectives and solver outcomes.", "anchors": ["pypfopt/efficient_frontier/efficient_frontier.py:max_sharpe", "pypfopt/efficient_frontier/efficient_frontier.py:efficient_risk", "pypfopt/efficient_frontier/efficient_frontier.py:efficient_return", "pypfopt/efficient_frontier/efficient_frontier.py:max_quadratic_utility", "pypfopt/efficient_frontier/efficient_semivariance.py:efficient_return", "pypfopt/efficient_frontier/efficient_semivariance.py:efficient_risk", "pypfopt/efficient_frontier/efficient_cvar.py:efficient_risk", "pypfopt/efficient_frontier/efficient_cdar.py:efficient_risk", "pypfopt/efficient_frontier/efficient_cdar.py:efficient_return"]}
{"id": "C133", "title": "The answer does not depend on the solver", "statement": "With a positive definite covariance matrix (or a strictly convex added objective such as L2 regularisation) any two exact solvers that answer give the same weights for min_volatility, max_quadratic_utility, efficient_return and (without added objectives) max_sharpe. With a strictly convex added objective the same holds for efficient_risk and for all methods of the semivariance, CVaR and CDaR optimizers. Without one it is false for efficient_risk and min_cvar, and witnesses are given.", "quantifier": "all expected returns, covariances, tables of returns, bounds, convex added constraints and objectives, targets, and all pairs of exact solvers", "why_tests_cant": "Tests compare one solver with a stored result within a tolerance; they cannot show that no other exact solver returns other weights, and a tie between portfolios makes such a test depend on the solver's version.", "anchors": ["pypfopt/efficient_frontier/efficient_frontier.py:min_volatility", "pypfopt/efficient_frontier/efficient_frontier.py:max_sharpe", "pypfopt/efficient_frontier/efficient_frontier.py:max_quadratic_utility", "pypfopt/efficient_frontier/efficient_frontier.py:efficient_risk", "pypfopt/efficient_frontier/efficient_frontier.py:efficient_return", "pypfopt/efficient_frontier/efficient_semivariance.py:min_semivariance", "pypfopt/efficient_frontier/efficient_cvar.py:min_cvar", "pypfopt/efficient_frontier/efficient_cdar.py:min_cdar", "pypfopt/objective_functions.py:L2_reg"]}
{"id": "C134", "title": "Further demands never improve an answer", "statement": "If constraints or sector limits are added to an optimizer, or it is built with narrower bounds, and both optimisations succeed, then the answer with the further demands meets them and is never better (variance, utility, return, Sharpe ratio, semivariance, CVaR, CDaR, with added objectives) than the answer without; if the answer without them meets them anyway it is equally good, and where the best portfolio is unique the answers are equal. For market neutral portfolios this is false of narrower bounds, and a witness is given.", "quantifier": "all optimizers before their first call, all lists of added constraints, sector limits and bounds, all targets and pairs of exact solvers", "why_tests_cant": "Tests check that a constraint holds in the answer for a few constraints; that adding any constraint never improves the objective, and that a constraint that does not bind never changes the answer, are statements about all constraints.", "anchors": ["pypfopt/base_optimizer.py:add_constraint", "pypfopt/base_optimizer.py:add_sector_constraints", "pypfopt/efficient_frontier/efficient_frontier.py:min_volatility", "pypfopt/efficient_frontier/efficient_frontier.py:max_sharpe", "pypfopt/efficient_frontier/efficient_frontier.py:max_quadratic_utility", "pypfopt/efficient_frontier/efficient_frontier.py:efficient_risk", "pypfopt/efficient_frontier/efficient_frontier.py:efficient_return", "pypfopt/efficient_frontier/efficient_frontier.py:_make_weight_sum_constraint", "pypfopt/efficient_frontier/efficient_semivariance.py:min_semivariance", "pypfopt/efficient_frontier/efficient_cvar.py:min_cvar", "pypfopt/efficient_frontier/efficient_cdar.py:min_cdar"]}
{"id": "C135", "title": "Shrinkage makes the covariance estimate positive definite; the sample covariance of few days is singular", "statement": "With at most as many days as assets the sample covariance assigns zero variance to some non-zero position, with fewer days to one whose weights sum to zero. shrunk_covariance with any intensity in (0, 1] is positive definite if one asset has positive sample variance; so is Ledoit-Wolf shrinkage towards constant correlation or a single factor if the intensity is positive and the target is not degenerate. An EfficientFrontier built from such a table gives the same weights with every exact solver; with the sample covariance it need not.", "quantifier": "all complete tables of returns (any number of days from two and of assets), frequencies, intensities, bounds, expected returns and pairs of exact solvers", "why_tests_cant": "Tests check eigenvalues of one estimated matrix with a tolerance; that every table of few days is singular, and that every shrunk table is not, are statements about all tables.", "anchors": ["pypfopt/risk_models.py:sample_cov", "pypfopt/risk_models.py:CovarianceShrinkage.shrunk_covariance", "pypfopt/risk_models.py:CovarianceShrinkage._ledoit_wolf_constant_correlation", "pypfopt/risk_models.py:CovarianceShrinkage._ledoit_wolf_single_factor", "pypfopt/efficient_frontier/efficient_frontier.py:min_volatility", "pypfopt/efficient_frontier/efficient_frontier.py:max_sharpe"]}
{"id": "C136", "title": "Raising a view raises the posterior return of its portfolio, by no more than the view", "statement": "The posterior returns depend on the values of the views in exact proportion: views part of the way between two lists give answers the same part of the way, and the posterior covariance does not change. With uncorrelated view errors (default, Idzorek or any such omega) raising one view by d raises the posterior return of the view's portfolio by between 0 and d; for a dictionary of views, of the ticker itself. With one view every asset moves by its covariance with the view portfolio. All views together are nearer to the posterior than to the prior in units of their errors, but a single one of several views need not be, and with correlated errors raising a view can lower the return of its asset.", "quantifier": "all covariance matrices, priors, picking matrices, views, uncertainties, confidences and exact linear solvers, with singular systems included", "why_tests_cant": "Tests compare posterior returns with stored numbers; direction and size of the change for every view, matrix and uncertainty cannot be enumerated.", "anchors": ["pypfopt/black_litterman.py:BlackLittermanModel.bl_returns", "pypfopt/black_litterman.py:BlackLittermanModel.bl_cov", "pypfopt/black_litterman.py:BlackLittermanModel._parse_views", "pypfopt/black_litterman.py:BlackLittermanModel.default_omega", "pypfopt/black_litterman.py:BlackLittermanModel.idzorek_method"]}
{"id": "C137", "title": "CLA gives the same portfolios in any units of measurement", "statement": "Let a second CLA object be made from the same data with every expected return multiplied by one positive number a and every covariance by one positive number k (per cent instead of fractions, monthly instead of annual figures). Then the second object is accepted exactly when the first is, the algorithm passes through the same turning points with the same free assets (lambda is multiplied by k/a and gamma by k), and every sequence of calls of min_volatility, max_sharpe and efficient_frontier returns the same weights or raises the same errors; the frontier's returns are multiplied by a and its volatilities by sqrt(k), and portfolio_performance reports the return times a, the volatility times sqrt(k) and the Sharpe ratio times a/sqrt(k) when the risk-free rate is multiplied by a.", "quantifier": "for all numbers of assets, expected returns, symmetric covariance matrices, bounds, positive a and k, iteration orders of sets and sequences of calls, in exact arithmetic", "why_tests_cant": "Tests run the algorithm on one data set in one unit; that no comparison, tolerance or stopping rule depends on the unit needs the whole run for every input.", "anchors": ["pypfopt/cla.py:CLA._solve", "pypfopt/cla.py:CLA._compute_lambda", "pypfopt/cla.py:CLA._compute_w", "pypfopt/cla.py:CLA._purge_excess", "pypfopt/cla.py:CLA._golden_section", "pypfopt/cla.py:CLA.max_sharpe", "pypfopt/cla.py:CLA.min_volatility", "pypfopt/cla.py:CLA.efficient_frontier", "pypfopt/cla.py:CLA.portfolio_performance"]}
{"id": "C138", "title": "Only differences between expected returns matter", "statement": "If the same amount c is added to every expected return of an EfficientFrontier, the data are still accepted and min_volatility, max_quadratic_utility, efficient_risk, efficient_return with the target raised by c, and max_sharpe with the risk-free rate raised by c succeed in both cases or in neither and hand out weights that are best for the original problem, the same weights ticker by ticker when the covariance matrix is positive definite. A market neutral portfolio has no share in c, so that its target return stays as it is: the same weights are found when both calls succeed and no target is lost when c is not negative; a lowered level can lose targets because the pre-check looks at fully invested portfolios.", "quantifier": "for all labelled expected returns, covariance matrices, bounds, amounts c, targets, risk aversions and exact solvers", "why_tests_cant": "Tests use one vector of expected returns; invariance under a common shift relates two whole runs for every input, and the market neutral exception only shows where the shift moves the pre-check.", "anchors": ["pypfopt/efficient_frontier/efficient_frontier.py:EfficientFrontier.min_volatility", "pypfopt/efficient_frontier/efficient_frontier.py:EfficientFrontier.max_quadratic_utility", "pypfopt/efficient_frontier/efficient_frontier.py:EfficientFrontier.efficient_risk", "pypfopt/efficient_frontier/efficient_frontier.py:EfficientFrontier.efficient_return", "pypfopt/efficient_frontier/efficient_frontier.py:EfficientFrontier.max_sharpe"]}
{"id": "C139", "title": "The tail optimizers at the two ends of the confidence level", "statement": "At beta = 0 EfficientCVaR works with the mean of all daily losses and EfficientCDaR with the mean of all drawdowns; when the share (1 - beta) of the days without gaps is at most one day (for instance the default 0.95 with at most 20 days) they work with the single worst day and with the maximum drawdown. The minimisation finds a portfolio in the bounds with the least such number, efficient_risk the highest expected return among portfolios for which it is at most the target, efficient_return the least such number among portfolios that reach the target, and each call succeeds exactly when such a best portfolio exists and the target is not refused as negative.", "quantifier": "for all labelled expected returns, tables of returns with gaps, bounds, levels at either end, targets, market neutral or not, and exact solvers", "why_tests_cant": "The linear programs know nothing of the ends: whether their variables alpha and u reduce to a mean or a maximum is a fact about every optimum of every program, and the tests use beta = 0.95 with hundreds of days.", "anchors": ["pypfopt/efficient_frontier/efficient_cvar.py:EfficientCVaR.min_cvar", "pypfopt/efficient_frontier/efficient_cvar.py:EfficientCVaR.efficient_risk", "pypfopt/efficient_frontier/efficient_cvar.py:EfficientCVaR.efficient_return", "pypfopt/efficient_frontier/efficient_cdar.py:EfficientCDaR.min_cdar", "pypfopt/efficient_frontier/efficient_cdar.py:EfficientCDaR.efficient_risk", "pypfopt/efficient_frontier/efficient_cdar.py:EfficientCDaR.efficient_return"]}
{"id": "C140", "title": "The level of the table of returns does not matter to the downside optimizers", "statement": "If the same amount c is added to every daily return and to the benchmark and e to every expected return, the data are still accepted and EfficientSemivariance and EfficientCVaR hand out portfolios that are best for the original data, with target returns raised by e and CVaR targets lowered by c (targets of market neutral portfolios stay as they are). min_semivariance, max_quadratic_utility, efficient_risk, min_cvar and efficient_return of EfficientCVaR succeed on both or on neither, efficient_risk of EfficientCVaR too as long as neither target is negative. For EfficientCDaR this holds for market neutral portfolios only: the drawdowns of a fully invested portfolio depend on the level, and a lower level can turn the choice round.", "quantifier": "for all labelled expected returns, tables with gaps, frequencies, benchmarks, confidence levels, bounds, amounts c and e, targets and exact solvers", "why_tests_cant": "Tests use one table of returns; the claim relates two whole runs for every table and amount, and that CDaR is the exception only shows in a pair of runs.", "anchors": ["pypfopt/efficient_frontier/efficient_semivariance.py:EfficientSemivariance.min_semivariance", "pypfopt/efficient_frontier/efficient_semivariance.py:EfficientSemivariance.max_quadratic_utility", "pypfopt/efficient_frontier/efficient_semivariance.py:EfficientSemivariance.efficient_risk", "pypfopt/efficient_frontier/efficient_semivariance.py:EfficientSemivariance.efficient_return", "pypfopt/efficient_frontier/efficient_cvar.py:EfficientCVaR.min_cvar", "pypfopt/efficient_frontier/efficient_cvar.py:EfficientCVaR.efficient_risk", "pypfopt/efficient_frontier/efficient_cvar.py:EfficientCVaR.efficient_return", "pypfopt/efficient_frontier/efficient_cdar.py:EfficientCDaR.min_cdar"]}
{"id": "C141", "title": "An asset listed twice does not change the portfolio", "statement": "With weights from 0 to 1, if an asset is listed a second time under another label, the data are accepted again and the optimizers hand out weights which, after the two are added up, are a best portfolio for the original list: min_volatility, max_sharpe, max_quadratic_utility, efficient_risk and efficient_return of EfficientFrontier, and all methods of EfficientSemivariance, EfficientCVaR and EfficientCDaR. The calls succeed on both lists or on neither, although the larger covariance matrix is singular (efficient_risk of EfficientFrontier and efficient_return of EfficientSemivariance apart). It is false of hierarchical risk parity, which gives the asset more the more often it is listed.", "quantifier": "for all labelled expected returns, covariance matrices, tables of returns with gaps, listed assets, targets, risk aversions, rates, confidence levels and exact solvers", "why_tests_cant": "The claim relates the best portfolios of two problems of different size for all data; tests use data sets without perfectly correlated assets.", "anchors": ["pypfopt/efficient_frontier/efficient_frontier.py:EfficientFrontier.min_volatility", "pypfopt/efficient_frontier/efficient_frontier.py:EfficientFrontier.max_sharpe", "pypfopt/efficient_frontier/efficient_frontier.py:EfficientFrontier.max_quadratic_utility", "pypfopt/efficient_frontier/efficient_frontier.py:EfficientFrontier.efficient_risk", "pypfopt/efficient_frontier/efficient_frontier.py:EfficientFrontier.efficient_return", "pypfopt/efficient_frontier/efficient_semivariance.py:EfficientSemivariance.min_semivariance", "pypfopt/efficient_frontier/efficient_semivariance.py:EfficientSemivariance.efficient_risk", "pypfopt/efficient_frontier/efficient_semivariance.py:EfficientSemivariance.efficient_return", "pypfopt/efficient_frontier/efficient_cvar.py:EfficientCVaR.min_cvar", "pypfopt/efficient_frontier/efficient_cvar.py:EfficientCVaR.efficient_risk", "pypfopt/efficient_frontier/efficient_cvar.py:EfficientCVaR.efficient_return", "pypfopt/efficient_frontier/efficient_cdar.py:EfficientCDaR.min_cdar", "pypfopt/efficient_frontier/efficient_cdar.py:EfficientCDaR.efficient_risk", "pypfopt/efficient_frontier/efficient_cdar.py:EfficientCDaR.efficient_return", "pypfopt/hierarchical_portfolio.py:HRPOpt._raw_hrp_allocation"]}
{"id": "C142", "title": "One more asset never makes the best portfolio worse", "statement": "With the same weight bounds for every asset and zero between them, if one more asset is added to the data, they are accepted again and the portfolio handed out is at least as good as the one without it: lower or equal volatility (min_volatility, efficient_return), higher or equal return (efficient_risk), utility or Sharpe ratio, and lower or equal semivariance, CVaR and CDaR, market neutral or not, provided the new asset has a return on every day. If the weight of the new asset is zero the rest is a best portfolio without it. If the call succeeds on the smaller data it succeeds on the larger (efficient_risk and market-neutral efficient_return of EfficientFrontier and efficient_return of EfficientSemivariance apart; max_sharpe when every allowed portfolio has positive variance). With missing days in the new asset it is false.", "quantifier": "for all labelled expected returns, covariance matrices, tables of returns, new assets, bounds around zero, targets, risk aversions, rates, confidence levels and exact solvers", "why_tests_cant": "The claim relates the best portfolios of two problems of different size for all data; tests run each optimizer on one data set.", "anchors": ["pypfopt/efficient_frontier/efficient_frontier.py:EfficientFrontier.min_volatility", "pypfopt/efficient_frontier/efficient_frontier.py:EfficientFrontier.max_sharpe", "pypfopt/efficient_frontier/efficient_frontier.py:EfficientFrontier.max_quadratic_utility", "pypfopt/efficient_frontier/efficient_frontier.py:EfficientFrontier.efficient_risk", "pypfopt/efficient_frontier/efficient_frontier.py:EfficientFrontier.efficient_return", "pypfopt/efficient_frontier/efficient_frontier.py:EfficientFrontier._validate_returns", "pypfopt/efficient_frontier/efficient_semivariance.py:EfficientSemivariance.min_semivariance", "pypfopt/efficient_frontier/efficient_semivariance.py:EfficientSemivariance.max_quadratic_utility", "pypfopt/efficient_frontier/efficient_semivariance.py:EfficientSemivariance.efficient_risk", "pypfopt/efficient_frontier/efficient_semivariance.py:EfficientSemivariance.efficient_return", "pypfopt/efficient_frontier/efficient_cvar.py:EfficientCVaR.min_cvar", "pypfopt/efficient_frontier/efficient_cvar.py:EfficientCVaR.efficient_risk", "pypfopt/efficient_frontier/efficient_cvar.py:EfficientCVaR.efficient_return", "pypfopt/efficient_frontier/efficient_cdar.py:EfficientCDaR.min_cdar", "pypfopt/efficient_frontier/efficient_cdar.py:EfficientCDaR.efficient_risk", "pypfopt/efficient_frontier/efficient_cdar.py:EfficientCDaR.efficient_return"]}
{"id": "C143", "title": "Wider weight bounds never make the best portfolio worse", "statement": "If the weight bounds are replaced by wider ones, in any accepted form, the portfolio handed out is at least as good as under the narrower: lower or equal volatility (min_volatility, efficient_return), higher or equal return (efficient_risk), utility or Sharpe ratio, and lower or equal semivariance, CVaR and CDaR. If it keeps the narrower bounds it is a best portfolio under them. If the call succeeds under the narrower bounds it succeeds under the wider when these are finite (efficient_return of EfficientSemivariance apart; max_sharpe when every allowed portfolio has positive variance). In market neutral calls this holds if both bounds forbid short positions or the narrower allow some; if only the narrower forbid them it is false.", "quantifier": "for all labelled expected returns, covariance matrices, tables of returns, pairs of bounds, targets, risk aversions, rates, confidence levels and exact solvers", "why_tests_cant": "The claim relates the best portfolios under any two bounds for all data; tests run each optimizer with a few fixed bounds.", "anchors": ["pypfopt/efficient_frontier/efficient_frontier.py:EfficientFrontier.min_volatility", "pypfopt/efficient_frontier/efficient_frontier.py:EfficientFrontier.max_sharpe", "pypfopt/efficient_frontier/efficient_frontier.py:EfficientFrontier.max_quadratic_utility", "pypfopt/efficient_frontier/efficient_frontier.py:EfficientFrontier.efficient_risk", "pypfopt/efficient_frontier/efficient_frontier.py:EfficientFrontier.efficient_return", "pypfopt/efficient_frontier/efficient_frontier.py:EfficientFrontier._make_weight_sum_constraint", "pypfopt/base_optimizer.py:BaseConvexOptimizer._map_bounds_to_constraints", "pypfopt/efficient_frontier/efficient_semivariance.py:EfficientSemivariance.min_semivariance", "pypfopt/efficient_frontier/efficient_semivariance.py:EfficientSemivariance.max_quadratic_utility", "pypfopt/efficient_frontier/efficient_semivariance.py:EfficientSemivariance.efficient_risk", "pypfopt/efficient_frontier/efficient_semivariance.py:EfficientSemivariance.efficient_return", "pypfopt/efficient_frontier/efficient_cvar.py:EfficientCVaR.min_cvar", "pypfopt/efficient_frontier/efficient_cvar.py:EfficientCVaR.efficient_risk", "pypfopt/efficient_frontier/efficient_cvar.py:EfficientCVaR.efficient_return", "pypfopt/efficient_frontier/efficient_cdar.py:EfficientCDaR.min_cdar", "pypfopt/efficient_frontier/efficient_cdar.py:EfficientCDaR.efficient_risk", "pypfopt/efficient_frontier/efficient_cdar.py:EfficientCDaR.efficient_return"]}
{"id": "C144", "title": "Averages of best portfolios are best", "statement": "If two exact solvers hand out two portfolios for the same call on the same optimizer, the two are equally good and every weighted average of them is a best portfolio too: it keeps the bounds (also those put in force by market neutrality), the sum of the weights and the target, and no allowed portfolio is better. This holds for min_volatility, max_sharpe, max_quadratic_utility, efficient_risk and efficient_return with a positive semidefinite covariance matrix, and for all methods of the semivariance, CVaR and CDaR optimizers.", "quantifier": "for all labelled expected returns, positive semidefinite covariance matrices, tables of returns, bounds, targets, risk aversions, rates, confidence levels, pairs of exact solvers and weights of the average", "why_tests_cant": "The claim is about all best portfolios of a problem, of which a test sees the one its solver happens to return.", "anchors": ["pypfopt/efficient_frontier/efficient_frontier.py:EfficientFrontier.min_volatility", "pypfopt/efficient_frontier/efficient_frontier.py:EfficientFrontier.max_sharpe", "pypfopt/efficient_frontier/efficient_frontier.py:EfficientFrontier.max_quadratic_utility", "pypfopt/efficient_frontier/efficient_frontier.py:EfficientFrontier.efficient_risk", "pypfopt/efficient_frontier/efficient_frontier.py:EfficientFrontier.efficient_return", "pypfopt/efficient_frontier/efficient_semivariance.py:EfficientSemivariance.min_semivariance", "pypfopt/efficient_frontier/efficient_semivariance.py:EfficientSemivariance.max_quadratic_utility", "pypfopt/efficient_frontier/efficient_semivariance.py:EfficientSemivariance.efficient_risk", "pypfopt/efficient_frontier/efficient_semivariance.py:EfficientSemivariance.efficient_return", "pypfopt/efficient_frontier/efficient_cvar.py:EfficientCVaR.min_cvar", "pypfopt/efficient_frontier/efficient_cvar.py:EfficientCVaR.efficient_risk", "pypfopt/efficient_frontier/efficient_cvar.py:EfficientCVaR.efficient_return", "pypfopt/efficient_frontier/efficient_cdar.py:EfficientCDaR.min_cdar", "pypfopt/efficient_frontier/efficient_cdar.py:EfficientCDaR.efficient_risk", "pypfopt/efficient_frontier/efficient_cdar.py:EfficientCDaR.efficient_return"]}
{"id": "C145", "title": "Bounds that do not bind do not matter", "statement": "If a best portfolio reaches none of the weight bounds that are to be changed, then with these bounds widened or removed it is still a best portfolio, and what the wider call hands out is equally good. This holds for min_volatility, max_sharpe, max_quadratic_utility, efficient_risk and efficient_return with a positive semidefinite covariance matrix, and for all methods of the semivariance, CVaR and CDaR optimizers, market neutral or not (if not only the narrower bounds forbid short positions).", "quantifier": "for all labelled expected returns, positive semidefinite covariance matrices, tables of returns, pairs of bounds, targets, risk aversions, rates, confidence levels and exact solvers", "why_tests_cant": "The claim compares a portfolio with all portfolios allowed by any wider bounds; tests look at single bounds and single data sets.", "anchors": ["pypfopt/efficient_frontier/efficient_frontier.py:EfficientFrontier.min_volatility", "pypfopt/efficient_frontier/efficient_frontier.py:EfficientFrontier.max_sharpe", "pypfopt/efficient_frontier/efficient_frontier.py:EfficientFrontier.max_quadratic_utility", "pypfopt/efficient_frontier/efficient_frontier.py:EfficientFrontier.efficient_risk", "pypfopt/efficient_frontier/efficient_frontier.py:EfficientFrontier.efficient_return", "pypfopt/base_optimizer.py:BaseConvexOptimizer._map_bounds_to_constraints", "pypfopt/efficient_frontier/efficient_semivariance.py:EfficientSemivariance.min_semivariance", "pypfopt/efficient_frontier/efficient_semivariance.py:EfficientSemivariance.max_quadratic_utility", "pypfopt/efficient_frontier/efficient_semivariance.py:EfficientSemivariance.efficient_risk", "pypfopt/efficient_frontier/efficient_semivariance.py:EfficientSemivariance.efficient_return", "pypfopt/efficient_frontier/efficient_cvar.py:EfficientCVaR.min_cvar", "pypfopt/efficient_frontier/efficient_cvar.py:EfficientCVaR.efficient_risk", "pypfopt/efficient_frontier/efficient_cvar.py:EfficientCVaR.efficient_return", "pypfopt/efficient_frontier/efficient_cdar.py:EfficientCDaR.min_cdar", "pypfopt/efficient_frontier/efficient_cdar.py:EfficientCDaR.efficient_risk", "pypfopt/efficient_frontier/efficient_cdar.py:EfficientCDaR.efficient_return"]}
