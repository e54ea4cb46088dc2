{"id": "C01", "title": "Day-of-year profile index depends only on month and day", "statement": "For every timestep the `dayofyear_index` exposed by `Timestep` (the index used by every 366-value daily profile) is the 0-based position of the calendar day (month, day) in a leap year: it lies in 0..365, is the same for the same month/day in every year, differs for different month/days, and 29 February is the only day that uses index 59. The leap-year test used for it agrees with the Gregorian rule.", "quantifier": "every year and every valid calendar date in it", "why_tests_cant": "There are unboundedly many years and 366 dates; a test samples a few of them and typically misses century years.", "anchors": ["pywr/_core.pyx: is_leap_year, Timestep.__init__"]}
{"id": "C02", "title": "Week index is a 52-week partition of the year", "statement": "`Timestep.week_index` lies in 0..51, is non-decreasing through a calendar year, is constant on blocks of seven consecutive profile days, and the last block (51) absorbs the remaining days, so a 52-value weekly profile is always indexable.", "quantifier": "every valid calendar date", "why_tests_cant": "A test samples some dates only; the range claim is needed for all of them because the index is used without bounds checks.", "anchors": ["pywr/_core.pyx: Timestep.__init__", "pywr/parameters/_parameters.pyx: WeeklyProfileParameter"]}
{"id": "C03", "title": "The timestepper yields every period exactly once", "statement": "Iterating a `Timestepper` that has been reset yields timesteps whose start dates are start, start+delta, start+2*delta, ... up to the last one not after end, with indices 0,1,2,..., each exactly once and in order, len(timestepper) of them; every later call to next() raises StopIteration and does not restart.", "quantifier": "every start, end, step length and number of next() calls", "why_tests_cant": "The number of timesteps and of further calls is unbounded.", "anchors": ["pywr/timestepper.py: Timestepper.setup, Timestepper.reset, Timestepper.__next__, Timestepper.__len__"]}
{"id": "C04", "title": "Timestepper.reset(start) resumes at the requested date or refuses", "statement": "`reset(start=d)` either raises ValueError or positions the timestepper so that the next timestep yielded is the one whose period contains d; the timesteps yielded afterwards are exactly the tail of the sequence a full run would yield, with the same indices; a date that lies in none of the run's periods is refused.", "quantifier": "every start, end, step length and requested date", "why_tests_cant": "Ranges over all relative positions of the date in a multi-day period.", "anchors": ["pywr/timestepper.py: Timestepper.reset"]}
{"id": "C05", "title": "Default scenario combinations are the cartesian product", "statement": "With no user-defined combinations, the combinations simulated are exactly the tuples with one ensemble member per scenario (restricted to the scenario's slice), each exactly once, in lexicographic order; their global ids are 0,1,2,... without gaps, and the number of them is the product of the (sliced) sizes.", "quantifier": "every list of scenarios, sizes and slices", "why_tests_cant": "The product is over arbitrary many scenarios of arbitrary size.", "anchors": ["pywr/_core.pyx: ScenarioCollection.get_combinations, Scenario.__init__"]}
{"id": "C06", "title": "Accepted user combinations are always valid ensemble indices", "statement": "If assigning `scenarios.user_combinations` succeeds then every combination simulated has one index per scenario and each index is a valid ensemble member of that scenario; invalid shapes, negative or too-large indices are refused with an error and leave the previous combinations in force; combinations are simulated in the order given with ids 0,1,....", "quantifier": "every set of scenarios and every candidate array", "why_tests_cant": "Validation must be right for every array; scenario-indexed parameters index arrays with these numbers without bounds checks.", "anchors": ["pywr/_core.pyx: ScenarioCollection.user_combinations, ScenarioCollection.get_combinations"]}
{"id": "C07", "title": "ravel_indices identifies a combination", "statement": "`scenarios.ravel_indices` maps each simulated combination to its global id, so results can be looked up by it.", "quantifier": "every list of scenarios, slices and every simulated combination", "why_tests_cant": "Holds for small unsliced examples; whether it holds for all slices can't be sampled.", "anchors": ["pywr/_core.pyx: ScenarioCollection.ravel_indices, ScenarioCollection.get_combinations"]}
{"id": "C08", "title": "Components are updated after everything they depend on", "statement": "In the order in which a model calls before()/calc_values()/after() on its components each component appears exactly once and after every component it was declared to depend on (its children, transitively).", "quantifier": "every component dependency graph and every insertion order", "why_tests_cant": "There are unboundedly many dependency graphs.", "anchors": ["pywr/_model.pyx: Model.flatten_component_tree", "pywr/_component.pyx: Component"]}
{"id": "C09", "title": "Circular component dependencies are always refused", "statement": "Setting up a model raises ModelStructureError if and only if the declared component dependencies contain a cycle (a self-dependency included); an acyclic model is never refused for this reason.", "quantifier": "every component dependency graph", "why_tests_cant": "Requires reasoning about cycles of every length.", "anchors": ["pywr/_model.pyx: Model.flatten_component_tree"]}
{"id": "C10", "title": "A parameter reads up-to-date values of the parameters given to its constructor", "statement": "When a parameter is given other parameters as constructor arguments (thresholds, control curves, factors, aggregated parameters), those are declared as its dependencies, so during a timestep it reads the values computed in that same timestep.", "quantifier": "every parameter class and every way of supplying another parameter to it", "why_tests_cant": "A stale read only shows for particular insertion orders and value histories.", "anchors": ["pywr/parameters/_thresholds.pyx: MultipleThresholdIndexParameter, MultipleThresholdParameterIndexParameter", "pywr/_component.pyx: GraphInterface.add", "pywr/_model.pyx: Model.flatten_component_tree"]}
{"id": "C11", "title": "Route enumeration is sound, complete and duplicate-free", "statement": "`find_all_routes` returns exactly the simple directed paths that start at a node of the first type, end at a node of the second type, whose intermediate nodes are of the valid types, respecting the domain rule and maximum length; each appears once, and the order depends only on the node names.", "quantifier": "every node graph and every choice of types, domain rule and length limit", "why_tests_cant": "The number of graphs and paths is unbounded.", "anchors": ["pywr/_model.pyx: Model.find_all_routes"]}
{"id": "C12", "title": "Flow is conserved in every solved timestep", "statement": "After a timestep is solved, in a model without cross-domain connections, the flow committed to all input-type nodes equals the flow committed to all output-type nodes, and for each link the flow that enters it equals the flow that leaves it and equals its committed flow.", "quantifier": "every network, every solution returned by the LP solver for the posed problem, every scenario", "why_tests_cant": "Ranges over all networks and all solver answers.", "anchors": ["pywr/solvers/cython_glpk.pyx: CythonGLPKSolver.setup, CythonGLPKSolver._solve_scenario, CythonGLPKEdgeSolver.setup, CythonGLPKEdgeSolver._solve_scenario"]}
{"id": "C13", "title": "Committed node flows respect min_flow and max_flow", "statement": "If a timestep is solved without an exception, the flow committed to each input, output and link node is non-negative, at least its min_flow and at most its max_flow for that timestep and scenario (up to the documented 1e-8 rounding of bounds).", "quantifier": "every network, bounds, scenario and every feasible LP answer", "why_tests_cant": "Ranges over all networks and solver answers.", "anchors": ["pywr/solvers/cython_glpk.pyx: CythonGLPKSolver._solve_scenario, constraint_type"]}
{"id": "C14", "title": "Storage volume stays within its bounds over a whole simulation", "statement": "If a storage starts with a volume between min_volume and max_volume (both constant), then after any number of successfully solved timesteps of any lengths its volume still lies between min_volume and max_volume (up to the bound-rounding tolerance).", "quantifier": "every network, every sequence of timestep lengths, inflows and LP answers", "why_tests_cant": "An invariant over unboundedly long histories.", "anchors": ["pywr/_core.pyx: Storage.after", "pywr/solvers/cython_glpk.pyx: CythonGLPKSolver._solve_scenario"]}
{"id": "C15", "title": "Storage water accounting", "statement": "Over any run the volume of a storage node equals its initial volume plus the accumulated (flow * timestep days), up to the 1e-6 snapping to its bounds at each step; outside the snapping zones the change in one timestep is exactly flow*days.", "quantifier": "every initial volume, bounds, and sequence of flows and timestep lengths", "why_tests_cant": "An accumulated identity over unboundedly long histories.", "anchors": ["pywr/_core.pyx: Storage.after, Storage.commit"]}
{"id": "C16", "title": "Storage flow is net inflow over its slots", "statement": "After a solved timestep the flow of a storage node equals the total flow of its output slots minus the total flow of its input slots, including water that is routed from a storage straight back into itself, and the flow the LP constrained against the storage bounds is that same number.", "quantifier": "every network, number of slots, and LP answer", "why_tests_cant": "Ranges over all networks, including self-loops through other nodes.", "anchors": ["pywr/_core.pyx: StorageInput.commit, StorageOutput.commit", "pywr/solvers/cython_glpk.pyx: CythonGLPKSolver.setup"]}
{"id": "C17", "title": "The LP minimises the sum of node cost times node flow", "statement": "The objective value of the LP solved in each timestep equals the sum over all nodes of the node's cost times the flow that would be committed to it, so the allocation chosen is the cheapest feasible one in terms of the costs the user gave; costs within 1e-8 of zero count as zero.", "quantifier": "every network, cost assignment and feasible flow vector", "why_tests_cant": "An identity over all networks and flow vectors.", "anchors": ["pywr/solvers/cython_glpk.pyx: CythonGLPKSolver.setup, CythonGLPKSolver._solve_scenario, CythonGLPKEdgeSolver._solve_scenario", "pywr/_core.pyx: StorageInput.get_cost, StorageOutput.get_cost"]}
{"id": "C18", "title": "Aggregated node factors fix flow ratios", "statement": "If an aggregated node has factors f0..fn (non-zero) then after every solved timestep the flows of its members are in that ratio: flow_0 * f_i = flow_i * f_0 for every i.", "quantifier": "every network, factor list, and feasible LP answer", "why_tests_cant": "Ranges over all networks and answers.", "anchors": ["pywr/_core.pyx: AggregatedNode.get_factors_norm", "pywr/solvers/cython_glpk.pyx: CythonGLPKSolver.setup"]}
{"id": "C19", "title": "Aggregated node min/max flow is honoured", "statement": "After every solved timestep the flow reported by an aggregated node (the weighted sum of its members' flows) is between the aggregated node's min_flow and max_flow.", "quantifier": "every network, weights, bounds and feasible LP answer", "why_tests_cant": "Fails only for particular topologies, so examples cannot settle it.", "anchors": ["pywr/_core.pyx: AggregatedNode.after", "pywr/solvers/cython_glpk.pyx: CythonGLPKSolver.setup"]}
{"id": "C20", "title": "Cross-domain conversion", "statement": "When an output in one domain is connected to inputs in another, after every solved timestep the flow into the output equals the sum of the supplied inputs' flows divided by their conversion factors.", "quantifier": "every network, conversion factor and feasible LP answer", "why_tests_cant": "Ranges over all networks and answers.", "anchors": ["pywr/solvers/cython_glpk.pyx: CythonGLPKSolver.setup", "pywr/_core.pyx: BaseInput.get_conversion_factor"]}
{"id": "C21", "title": "Virtual storage accounts for its nodes' flows and is never overdrawn", "statement": "While a virtual storage is active its volume falls in each timestep by days * sum(factor * node flow) exactly (up to snapping), and if it starts within its bounds no sequence of solved timesteps takes it below min_volume or above max_volume.", "quantifier": "every network, node list, factors and solution sequence", "why_tests_cant": "An invariant over unboundedly long histories and all networks, including nodes sharing routes or listed twice.", "anchors": ["pywr/_core.pyx: VirtualStorage.after", "pywr/solvers/cython_glpk.pyx: CythonGLPKSolver.setup, CythonGLPKSolver._solve_scenario"]}
{"id": "C22", "title": "Rolling licence caps every window", "statement": "With a RollingVirtualStorage of N timesteps with constant max_volume and zero min_volume, the (factored) volume used in any N consecutive timesteps of a run never exceeds max_volume, provided the store stays active.", "quantifier": "every N, every usage history and every window of it", "why_tests_cant": "Windows of unbounded length in unboundedly long histories.", "anchors": ["pywr/_core.pyx: RollingVirtualStorage.after, RollingVirtualStorage.reset, RollingVirtualStorage._reset_storage_only"]}
{"id": "C23", "title": "Annual licence resets exactly once a year", "statement": "An AnnualVirtualStorage is reset once in each calendar year of a run, in the first timestep that starts on or after the reset date of that year, and at no other time.", "quantifier": "every reset date, start date, timestep length and run length", "why_tests_cant": "The interplay of multi-day timesteps and reset dates near the year end can't be sampled exhaustively.", "anchors": ["pywr/nodes.py: AnnualVirtualStorage.before, AnnualVirtualStorage.reset"]}
{"id": "C24", "title": "Monthly licence resets every `months` months", "statement": "A MonthlyVirtualStorage with a reset period of k months is reset in the first timestep of every k-th month, after an initial period of k - initial_months months; between two resets exactly k month changes are seen.", "quantifier": "every k, initial_months, timestep length and run length", "why_tests_cant": "Ranges over all periods and histories.", "anchors": ["pywr/nodes.py: MonthlyVirtualStorage.before, MonthlyVirtualStorage.reset"]}
{"id": "C25", "title": "Seasonal licence is enforced exactly inside the season", "statement": "A SeasonalVirtualStorage constrains its nodes in every timestep from the reset date to the end date of each year and in no other timestep, and a second run of the same model behaves as the first.", "quantifier": "every season, start date and run length, and every number of repeated runs", "why_tests_cant": "Ranges over histories of several runs.", "anchors": ["pywr/nodes.py: SeasonalVirtualStorage.before, SeasonalVirtualStorage.reset"]}
{"id": "C26", "title": "LossLink loses the stated proportion", "statement": "After every solved timestep a LossLink with loss factor v of type `net` sends v times its net output to the loss output, and of type `gross` sends v times its gross inflow to the loss; with factor zero nothing is lost; the gross inflow equals net plus loss.", "quantifier": "every loss factor in [0,1] / non-negative, every network and LP answer", "why_tests_cant": "Ranges over all factors and flows.", "anchors": ["pywr/nodes.py: LossLink.__init__, LossLink.setup"]}
{"id": "C27", "title": "PiecewiseLink reports the flow and limits of its steps", "statement": "The flow, min_flow and max_flow of a PiecewiseLink are the sums over its steps; its flow after a timestep and its previous flow in the next timestep both equal the sum of the steps' flows.", "quantifier": "every number of steps and flow history", "why_tests_cant": "Histories of any length.", "anchors": ["pywr/nodes.py: PiecewiseLink.after, PiecewiseLink.get_min_flow, PiecewiseLink.get_max_flow"]}
{"id": "C28", "title": "PiecewiseLink uses its steps in order of cost", "statement": "If the step costs are strictly increasing then in every optimal solution a step carries flow only when every cheaper step is at its maximum.", "quantifier": "every number of steps, costs, limits and optimal LP answer", "why_tests_cant": "Ranges over all optimal answers of the LP.", "anchors": ["pywr/nodes.py: PiecewiseLink.__init__", "pywr/solvers/cython_glpk.pyx: CythonGLPKSolver._solve_scenario"]}
{"id": "C29", "title": "The route-based and the edge-based solvers pose equivalent problems", "statement": "For an acyclic single-domain network the two GLPK solvers allow the same committed node flows at the same objective: every feasible route flow gives a feasible edge flow with the same node flows and cost, and vice versa.", "quantifier": "every acyclic network, bounds and costs", "why_tests_cant": "Equivalence over all networks and flows.", "anchors": ["pywr/solvers/cython_glpk.pyx: CythonGLPKSolver, CythonGLPKEdgeSolver"]}
{"id": "C30", "title": "`set_fixed_flows_once`, `set_fixed_costs_once` and `set_fixed_factors_once` do not change results", "statement": "For models whose node bounds, costs and factors of the marked nodes are constants, the LP posed in every timestep and scenario is the same whether or not these solver options are used.", "quantifier": "every network, mixture of fixed and variable nodes, number of timesteps and scenarios", "why_tests_cant": "Must hold for every history of LP updates.", "anchors": ["pywr/solvers/cython_glpk.pyx: CythonGLPKSolver.reset, CythonGLPKSolver._solve_scenario"]}
{"id": "C31", "title": "Zero flow is always allowed when nothing is forced", "statement": "If every node's min_flow is zero (max_flow non-negative) and every storage is within its bounds, the LP posed in that timestep has a solution, so the run cannot stop with an infeasibility error.", "quantifier": "every network and every state reachable in such a run", "why_tests_cant": "Feasibility for every network and state.", "anchors": ["pywr/solvers/cython_glpk.pyx: CythonGLPKSolver._solve_scenario"]}
{"id": "C32", "title": "prev_flow is the previous timestep's flow", "statement": "During timestep t > 0 every node's `prev_flow` (used by flow parameters, thresholds, licences and delays) equals the flow it reported at the end of timestep t-1, and 0 in the first timestep.", "quantifier": "every node type and flow history", "why_tests_cant": "A two-step temporal property for all node kinds.", "anchors": ["pywr/_core.pyx: AbstractNode.after, AggregatedNode.after, Storage.after", "pywr/nodes.py: PiecewiseLink.after, BreakLink.after, DelayNode.after, LossLink.after"]}
{"id": "C33", "title": "Re-running a model reproduces the results", "statement": "Running the same model object again without changing it (run(); run()) produces the same flows, volumes and licence states in every timestep, i.e. reset() restores every piece of state that influences a run.", "quantifier": "every component kind and every history of the first run", "why_tests_cant": "Depends on the state left by arbitrary previous runs.", "anchors": ["pywr/_model.pyx: Model.run, Model.reset", "pywr/_core.pyx: Storage.reset, RollingVirtualStorage.reset", "pywr/nodes.py: SeasonalVirtualStorage, AnnualVirtualStorage", "pywr/parameters/licenses.py: AnnualLicense"]}
{"id": "C34", "title": "Storage percentage is a proportion", "statement": "`get_current_pc` (what control curves compare with) is always between 0 and 1, also for zero or undefined max_volume, and equals volume/max_volume whenever that ratio is within [0,1].", "quantifier": "every volume and max_volume", "why_tests_cant": "All reals including degenerate ones.", "anchors": ["pywr/_core.pyx: AbstractStorage.get_current_pc, Storage.after"]}
{"id": "C35", "title": "Initial volume rules", "statement": "With a constant max volume the starting volume is initial_volume_pc times max volume when the percentage is given (an absolute value given as well is ignored), otherwise the given initial_volume; with neither, set-up fails; the starting percentage is then volume over max volume. With a max volume that is a parameter both values must be given (otherwise set-up fails) and the starting volume and percentage are the given ones, which should agree with each other.", "quantifier": "every combination of settings", "why_tests_cant": "All real values and combinations.", "anchors": ["pywr/_core.pyx: Storage.get_initial_volume, Storage.get_initial_pc, Storage._reset_storage_only"]}
{"id": "C36", "title": "Aggregated storage is the sum of its members", "statement": "At the end of every timestep the volume and flow of an AggregatedStorage are the sums of its members' volumes and flows.", "quantifier": "every list of member storages and every history", "why_tests_cant": "Histories of any length with member resets and clamps.", "anchors": ["pywr/_core.pyx: AggregatedStorage.after, AggregatedStorage.reset"]}
{"id": "C37", "title": "Delayed flow is the flow n timesteps ago", "statement": "A FlowDelayParameter with n timesteps returns in timestep t the flow of its node in timestep t-n for t >= n and the initial flow before; a second run behaves the same.", "quantifier": "every n >= 1, t and flow history", "why_tests_cant": "Circular buffer correctness for all sizes and histories.", "anchors": ["pywr/parameters/_parameters.pyx: FlowDelayParameter"]}
{"id": "C38", "title": "Rolling mean flow is the mean of the last flows", "statement": "RollingMeanFlowNodeParameter with N timesteps returns the mean of the node's flows in the last min(t,N) timesteps and the initial flow in the first timestep.", "quantifier": "every N, t and flow history", "why_tests_cant": "Circular buffer correctness for all sizes and histories.", "anchors": ["pywr/parameters/_parameters.pyx: RollingMeanFlowNodeParameter"]}
{"id": "C39", "title": "Aggregated parameters compute the named aggregate", "statement": "AggregatedParameter and AggregatedIndexParameter return, per scenario, the sum, product, minimum, maximum, mean or median (and any/all for indices) of their members' current values, independent of the order of the members.", "quantifier": "every list of members and values", "why_tests_cant": "Lists of any length.", "anchors": ["pywr/parameters/_parameters.pyx: AggregatedParameter.calc_values, AggregatedIndexParameter.calc_values"]}
{"id": "C40", "title": "Control curve index is the band of the current storage", "statement": "ControlCurveIndexParameter returns the number of leading curves that lie strictly above the current percentage: it returns i iff the storage is below curves 0..i-1 and at or above curve i (or below all of them, for the last index); with non-increasing curves it is non-increasing in storage; ControlCurveParameter returns the value attached to that same band.", "quantifier": "every list of curves, values and storage level", "why_tests_cant": "Lists of any length and all reals.", "anchors": ["pywr/parameters/_control_curves.pyx: ControlCurveIndexParameter.index, ControlCurveParameter.value"]}
{"id": "C41", "title": "Control curve interpolation stays between, and passes through, its values", "statement": "With strictly decreasing control curves inside (0,1), ControlCurveInterpolatedParameter returns exactly the given values at full, at each curve and at empty, always returns a value between the two values of the band containing the storage level, and is monotone in storage if the values are.", "quantifier": "every list of curves, values and storage level", "why_tests_cant": "All reals and list lengths.", "anchors": ["pywr/parameters/_control_curves.pyx: _interpolate, ControlCurveInterpolatedParameter.value, ControlCurvePiecewiseInterpolatedParameter.value"]}
{"id": "C42", "title": "Piecewise integral parameter is the integral", "statement": "PiecewiseIntegralParameter returns the integral of the step function defined by x and y from 0 to the current value of its parameter; it is 0 at 0, continuous, and non-decreasing when y is non-negative.", "quantifier": "every x, y and current value", "why_tests_cant": "All reals and list lengths.", "anchors": ["pywr/parameters/_parameters.pyx: PiecewiseIntegralParameter.value"]}
{"id": "C43", "title": "Uniform drawdown profile falls linearly from 1 to the residual over the year", "statement": "UniformDrawdownProfileParameter equals 1 on the reset day and decreases by the same amount each day so that, one day before the next reset, it is one daily step above the residual value; in particular it never falls below the residual in either leap or non-leap years.", "quantifier": "every reset date, residual days and calendar date", "why_tests_cant": "All dates and leap/non-leap years.", "anchors": ["pywr/parameters/_parameters.pyx: UniformDrawdownProfileParameter.value"]}
{"id": "C44", "title": "Interpolated monthly profile stays within neighbouring months", "statement": "With interp_day `first` the interpolated monthly profile equals the month's value on the first day and `last` on the last day, and on every other day lies between the values of the two months it interpolates, for every month of leap and non-leap years.", "quantifier": "every 12 monthly values and every date", "why_tests_cant": "All real values and all dates.", "anchors": ["pywr/parameters/_parameters.pyx: MonthlyProfileParameter"]}
{"id": "C45", "title": "An annual licence is never exceeded", "statement": "If in each timestep a node takes no more than its AnnualLicense allows, the total volume taken in a calendar year covered from its first day never exceeds the annual amount, and unused licence is never carried over to the next year.", "quantifier": "every amount, flow history, timestep length and number of years", "why_tests_cant": "Histories of any length.", "anchors": ["pywr/parameters/licenses.py: StorageLicense, AnnualLicense"]}
{"id": "C46", "title": "A timestep licence and an annual-type licence amount never become negative", "statement": "The remaining amount of a storage licence is always between 0 and the licensed amount, so the maximum flow it offers is never negative, whatever the flows in the run are.", "quantifier": "every amount and flow history", "why_tests_cant": "Histories of any length including partial first years.", "anchors": ["pywr/parameters/licenses.py: StorageLicense.after, AnnualLicense.before, AnnualLicense.value"]}
{"id": "C47", "title": "Threshold parameters and ratchets", "statement": "A threshold parameter's index is 1 exactly when its predicate holds for the current values; with ratchet=True once it has been 1 in a scenario it stays 1 in that scenario until the model is reset, and scenarios do not affect each other.", "quantifier": "every predicate, value history and scenario", "why_tests_cant": "Histories of any length.", "anchors": ["pywr/parameters/_thresholds.pyx: AbstractThresholdParameter"]}
{"id": "C48", "title": "Multiple-threshold index is the first threshold reached", "statement": "MultipleThresholdIndexParameter returns the smallest i with current flow >= threshold i, or the number of thresholds if there is none; with decreasing thresholds this is the number of thresholds above the flow.", "quantifier": "every threshold list and flow", "why_tests_cant": "Lists of any length.", "anchors": ["pywr/parameters/_thresholds.pyx: MultipleThresholdIndexParameter.index"]}
{"id": "C49", "title": "Hydropower target inverts the hydropower equation", "statement": "For positive head, efficiency, density and conversions, the flow returned by the inverse hydropower calculation produces exactly the target power in the forward calculation; the HydropowerTargetParameter result respects max_flow, min_flow and the minimum head rule.", "quantifier": "every head, efficiency, target and conversion factor", "why_tests_cant": "All reals.", "anchors": ["pywr/recorders/_hydropower.pyx: hydropower_calculation", "pywr/parameters/_hydropower.pyx: inverse_hydropower_calculation, HydropowerTargetParameter.value"]}
{"id": "C50", "title": "Keating stream flow", "statement": "The Keating aquifer stream flow is zero at or below the lowest stream level, non-negative, non-decreasing and continuous (Lipschitz) in the groundwater level for non-negative transmissivity and coefficient.", "quantifier": "every level list, transmissivity and groundwater level", "why_tests_cant": "All reals and list lengths.", "anchors": ["pywr/parameters/groundwater.py: KeatingStreamFlowParameter.value"]}
{"id": "C51", "title": "Total and mean node recorders", "statement": "After a run of n timesteps TotalFlowNodeRecorder holds factor * sum(flow*days), TotalDeficitNodeRecorder the accumulated shortfall below max_flow times days, MeanFlowNodeRecorder the arithmetic mean of factor*flow over the n timesteps, DeficitFrequencyNodeRecorder the fraction of timesteps with a shortfall, for each scenario separately.", "quantifier": "every flow history, run length and number of scenarios", "why_tests_cant": "Histories of any length.", "anchors": ["pywr/recorders/_recorders.pyx: TotalFlowNodeRecorder, TotalDeficitNodeRecorder, MeanFlowNodeRecorder, DeficitFrequencyNodeRecorder"]}
{"id": "C52", "title": "Supply ratios and curtailment ratios are complementary proportions", "statement": "For every timestep the recorded supplied ratio and curtailment ratio add up to one, and each lies in [0,1] if the node's flow is within [0,max_flow].", "quantifier": "every flow and max_flow including zero", "why_tests_cant": "All reals including degenerate ones.", "anchors": ["pywr/recorders/_recorders.pyx: NumpyArrayNodeSuppliedRatioRecorder, NumpyArrayNodeCurtailmentRatioRecorder"]}
{"id": "C53", "title": "Annual totals lose no water", "statement": "AnnualTotalFlowRecorder assigns every timestep's volume to calendar years, splitting a timestep that crosses a year end by days; the sum over years equals the total volume of the run (when the run ends within the recorded years), and each year's entry counts precisely the days in that year.", "quantifier": "every sequence of timesteps and flows", "why_tests_cant": "Histories of any length and all positions of the year end in a timestep.", "anchors": ["pywr/recorders/_recorders.pyx: AnnualTotalFlowRecorder", "pywr/_core.pyx: Timestep.days_in_current_year, Timestep.days_in_next_year"]}
{"id": "C54", "title": "Recorded events are exactly the maximal triggered periods", "statement": "EventRecorder reports, per scenario, exactly the maximal runs of consecutive triggered timesteps, in order and without overlap.", "quantifier": "every trigger history, run length and number of scenarios", "why_tests_cant": "Histories of any length.", "anchors": ["pywr/recorders/events.py: EventRecorder.after, EventRecorder.finish"]}
{"id": "C55", "title": "Short events are dropped", "statement": "With minimum_event_length = m every reported event lasts at least m timesteps and every maximal triggered period of at least m timesteps is reported.", "quantifier": "every m and trigger history", "why_tests_cant": "Histories of any length including events that are open at the end.", "anchors": ["pywr/recorders/events.py: EventRecorder.after, EventRecorder.finish"]}
{"id": "C56", "title": "Rolling window recorders see exactly the window", "statement": "RollingWindowParameterRecorder stores in timestep t the aggregate of the parameter's values of the last min(t+1, window) timesteps; RollingMeanFlowNodeRecorder the mean of the last min(t+1,window) flows.", "quantifier": "every window, run length and value history", "why_tests_cant": "Circular buffer correctness for all sizes.", "anchors": ["pywr/recorders/_recorders.pyx: RollingWindowParameterRecorder, RollingMeanFlowNodeRecorder"]}
{"id": "C57", "title": "Bisection search finds the feasible boundary", "statement": "BisectionSearchModel.run stops after finitely many runs and, if feasibility is monotone in the parameter, returns a feasible value that is within epsilon of the largest feasible value in the search range; if no tested value is feasible it raises an error or falls back as documented.", "quantifier": "every parameter range, epsilon and monotone feasibility condition", "why_tests_cant": "All ranges and thresholds, and termination.", "anchors": ["pywr/utils/bisect.py: BisectionSearchModel.run"]}
{"id": "C58", "title": "Recorder constraint bounds", "statement": "For a recorder used as constraint, is_constraint_violated is true exactly when its aggregated value lies outside the bounds the user set; lower, upper, double-bounded and equality classification of the bounds is consistent and exclusive.", "quantifier": "every sequence of bound assignments and values", "why_tests_cant": "All assignment sequences.", "anchors": ["pywr/recorders/_recorders.pyx: Recorder.constraint_lower_bounds, Recorder.constraint_upper_bounds, Recorder.is_constraint_violated", "pywr/optimisation/platypus.py: PlatypusWrapper._make_constraints"]}
{"id": "C59", "title": "Component and node names are unique", "statement": "After any sequence of creating, renaming and deleting nodes, parameters and recorders no two live components of one kind in a model have the same name, and looking a name up returns the component bearing it.", "quantifier": "every sequence of create, rename and delete operations", "why_tests_cant": "All operation sequences.", "anchors": ["pywr/_component.pyx: Component.name", "pywr/_model.pyx: NamedIterator, NodeIterator", "pywr/nodes.py: Node"]}
{"id": "C60", "title": "Loading resolves each named parameter once and refuses cycles", "statement": "When a model document is loaded every parameter referenced by name is constructed exactly once and all references to that name give the same object; a circular reference or an undefined name fails with an error rather than looping.", "quantifier": "every set of parameter definitions and references", "why_tests_cant": "All reference graphs.", "anchors": ["pywr/parameters/_parameters.pyx: load_parameter", "pywr/_model.pyx: Model.load_from_dict"]}
{"id": "C61", "title": "Models in a MultiModel advance in lock-step", "statement": "In MultiModel.run all sub-models take the same number of timesteps, at the same dates, in the declared order within each timestep, and every sub-model that was started is finished.", "quantifier": "every number of models and timesteps", "why_tests_cant": "Unbounded number of models and timesteps.", "anchors": ["pywr/model.py: MultiModel.run, MultiModel._step"]}
{"id": "C62", "title": "MultiModel time settings apply to the sub-models", "statement": "When a MultiModel document has a timestepper section, every sub-model runs with exactly that start, end and timestep.", "quantifier": "every document", "why_tests_cant": "Depends on combinations of outer and inner settings.", "anchors": ["pywr/model.py: MultiModel.load_from_dict"]}
{"id": "C63", "title": "Optimisation variables are written where they are read", "statement": "Evaluating a candidate solution in the optimisation wrapper gives each variable parameter exactly its own segment of the solution vector; writing back the vector read from the current model leaves all variables unchanged.", "quantifier": "every list of variable parameters with any mix of double and integer sizes", "why_tests_cant": "All packings.", "anchors": ["pywr/optimisation/__init__.py: cache_variable_parameters", "pywr/optimisation/platypus.py: PlatypusWrapper.evaluate, PywrRandomGenerator.generate"]}
{"id": "C64", "title": "Normalised storage is in [-1, 1] and signs agree with the curve", "statement": "NumpyArrayNormalisedStorageRecorder records a value in [-1,1] for any storage level and control curve in [0,1], is negative exactly below the curve, -1 at empty, 0 at the curve and 1 at full.", "quantifier": "every storage level and control curve value", "why_tests_cant": "All reals including curves at 0 and 1.", "anchors": ["pywr/recorders/_recorders.pyx: NumpyArrayNormalisedStorageRecorder"]}
{"id": "C65", "title": "Every run finishes what it started", "statement": "Model.run calls, for every timestep, before, solve and after in that order for every component, and calls finish on every component exactly once at the end, also if a timestep raises an exception.", "quantifier": "every run length and every position of an exception", "why_tests_cant": "All crash points.", "anchors": ["pywr/_model.pyx: Model.run, Model.step, Model.finish"]}
{"id": "C66", "title": "Scenario-dependent parameters pick the member of their own scenario", "statement": "ScenarioWrapperParameter, ConstantScenarioParameter and the array-indexed scenario parameters return in each combination the value for that combination's ensemble index of their scenario, whatever other scenarios the model has.", "quantifier": "every scenario list, position of the scenario and combination", "why_tests_cant": "All scenario sets.", "anchors": ["pywr/parameters/parameters.py: ScenarioWrapperParameter", "pywr/parameters/_parameters.pyx: ConstantScenarioParameter, ArrayIndexedScenarioParameter, ArrayIndexedScenarioMonthlyFactorsParameter"]}
{"id": "C67", "title": "Connecting and disconnecting nodes", "statement": "connect adds exactly the directed edge asked for and disconnect removes exactly it; disconnecting without a slot removes all edges of the node; the other edges are untouched; connecting nodes of different models is refused.", "quantifier": "every sequence of connect and disconnect operations", "why_tests_cant": "All operation sequences.", "anchors": ["pywr/nodes.py: NodeMeta, Connectable.connect, Connectable.disconnect", "pywr/nodes.py: Storage.iter_slots"]}
{"id": "C68", "title": "Data file checks never accept wrong contents", "statement": "check_hash succeeds for a file only if the file's current digest equals the expected one (case-insensitively).", "quantifier": "every sequence of checks and file modifications", "why_tests_cant": "All histories of checks and changes.", "anchors": ["pywr/hashes.py: check_hash"]}
{"id": "C69", "title": "Time-varying aggregates over years count each year once", "statement": "AnnualCountIndexParameterRecorder reports the number of calendar years of the run in which the index reached the threshold in at least one timestep; AnnualCountIndexThresholdRecorder reports per year the number of timesteps in which any of the indices exceeded the threshold.", "quantifier": "every index history, run length and start date", "why_tests_cant": "Histories of any length.", "anchors": ["pywr/recorders/_recorders.pyx: AnnualCountIndexParameterRecorder, AnnualCountIndexThresholdRecorder"]}
{"id": "C70", "title": "Orphaned nodes and parameters are detected exactly", "statement": "check_graph passes if and only if every node that does not allow isolation lies on a route from an input to an output through valid nodes of one domain; find_orphaned_parameters returns exactly the parameters that no other component depends on and no node refers to.", "quantifier": "every node and component graph", "why_tests_cant": "All graphs.", "anchors": ["pywr/_model.pyx: Model.check_graph, Model.find_orphaned_parameters"]}
{"id": "C71", "title": "Total, mean, extreme and count recorders of parameters and storages", "statement": "TotalParameterRecorder holds factor times the sum of the values (times days when integrating), MeanParameterRecorder factor times their mean over the run, MinimumVolumeStorageRecorder the lowest volume reached, MinimumThresholdVolumeStorageRecorder 1 exactly for the scenarios whose volume was at or below the threshold at some timestep, and TimestepCountIndexParameterRecorder the number of timesteps with an index at or above the threshold.", "quantifier": "every history, run length and number of scenarios", "why_tests_cant": "Histories of any length.", "anchors": ["pywr/recorders/_recorders.pyx: TotalParameterRecorder, MeanParameterRecorder, MinimumVolumeStorageRecorder, MinimumThresholdVolumeStorageRecorder, TimestepCountIndexParameterRecorder"]}
{"id": "C72", "title": "Optimised days of a profile", "statement": "A radial basis function profile accepts every candidate whose optimised days of the year lie within the bounds it declares, and then uses exactly those days.", "quantifier": "every set of days, bounds and candidate within them", "why_tests_cant": "The bounds depend on the combination of days, range and explicit limits; a candidate near the end of the year is rarely drawn.", "anchors": ["pywr/parameters/_parameters.pyx: RbfProfileParameter"]}
{"id": "C73", "title": "A failed construction leaves the model unchanged", "statement": "If creating or renaming a node, parameter or recorder raises an exception, the set of nodes and components of the model is what it was before.", "quantifier": "every model state, class and name", "why_tests_cant": "All states and classes; failing constructors are rarely tested at all.", "anchors": ["pywr/nodes.py: NodeMeta.__call__, PiecewiseLink.__init__, LossLink.__init__, Storage.__init__", "pywr/_component.pyx: Component.__init__"]}
{"id": "C74", "title": "The solver given for a MultiModel is used", "statement": "A solver named when loading a MultiModel is used by every sub-model whose definition does not name one; a definition's own solver takes precedence.", "quantifier": "every document and solver argument", "why_tests_cant": "Combinations of outer and inner settings and loading functions.", "anchors": ["pywr/model.py: MultiModel.load, MultiModel.load_from_dict", "pywr/_model.pyx: Model.load_from_dict"]}
{"id": "C75", "title": "Included documents are merged once", "statement": "When a model document with includes is loaded, from a dictionary or from a file, the lists of each included document are appended once and in order, and loading ends.", "quantifier": "every document, set of included documents and way of loading", "why_tests_cant": "All documents; both ways of loading.", "anchors": ["pywr/_model.pyx: Model.loads, Model._load_includes, Model._load_json_include, Model.load_from_dict"]}
{"id": "C76", "title": "Every definition in a document is used", "statement": "Every node of a model document and every sub-model of a MultiModel document is created, in order; definitions with the same name are refused.", "quantifier": "every document", "why_tests_cant": "All documents.", "anchors": ["pywr/_model.pyx: Model.load_from_dict", "pywr/model.py: MultiModel.load_from_dict, MultiModel.add_model"]}
{"id": "C77", "title": "Data frame and table parameters give the column of the member, whichever columns are loaded", "statement": "DataFrameParameter and TablesArrayParameter with a scenario load only the columns needed by the user's combinations or by the scenario's slice. In every combination run they return the value in the column of that combination's member, at the row of the timestep plus the offset (kept within the data), as if all columns had been loaded.", "quantifier": "every scenario list, slice, user combinations, table, offset, timestep and combination", "why_tests_cant": "All slices, combinations and tables.", "anchors": ["pywr/parameters/_parameters.pyx: DataFrameParameter.setup, value; TablesArrayParameter.setup, value"]}
{"id": "C78", "title": "Nodes that add up others report the sum of the flows those report", "statement": "At the end of every timestep the flow of an AggregatedNode is the weighted sum, of an AggregatedStorage the sum, and of an active virtual storage minus the factor-weighted sum of the flows its member nodes report at the end of that timestep.", "quantifier": "every graph, order of nodes, members, weights, history and solver answer", "why_tests_cant": "Depends on the order in which all nodes are updated.", "anchors": ["pywr/_core.pyx: AggregatedNode.after, AggregatedStorage.after, VirtualStorage.after", "pywr/_model.pyx: Model.after"]}
{"id": "C79", "title": "Constraints and objectives as pygmo sees them", "statement": "The fitness vector of the pygmo wrapper has the announced number of objectives, equality and inequality entries; pygmo accepts a candidate exactly when Model.is_feasible() is true for it, and a smaller objective entry means a smaller value of a minimised and a larger value of a maximised recorder.", "quantifier": "every list of recorders with any objective directions, bounds and values", "why_tests_cant": "The existing tests evolve one generation and check nothing about the vector; all mixtures of bounds and signs matter.", "anchors": ["pywr/optimisation/pygmo.py: PygmoWrapper.fitness, get_nobj, get_nec, get_nic", "pywr/_model.pyx: Model.is_feasible"]}
{"id": "C80", "title": "Variables as written by the pygmo wrapper", "statement": "Evaluating a candidate in the pygmo wrapper gives every variable parameter exactly its own segment of the candidate, as the platypus wrapper does, for real and integer variables.", "quantifier": "every list of variable parameters and every candidate of the right length", "why_tests_cant": "All packings of double and integer variables.", "anchors": ["pywr/optimisation/pygmo.py: PygmoWrapper.fitness", "pywr/optimisation/__init__.py: cache_variable_parameters"]}
{"id": "C81", "title": "BreakLink in place of a Link", "statement": "Replacing a Link by a BreakLink with the same attributes and the same connect calls changes no answer: in every timestep the flows that can be reported at every node, those of the cheapest answers and their cost are the same, the BreakLink reporting what the Link would have reported, and its internal storage neither gains nor loses water.", "quantifier": "every network and data in which the Link is named by no aggregated node or virtual storage, every feasible or optimal answer of either GLPK solver", "why_tests_cant": "The tests compare one model; the claim is an equality of the sets of admissible flows for all networks, limits and costs.", "anchors": ["pywr/nodes.py: BreakLink", "pywr/solvers/cython_glpk.pyx: CythonGLPKSolver, CythonGLPKEdgeSolver"]}
{"id": "C82", "title": "DelayNode keeps water", "statement": "In a run with timesteps of one length a DelayNode gives back in each timestep what it took in the given number of timesteps earlier (the initial flow before that), up to the 1e-8 below which the solver takes a flow for zero, so that over a run the water given back plus the water still on its way equals the initial content plus the water taken in.", "quantifier": "every network with a DelayNode, every run of solved timesteps with arbitrary data, every delay and initial flow", "why_tests_cant": "The tests follow one short run with fixed flows; the claim is about all runs and all answers of the solver, including the memory handed from one timestep to the next.", "anchors": ["pywr/nodes.py: DelayNode", "pywr/parameters/_parameters.pyx: FlowDelayParameter"]}
{"id": "C83", "title": "The lpsolve solver agrees with the GLPK solver", "statement": "In a timestep in which no limit is closer to zero than 1e-8, every storage is within its volume limits and the aggregated nodes are as they were at setup, the flows that the lpsolve solver can report are exactly those that the GLPK route solver can report, and the cheapest answers of the two report the same flows at the same cost. The lpsolve solver keeps flow and volume limits exactly in any timestep.", "quantifier": "every network, all data of a timestep (limits, costs, factors, volumes), every feasible and every cheapest answer of either LP solver", "why_tests_cant": "The tests run the same small models with each solver and compare one answer; the claim is about all networks and data and all answers of the LP libraries, for two problems with different columns and rows.", "anchors": ["pywr/solvers/cython_lpsolve.pyx: setup, _solve_scenario, set_row_bnds", "pywr/solvers/cython_glpk.pyx: CythonGLPKSolver.setup, reset, _solve_scenario"]}
{"id": "C84", "title": "A MultiSplitLink shares its water out in the ratio of its factors", "statement": "In every solved timestep all water that enters a MultiSplitLink (RiverSplit, RiverSplitWithGauge) leaves it through its slots; its sublinks with a factor carry water exactly in the ratio of the factors; with positive factors an extra slot delivers at most its share of the water beyond the earlier steps (such as the minimum residual flow) and the main slot at least its share. Connecting or disconnecting other nodes never changes the inside of the node.", "quantifier": "every network with such a node and any number of steps, slots and factors, all data of a timestep, every feasible answer of the LP, either GLPK solver; every program of connects and disconnects outside the node", "why_tests_cant": "The tests check two small rivers at one optimum each; the claim is about every network around the node and every feasible answer.", "anchors": ["pywr/nodes.py: MultiSplitLink.__init__, iter_slots, PiecewiseLink.__init__", "pywr/domains/river.py: RiverSplit, RiverSplitWithGauge", "pywr/solvers/cython_glpk.pyx: setup (factor rows), _solve_scenario"]}
{"id": "C85", "title": "River nodes: catchments, reservoirs and gauges", "statement": "A Catchment supplies exactly the flow last given to it in every solved timestep (a flow closer to zero than 1e-8 counts as zero), whatever min_flow or max_flow were given before. A Reservoir with above_curve_cost has that cost at and above its control curve (full, if it has none) and its own cost below, and refuses a Parameter as cost; without above_curve_cost it has its own cost. The attributes mrf, mrf_cost and cost of a RiverGauge read as last assigned, and in a cheapest answer of the route solver with the mrf_cost below the cost, the minimum residual flow is filled before anything passes beyond it.", "quantifier": "all constructor arguments and programs of assignments (numbers, None or Parameters), every network around the nodes, all data of a timestep, every feasible answer (catchments, both GLPK solvers) and every cheapest answer (gauges)", "why_tests_cant": "The tests run a handful of rivers with one set of flows; the claim is about any program of assignments and any network and answer.", "anchors": ["pywr/domains/river.py: Catchment, Reservoir, RiverGauge", "pywr/_core.pyx: Node.min_flow, Node.max_flow", "pywr/nodes.py: PiecewiseLink"]}
{"id": "C86", "title": "Values taken from another model of a MultiModel", "statement": "In a MultiModel run, the value that a model takes of a parameter, node flow or storage volume of another model (OtherModelParameterValueParameter, OtherModelNodeFlowParameter, OtherModelNodeStorageParameter, ShadowNode, ShadowStorage) is, in every scenario combination, that of the current timestep if the other model comes earlier in the order of the models, and that of the end of the previous timestep if it comes later; in the first timestep it is the initial one. Running the MultiModel again gives the same results.", "quantifier": "any number of models, nodes, parameters and scenarios, any timestep of a run of any length, any behaviour of the models' own parameters and solvers", "why_tests_cant": "The tests run two or three fixed models in one order; the claim is about every order, every behaviour and every timestep.", "anchors": ["pywr/model.py: MultiModel._step, run", "pywr/parameters/multi_model_parameters.py", "pywr/_core.pyx: ShadowNode.before, ShadowStorage.before", "pywr/parameters/_parameters.pyx: Parameter.setup, calc_values"]}
{"id": "C87", "title": "Durations and statistics of events", "statement": "An EventDurationRecorder gives each scenario the aggregate of the durations of that scenario's own events, NaN if it has none: with minimum event length 1, 'sum' is the number of days in which the trigger was on, 'max'/'min' the days of a longest/shortest reported period. An EventStatisticRecorder aggregates the aggregates of the values tracked during each event; sum of sums, max of max and min of min are those over all triggered timesteps. This holds for every model, also within a MultiModel.", "quantifier": "any trigger pattern, run length, number of scenarios, lengths of timesteps in whole days, any aggregation function where the claim is about the function", "why_tests_cant": "Tests compare a few fixed series; overlooking an event at the end, mixing scenarios or miscounting days depends on the pattern of the trigger.", "anchors": ["pywr/recorders/events.py: EventDurationRecorder.finish, EventStatisticRecorder.finish", "pywr/model.py: MultiModel.run"]}
{"id": "C88", "title": "Time series recorders and duration curves", "statement": "After a run, a NumpyArray recorder holds for every timestep and scenario combination the value observed then (flow times factor, supplied and curtailed share, cost, volume, share of the maximum volume, normalised storage, level, area, parameter value; for the daily profile recorder the value last seen on each day of the year). Duration curves hold the percentiles of these values for each scenario: the smallest value at 0, the largest at 100, never falling, with the stated share of timesteps at or below; seasonal curves use the timesteps of the given months only. The deviation recorder gives how far the curve lies outside its targets relative to the target, zero exactly between them, taking the target of the combination's member of the given scenario.", "quantifier": "any run length, number of scenarios, series, percentiles between 0 and 100, set of months, targets", "why_tests_cant": "Tests compare a few arrays with numpy; ranks, ties, last values and the choice of targets matter for all data and scenario set-ups.", "anchors": ["pywr/recorders/_recorders.pyx: NumpyArray*Recorder.after", "pywr/recorders/_recorders.pyx: FlowDurationCurveRecorder, SeasonalFlowDurationCurveRecorder, StorageDurationCurveRecorder", "pywr/recorders/_recorders.pyx: FlowDurationCurveDeviationRecorder"]}
{"id": "C89", "title": "Aggregation over time, scenarios and recorders", "statement": "The value a recorder reports is the aggregate with the given name (sum, product, min, max, mean, median, percentile, number of non-zeros) of its values: over time for each scenario separately, then over the scenarios; sum, mean, min and max taken over both are those of all timesteps and scenarios together. With ignore_nan, NaN values do not count and the result is NaN only if there is no number. An AggregatedRecorder reports for each scenario the aggregate of its members' values, with recorder_agg_func if given, else agg_func.", "quantifier": "any number of timesteps, scenarios and members, any values including NaN, any of the named functions", "why_tests_cant": "Tests try a few arrays; which combinations of function, NaN handling and recorder type work, and that the axes are right for every shape, needs all of them.", "anchors": ["pywr/recorders/_recorders.pyx: Aggregator.aggregate_1d, aggregate_2d", "pywr/recorders/_recorders.pyx: Recorder.aggregated_value", "pywr/recorders/_recorders.pyx: AggregatedRecorder"]}
{"id": "C90", "title": "Goodness of fit recorders", "statement": "The recorders comparing simulated with observed flows report: mean squared, root mean squared and mean absolute error, never negative, zero exactly for a perfect fit, RMSE being the root of MSE and at least MAE; percent bias, the share of the observed total that the model lacks, zero exactly if the totals agree, positive exactly if the model gives less; Nash-Sutcliffe efficiency, at most 1, equal to 1 exactly for a perfect fit, 0 for the observed mean, positive exactly if better than it, and equal to 1 less the square of the RMSE-standard deviation ratio. Each scenario combination is compared with the observations for it, and the values can be aggregated over the scenarios.", "quantifier": "any number of timesteps, any observed and simulated flows (observations that vary, for the efficiencies), any number of scenarios", "why_tests_cant": "The tests compare with the same formula on one random series and one scenario.", "anchors": ["pywr/recorders/calibration.py", "pywr/recorders/_recorders.pyx: Recorder.aggregated_value"]}
{"id": "C91", "title": "Interpolated parameters and aquifer levels", "statement": "A parameter interpolated linearly through points gives the value of each point there and divides the values of neighbouring points in proportion between them, whatever the order the points are given in; it rises where the points do; outside them it is refused by default, or takes the fill value of that side. It uses this timestep's value of its parameter, the current volume of its storage or the previous flow of its node, of the scenario asked for. An aquifer given by levels, area and storativity has the volume of its layers, and an initial level that is set can be read back, gives a volume within the bounds, and determines the flow of each stream by Keating's formula.", "quantifier": "any number of points at different places in any order, any value, any options; any number of layers, rising levels, positive area and storativity", "why_tests_cant": "Tests use a few values through sorted points and one layer; order, ends and the inverse relation of level and volume matter for all.", "anchors": ["pywr/parameters/parameters.py: AbstractInterpolatedParameter, InterpolatedParameter, InterpolatedVolumeParameter, InterpolatedFlowParameter", "pywr/domains/groundwater.py: KeatingAquifer"]}
{"id": "C92", "title": "Polynomial parameters", "statement": "A polynomial parameter returns the value of its polynomial at the scaled and shifted input: the value of a parameter, the volume or relative volume of a storage, or the flow of a node in the previous timestep; at most one of these may be given. In two dimensions rows belong to powers of the volume and columns to powers of the parameter.", "quantifier": "any coefficients, scale, offset and input; any sequence of flows", "why_tests_cant": "Tests evaluate three small polynomials of a constant and a volume; node inputs are not tested.", "anchors": ["pywr/parameters/_polynomial.pyx: Polynomial1DParameter, Polynomial2DStorageParameter", "pywr/_model.pyx: Model.before", "pywr/_core.pyx: AbstractNode.before"]}
{"id": "C93", "title": "Activation functions", "statement": "The binary step returns its output exactly when its variable is positive; the rectifier returns 0 for a variable that is not positive, rises in proportion from min_output, and is max_output at the upper bound; the logistic function lies strictly between 0 and max_output, is half of it at 0, symmetric, and strictly increasing. Setting the variable changes nothing else.", "quantifier": "any value, bounds (positive upper bound), outputs and positive growth rate", "why_tests_cant": "Tests use a few values of the variable.", "anchors": ["pywr/parameters/_activation_functions.pyx: BinaryStepParameter, RectifierParameter, LogisticParameter"]}
{"id": "C94", "title": "Threshold recorders", "statement": "After a run a threshold recorder holds, for each scenario combination, 1 if the volume (or flow) in the last timestep stands in the given relation to the threshold and 0 if not, whatever happened before; before the first timestep it holds 0. The ten documented names of predicates are understood, in any case, and no others.", "quantifier": "any number of combinations, history, threshold and predicate", "why_tests_cant": "Tests use two predicates as triggers of events.", "anchors": ["pywr/recorders/_thresholds.pyx: StorageThresholdRecorder, NodeThresholdRecorder, compare"]}
{"id": "C95", "title": "Weighted average of profiles", "statement": "On every date, in leap years and others, the value of a weighted average profile is the mean of the values its profiles have on that date, weighted with the maximum volumes of the storages; it lies between the least and the greatest of them. Storages whose maximum volume is a number or a constant parameter are accepted, with constant, daily and monthly profiles (stepped or interpolated).", "quantifier": "any number of storages and profiles, any date", "why_tests_cant": "Tests use two storages; the stepwise monthly profile is expanded by days of a leap year and read by the day of any year.", "anchors": ["pywr/parameters/_control_curves.pyx: WeightedAverageProfileParameter", "pywr/parameters/_parameters.pyx: MonthlyProfileParameter.get_daily_values, DailyProfileParameter"]}
{"id": "C96", "title": "The value of every parameter is that of its expression", "statement": "Parameters built out of other parameters (quotients, negatives, maxima and minima with a constant, offsets, scaled profiles, functions of one or two values, all named aggregates of values and of indices, indexed arrays, scenario wrappers, control curve indices, control curves with values or parameters) hold after the evaluation of a timestep, in every scenario combination, the value of the expression they form, whatever the arrays held before and in whatever order they are declared to the graph. The evaluation raises exactly if some expression has no value (a division by zero, an index out of range, a refused aggregate). Every value is determined by the expression.", "quantifier": "any number of parameters and combinations, any expression over earlier parameters, any previous contents", "why_tests_cant": "Tests evaluate single parameters over constants; correctness of deep expressions depends on the order of the component graph together with every class's arithmetic.", "anchors": ["pywr/_model.pyx: Model.before, flatten_component_tree", "pywr/parameters/_parameters.pyx: calc_values of AggregatedParameter, DivisionParameter, MaxParameter, ...", "pywr/parameters/_control_curves.pyx: ControlCurveIndexParameter, ControlCurveParameter", "pywr/parameters/parameters.py: ScaledProfileParameter, ScenarioWrapperParameter"]}
{"id": "C97", "title": "Daily, weekly and interpolated annual profiles", "statement": "A daily profile needs 366 values and gives each date the entry at the position of its month and day in a leap year. A weekly profile needs 52 (or 53) values and gives the value of the week counted from the first of January, the 52nd lasting to the end of the year. An interpolated profile accepts at least three strictly increasing days from 1 to 365 beginning with 1; it hands scipy points repeated with a period of 365 days at strictly increasing days; after a reset each given day has its given value (limited to the smallest and largest allowed), all values lie between these limits, and the profile is the same every year with 29 February as the 28th. Days within the bounds offered to an optimiser are accepted.", "quantifier": "any values, days, limits and bounds; every date; any interpolating function", "why_tests_cant": "Tests check a few profiles against scipy itself and a couple of invalid arguments; they do not vary days up to their bounds.", "anchors": ["pywr/parameters/_parameters.pyx: DailyProfileParameter, WeeklyProfileParameter, RbfProfileParameter"]}
{"id": "C98", "title": "Harmonic series and discount factors", "statement": "An annual harmonic series needs equally many amplitudes and phases and returns, in every timestep and scenario of a run, mean + sum of A_n cos(2 pi n t/365 + phi_n) at t = day of the year minus one; it stays within the sum of the amplitudes' sizes around the mean and has period 365 days. Its optimisation variables are mean, amplitudes, phases and take effect with the next reset. A discount factor is 1 in the base year and divided by (1 + rate) from year to year, so falls if the rate is positive.", "quantifier": "any numbers of harmonics, any sequence of evaluations, any rate above -1 and any years", "why_tests_cant": "Tests compare one series over a year and one rate over a few years; the cached value and years before the base year are not covered.", "anchors": ["pywr/parameters/_parameters.pyx: AnnualHarmonicSeriesParameter, DiscountFactorParameter"]}
{"id": "C99", "title": "Data are aligned with the timesteps", "statement": "A time series given with a frequency of days is brought to the timesteps of the model: where it is at least as frequent, each timestep has the mean of the known data of its days, and the alignment succeeds exactly if a data period starts with the first timestep and every timestep has some known data; where it is less frequent, each timestep has the value of the last data period begun. Anything else is an error. A timestep offset looks up a later or earlier timestep, stopping at the first and last. No day of a timestep is left out without notice.", "quantifier": "any data with missing values, any start days, frequencies and number of timesteps", "why_tests_cant": "Tests resample one year of consecutive numbers between a few frequencies and compare with pandas itself; missing values are not mixed with known ones.", "anchors": ["pywr/dataframe_tools.py: align_and_resample_dataframe, _down_sample_tick_to_tick, _up_sample_tick_to_tick", "pywr/parameters/_parameters.pyx: DataFrameParameter"]}
{"id": "C100", "title": "Buffering does not change the results file", "statement": "With TablesRecorder2 the file written by a complete run holds, in row i of every array, the values of timestep i, whichever way and however much is buffered in memory; if a run is stopped by an exception in a timestep, the rows of all timesteps before it are in the file and the rest is as it was.", "quantifier": "any number of timesteps, buffer given in timesteps, by size or not at all, any number of scenario combinations, any timestep in which the run stops, any contents of uninitialised buffers", "why_tests_cant": "Tests write one model with a few buffer sizes; the interplay of the flush when a block is full, the residual at the end and a buffer of the whole run is arithmetic over all sizes.", "anchors": ["pywr/recorders/_tables_recorders.pyx: TablesRecorder2.setup, reset, after, flush_buffer, finish"]}
{"id": "C101", "title": "The results files hold what their names say", "statement": "After a complete run, the first or a later one, the array of the file of TablesRecorder at the path of a recorded node or parameter holds for every timestep its volume, flow, index or value according to its type, and the time table has exactly the timesteps of the run. By default every node of the model is recorded under its name and there is nothing else in the file but the time and scenario tables; a node given by its name is recorded under it, a node or parameter may be given as an object, and an object may be recorded at several paths. CSVRecorder writes one line per timestep with the volume or flow of the node named in the header of each column.", "quantifier": "any nodes, parameters, names, paths, number of timesteps and of runs", "why_tests_cant": "Tests record one model with names such as 'Demand' and paths such as '/agroup/Node'; no test uses a two-letter name, a node called 'time', or records an object twice.", "anchors": ["pywr/recorders/recorders.py: TablesRecorder.setup, reset, after, _add_parameter", "pywr/recorders/recorders.py: CSVRecorder"]}
{"id": "C102", "title": "Progress and assertions are reported truthfully", "statement": "ProgressRecorder reports strictly increasing percentages between 0 and 100, exactly those reached by the timesteps, and a run is shown as a success exactly if it was complete. AssertionRecorder passes exactly if in every timestep and scenario the value is as expected up to one part in ten million, and otherwise names the first timestep and scenario where it is not; it complains if it was never called or has nothing to compare with.", "quantifier": "any number of timesteps and scenarios, any point of stopping, any values and expectations", "why_tests_cant": "The progress recorder is tested by running it once; the assertion recorder is itself the means of many tests, so that it never checks anything goes unnoticed.", "anchors": ["pywr/recorders/progress.py: ProgressRecorder.after, JupyterProgressRecorder.finish", "pywr/recorders/recorders.py: AssertionRecorder.after, finish"]}
{"id": "C103", "title": "A scenario's solution depends on its own problem and basis only", "statement": "With several scenarios solved by one GLPK problem object, each scenario gets the answers it would get alone: in the first timestep from the advanced basis of its own problem, later from its own last basis. A basis is never read before it was saved. Running a model a second time without setting it up again gives the same answers, also where the optimum is not unique.", "quantifier": "any number of scenarios and timesteps, any problems depending on what was found before, any behaviour of GLPK as a function of problem, starting basis and presolve, any state of the solver before", "why_tests_cant": "Tests have optima that are unique, so that starting from a wrong basis does not show.", "anchors": ["pywr/solvers/cython_glpk.pyx: BasisManager, reset, solve, _solve_scenario"]}
{"id": "C104", "title": "Solver and solver options are those asked for", "statement": "A model is solved by the solver named in the arguments of `load`, else in its document, else in PYWR_SOLVER, else by the first that was built; unknown names and unknown options are errors. Every switch of the GLPK solvers is what the user gave, else what its own environment variable says (on exactly for \"1\" and \"true\" in any case), else off, and the settings reported with the results are those in force.", "quantifier": "any names, documents, arguments and environments, whichever solvers were built", "why_tests_cant": "Tests set one option or one variable at a time.", "anchors": ["pywr/solvers/__init__.py: _parse_env_kwarg, solver_registry, settings", "pywr/_model.pyx: Model.__init__, load_from_dict"]}
{"id": "C105", "title": "Attributes of nodes read back as assigned", "statement": "cost, min_flow, max_flow, min_volume, max_volume, level and area of a node can be a number or a parameter, and after any history of assignments the last accepted one is what reads back and what is in force in every scenario; None restores the value of a new node or is refused; a refused assignment changes nothing. The methods for all scenarios at once give for each what the method for one scenario gives.", "quantifier": "any history of assignments, any parameter values, any number of scenarios, all kinds of nodes", "why_tests_cant": "Tests assign each attribute once and compare one scenario; the vector methods are only used by TablesArrayRecorder-like code.", "anchors": ["pywr/_core.pyx: Node, AggregatedNode, StorageInput, StorageOutput, Storage: properties and get_all_* methods", "pywr/nodes.py: PiecewiseLink.get_min_flow, get_max_flow"]}
{"id": "C106", "title": "Pictures show the model that was simulated", "statement": "A schematic shows every node a user has made that takes part in the network, once, and links two of them exactly when an edge leads from a part of the one to a part of the other; the schematic of a document and that of the model loaded from it agree, with or without tables of attributes. A Sankey diagram has one link for each pair of ends, with the sum of the flows of the routes between them (those not left out), so that all flow is shown; the flow of a route is its aggregate over time and scenarios by the functions given. Two series made comparable have the same dates, those in both and in the period asked for.", "quantifier": "any network of simple and composite nodes, any document, any routes, flows, renaming and filtering functions, any series", "why_tests_cant": "Tests compare the drawings of two small example models and do not run the Sankey and comparison functions.", "anchors": ["pywr/notebook/__init__.py: pywr_model_to_d3_json, pywr_json_to_d3_json", "pywr/notebook/sankey.py: routes_to_sankey_links", "pywr/notebook/figures.py: align_series"]}
{"id": "C107", "title": "Kernel density estimates of storage are probabilities", "statement": "The probability that GaussianKDEStorageRecorder reports for a target is what the kernel estimate of the recorded volumes gives to the volumes up to the target and, with reflection, to their mirror images behind the bounds; it is between 0 and 1, 0 for the target 0, does not fall with the target and is 1 for the target 1. Likewise for normalised volumes at or below zero with the bounds -1 and 1. The PDF has as many points as asked for over the range of the values, at each the sum of the kernel estimate there and at the mirror images.", "quantifier": "any recorded values, any target, any number of points, any symmetric kernel", "why_tests_cant": "Tests compare with the same scipy calls for one series.", "anchors": ["pywr/recorders/kde.py: GaussianKDEStorageRecorder, NormalisedGaussianKDEStorageRecorder"]}
{"id": "C108", "title": "Data loaded from files and tables is what the document asks for", "statement": "\"column\", \"columns\", \"index\" and \"indexes\" of an entry select the cells with these labels from the table or file it names, in the order of the lists; missing labels are refused. A file is read once, by the reader its file type or extension stands for, with the entries that are not pywr's own, and only if all its checksums match; a reference to a table reads nothing. Values are the cells row by row. An entry without type is the single number selected. The entries that describe a parameter (its comment) are kept, keys can be combined, and the type is the name of its class with or without the suffix.", "quantifier": "any entry, tables, files, labels and contents", "why_tests_cant": "Tests use a dozen small files with the usual combinations of keys.", "anchors": ["pywr/dataframe_tools.py: load_dataframe, read_dataframe", "pywr/parameters/_parameters.pyx: load_parameter_values, get_parameter_from_registry, Parameter.load, DataFrameParameter", "pywr/recorders/_recorders.pyx: load_recorder, FlowDurationCurveDeviationRecorder.load"]}
{"id": "C109", "title": "Nodes of a document are created once, after what they refer to", "statement": "Loading the nodes of a document makes every one of its entries into exactly one node, in an order in which each comes after everything its entry refers to, wherever that is in the document. It always ends; entries that refer to each other in a circle, to unknown names, or have the name of a part of another node are refused; any other document loads, in whatever order its entries are.", "quantifier": "any document, references and order of entries", "why_tests_cant": "Tests load example documents in the order they are written; circles and clashes with names of sub-nodes do not occur.", "anchors": ["pywr/_model.pyx: Model._load_from_dict, Model._get_node_from_ref", "pywr/nodes.py: Loadable", "pywr/_core.pyx: AbstractNode.name"]}
{"id": "C110", "title": "Attributes of nodes are what arguments or documents say", "statement": "Each attribute of a node, and of the nodes it is made of, is the value given for it, with None standing for no limit or zero, or its default. A document is accepted if and only if the constructor accepts the same values, with parameters for references to them, and both make the same node.", "quantifier": "any class of nodes, keyword arguments, document and parameters", "why_tests_cant": "Tests set one or two attributes per class, mostly by one of the two ways.", "anchors": ["pywr/nodes.py: Loadable, Node, Storage, VirtualStorage, PiecewiseLink, MultiSplitLink, AggregatedNode, BreakLink, LossLink", "pywr/domains/river.py: Catchment, Reservoir, RiverSplit, RiverSplitWithGauge, RiverGauge", "pywr/_core.pyx: setters"]}
{"id": "C111", "title": "Data frames show each value under its timestep and scenarios", "statement": "In data frames of recorders, of models and those made from files of results, each value stands in the row of its timestep and in the column labelled with the members of the scenarios it was computed for; a value missing in one recorder's frame stays missing. From the tables of a file it can be told which combinations of scenarios were run and in which order.", "quantifier": "any scenarios, slices, names of members, combinations, recorded values, recorders and timesteps", "why_tests_cant": "Tests compare frames of one or two scenarios without slices; labels for reordered combinations are not looked at.", "anchors": ["pywr/_core.pyx: Scenario.ensemble_names, ScenarioCollection.multiindex", "pywr/recorders/_recorders.pyx: to_dataframe", "pywr/recorders/recorders.py: TablesRecorder.before, TablesRecorder.after, TablesRecorder.generate_dataframes", "pywr/recorders/_tables_recorders.pyx", "pywr/_model.pyx: Model.to_dataframe, ModelResult.to_dataframe"]}
{"id": "C112", "title": "Dependencies follow assignments", "statement": "After any sequence of constructions, assignments to attributes that hold parameters, additions and removals, the declared dependencies of a component are the components its attributes hold: the next run that sets the model up evaluates each component after everything it holds, from values of the same timestep, and refuses only models in which something held leads back to its holder. Assignments raise no exception and change nothing else.", "quantifier": "any numbers of components and attributes, any sequence of assignments, additions and removals, any values", "why_tests_cant": "Tests assign one attribute once; they do not replace parameters that are used twice by the same component, or that are empty aggregates.", "anchors": ["pywr/_component.pyx: GraphInterface", "pywr/parameter_property.py", "pywr/parameters/_parameters.pyx: DivisionParameter, AggregatedParameter.add, AggregatedParameter.remove", "pywr/parameters/_hydropower.pyx", "pywr/parameters/_control_curves.pyx: control_curves", "pywr/parameters/_thresholds.pyx: AbstractThresholdParameter.threshold", "pywr/recorders/recorders.py: TablesRecorder._add_parameter, TablesRecorder._remove_parameter"]}
{"id": "C113", "title": "Documents of parameters", "statement": "For every class of parameters, a document is loaded exactly if it gives all that the class requires, each entry of the kind the class wants, and nothing else; the parameter then gets, argument by argument, what the entries mean (references, inner documents, numbers standing for constants, nodes of the right sort, scenarios, recorders, numbers), and defaults for what is missing. Numbers from a file or table count as numbers in the document. The type is matched in any case of letters with or without 'parameter'; name and tags are those of the document.", "quantifier": "all registered classes of parameters, all documents, any model, files and tables", "why_tests_cant": "Tests load one or two documents for some of the classes; entries that are misspelt, given twice, of the wrong kind or silently dropped are not tried for each class.", "anchors": ["pywr/parameters/_parameters.pyx: load_parameter, get_parameter_from_registry, all load methods", "pywr/parameters/_control_curves.pyx: load methods", "pywr/parameters/_thresholds.pyx: load methods", "pywr/parameters/_hydropower.pyx", "pywr/parameters/_polynomial.pyx", "pywr/parameters/_activation_functions.pyx", "pywr/parameters/parameters.py", "pywr/parameters/licenses.py", "pywr/parameters/multi_model_parameters.py"]}
{"id": "C114", "title": "Documents of recorders", "statement": "For every registered class of recorders, a document is loaded exactly if it gives all that the class requires, each entry of the kind the class wants, and nothing else; the recorder then gets, argument by argument, what the entries mean (nodes, storages, parameters, index parameters, other recorders, files beside the model, whole numbers, targets read from tables), and defaults for what is missing. Two entries for the same thing (the function for the years under its old and its new name) are refused. The type is matched in any case of letters with or without 'recorder'.", "quantifier": "all registered classes of recorders, all documents, any model, files and tables", "why_tests_cant": "Tests load one document for some of the classes; entries that are misspelt, of the wrong kind, required but never used, or silently dropped are not tried for each class.", "anchors": ["pywr/recorders/_recorders.pyx: load_recorder, all load methods", "pywr/recorders/_hydropower.pyx: load methods", "pywr/recorders/_tables_recorders.pyx: load", "pywr/recorders/recorders.py: load methods", "pywr/recorders/events.py: load methods", "pywr/recorders/kde.py: constructors"]}
{"id": "C115", "title": "What recorders of HDF files record where", "statement": "TablesRecorder and TablesRecorder2 record each node and parameter they are given at the path it comes with, or else by its name in the default group (slashes in names of parameters replaced), nodes before parameters and all nodes if none are given; what is not in the model is refused. The file is prepared exactly if no two of the arrays and tables are at the same place or one beneath the other. After any number of runs the array of each thing has, for each timestep, the values of the last run, the table of times has one entry per timestep, and nothing else is in the file.", "quantifier": "all lists of nodes and parameters, default groups, tables, numbers of timesteps and runs, and all values", "why_tests_cant": "Tests record one list of nodes with names of more than two letters at one place each; the other forms, clashes of paths and repeated runs are not tried in combination.", "anchors": ["pywr/recorders/recorders.py: TablesRecorder", "pywr/recorders/_tables_recorders.pyx: TablesRecorder2"]}
{"id": "C116", "title": "What optimisers are given", "statement": "Both optimisation wrappers give the optimiser, for each number of each variable parameter, the bounds the parameter declares, at the place where evaluation takes the number from; parameters without the bounds they need are refused. The generator of initial candidates yields the model as it is (if wanted), then the given candidates in their order, each number the nearest to the given one within its bounds, then random candidates. A wrapper uses one and the same model until the cache is cleared, and no two wrappers with different ids share one.", "quantifier": "all lists of variable parameters with their bounds and values, given candidates, sequences of calls and of accesses to the cache, including failing ones", "why_tests_cant": "Tests use parameters of one kind with finite bounds and one wrapper per process; lengths that do not fit, failing candidates and interleaved wrappers are not tried.", "anchors": ["pywr/optimisation/__init__.py: BaseOptimisationWrapper._cached, clear_global_model_cache", "pywr/optimisation/platypus.py: PlatypusWrapper.__init__, _make_variables, PywrRandomGenerator.generate", "pywr/optimisation/pygmo.py: PygmoWrapper.get_bounds"]}
{"id": "C117", "title": "Values that are not numbers do not reach the solver", "statement": "Unless the unchecked calls are asked for (use_unsafe_api), no NaN is passed to GLPK. A scenario is solved exactly if the costs along each route (edge) have a sum, factors and bounds of flows are not NaN, and the volumes of each storage in use have the differences its row needs; otherwise an error is raised before the simplex, the scenarios before it have their flows and no scenario after it. Constant bounds and factors are checked in any case. For numbers the bounds are those of the linear programme.", "quantifier": "all costs, factors, bounds and volumes that are numbers, infinities or NaN, all lists of scenarios, both GLPK solvers", "why_tests_cant": "Tests put a NaN in one place at a time; combinations of infinities, storages out of use and the order of scenarios are not tried.", "anchors": ["pywr/solvers/cython_glpk.pyx: set_obj_coef_safe, set_row_bnds_safe, set_mat_row_safe, _solve_scenario, _update_constant_flows, _update_constant_agg_factors"]}
{"id": "C118", "title": "A setup profile lists every hook once with its own time, and profiling changes nothing", "statement": "Model.setup(profile=True) makes the same calls in the same order, and raises in the same cases, as Model.setup(). The profiler it returns has exactly one entry per node set up, component set up, top-level node reset and component reset, in the order of the calls; the time of an entry is the time between two clock readings directly around its hook, so no time of building the component tree or of the solver is attributed to a component, no time is counted twice and the times add up to at most the time taken. A profile written to a file has the same rows.", "quantifier": "for every model, component order, clock, and every choice of hooks that raise", "why_tests_cant": "Tests can look at the entries of a few models, but not at every clock behaviour, every raising hook and every number of nodes and components.", "anchors": ["pywr/profiler.py:33-77", "pywr/_model.pyx:684-746", "pywr/_model.pyx:748-823", "pywr/model.py:207-222"]}
{"id": "C119", "title": "Saved route flows are each scenario's own and account for the flows of the nodes", "statement": "With save_routes_flows on when the model is set up (as a TablesRecorder with routes_flows does), after every timestep the array of route flows holds, for each scenario and each route, the flow of that route in the solution of that scenario, and the flow committed to a node is the sum of the saved flows of the routes through it. Without saving, nodes get the same flows.", "quantifier": "for all networks, numbers of scenarios and timesteps, and all solutions returned by the solver", "why_tests_cant": "Tests look at saved flows of one network with a few scenarios; they do not vary when saving is switched on relative to setup.", "anchors": ["pywr/solvers/cython_glpk.pyx:457-466", "pywr/solvers/cython_glpk.pyx:826-828", "pywr/solvers/cython_glpk.pyx:1068-1093", "pywr/recorders/recorders.py:331-333", "pywr/recorders/recorders.py:672-678"]}
{"id": "C120", "title": "The result of a run reports its own counts and times", "statement": "ModelResult.timesteps and num_scenarios are the numbers of timesteps and scenarios of this run; time_taken_before and time_taken_after are the sums of the times spent in Model.before and Model.after in the timesteps of this run only, whatever earlier runs left in the timers; with a clock that does not go back they add up to at most time_taken, which is at most time_taken_with_overhead; speed is scenario-timesteps per second.", "quantifier": "for every clock, number of timesteps and scenarios, and state of the timers before the run", "why_tests_cant": "Clock readings are not reproducible, so tests can only check that the numbers exist.", "anchors": ["pywr/_model.pyx:640-682", "pywr/_model.pyx:818-820", "pywr/_model.pyx:825-860", "pywr/_model.pyx:1066-1082"]}
{"id": "C121", "title": "Data and timesteps of calendar periods", "statement": "align_and_resample_dataframe with daily data and a model whose timesteps are months (or other calendar periods) gives every timestep the mean of the known values of the days of that month, and raises an error exactly if some timestep has none; with monthly data and timesteps of whole days, every day has the value of its month, a timestep of several days the mean over its days, and timesteps on days whose month is missing raise an error. Months only partly covered by daily data are used all the same, and yearly means of monthly data weigh all months equally.", "quantifier": "for all divisions of the days into periods, data, starts and numbers of timesteps", "why_tests_cant": "Tests use a handful of dates in one or two years; months differ in length and data may begin and end anywhere relative to the run.", "anchors": ["pywr/dataframe_tools.py:20-103", "pywr/dataframe_tools.py:106-118", "pywr/dataframe_tools.py:130-150"]}
{"id": "C122", "title": "What Model.check refuses, and iteration over nodes", "statement": "Model.check passes if and only if no virtual storage has a cost other than the number zero and every node that must not be isolated is on a route; otherwise it raises for the first costly virtual storage in the order of the nodes, or, if there is none, for the graph; it warns exactly if some parameter is orphaned. Iterating over Model.nodes gives the nodes present when the iteration began, each once and in order, whatever is added or removed meanwhile.", "quantifier": "for all models, and all changes to a model during an iteration", "why_tests_cant": "Tests check single invalid models; which error comes first and what changes during iteration do are combinations they do not enumerate.", "anchors": ["pywr/_model.pyx:163-188", "pywr/_model.pyx:931-951", "pywr/_model.pyx:1000-1012", "pywr/nodes.py:484-489", "pywr/nodes.py:574-579"]}
{"id": "C123", "title": "A storage licence is never exceeded over the run", "statement": "With timesteps of at most a day, a node whose max_flow is a StorageLicense takes no more than the licence's amount in the whole run (in a model: but for the 1e-8 to which bounds are rounded, in each timestep). With longer timesteps it can take the amount once for every day of a timestep.", "quantifier": "for all amounts, run lengths, networks, costs and feasible answers of the solver", "why_tests_cant": "The bound is on the sum over arbitrarily many timesteps of whatever the solver allocates.", "anchors": ["pywr/parameters/licenses.py:66-100", "pywr/solvers/cython_glpk.pyx"]}
{"id": "C124", "title": "Which function a recorder aggregates with", "statement": "An Aggregator is made of a text that is a documented function name but for the case of its letters, a dictionary with such a name in small letters, or a callable, and of nothing else. A recorder over time uses temporal_agg_func, or the deprecated keyword of duration curves (fdc_agg_func, sdc_agg_func; both together are refused), a rolling window agg_func if only that is given, and otherwise the mean (annual recorders: the sum); over scenarios it uses agg_func or the mean; event recorders use event_agg_func and recorder_agg_func, or else agg_func. Nothing else is refused. Reading `func` and setting it again changes nothing, and a refused assignment leaves the aggregator as it was.", "quantifier": "for all keyword dictionaries, names, arguments and earlier states of the aggregator", "why_tests_cant": "Tests try one keyword at a time with valid names; precedence between current, deprecated and default keywords, and what is left after an exception, are combinations they do not enumerate.", "anchors": ["pywr/recorders/_recorders.pyx:79-110", "pywr/recorders/_recorders.pyx:218-239", "pywr/recorders/_recorders.pyx:832-845", "pywr/recorders/_recorders.pyx:1263-1276", "pywr/recorders/_recorders.pyx:1558-1575", "pywr/recorders/events.py:58-64", "pywr/recorders/events.py:231-239", "pywr/recorders/events.py:308-317"]}
{"id": "C125", "title": "Names of recorders that are given none", "statement": "A recorder that is given no name is called by its class in small letters, followed by a full stop and the name of the node, storage or parameter it is on, if any. Recorders made one after the other are all made exactly if their names differ from each other and from those of the components already there, and then have those names; one whose name is taken is refused and the model stays as it was. Recorders without names clash only if they are of one class and on the same thing.", "quantifier": "for all sequences of recorders, classes, targets, given names and components already in the model", "why_tests_cant": "Tests create one or two unnamed recorders on nodes with different names; clashes between arbitrary classes, targets without names and given names are not enumerated.", "anchors": ["pywr/recorders/_recorders.pyx:224-226", "pywr/recorders/_recorders.pyx:459-463", "pywr/recorders/_recorders.pyx:480-484", "pywr/recorders/_recorders.pyx:511-515", "pywr/recorders/_recorders.pyx:548-552", "pywr/_component.pyx:93-102"]}
{"id": "C126", "title": "Objectives are optimised in the direction asked for", "statement": "is_objective of a recorder accepts exactly None and the texts maximise, maximize, max, minimise, minimize and min, reads back as None, 'maximise' or 'minimise', and what is read can be set again without a change; anything else is refused and leaves it as it was. An optimiser that minimises is given one number for every recorder made with a direction, in the order of the recorders: its aggregated value if it is to be minimised, and the negative of that if it is to be maximised.", "quantifier": "for all texts, lists of recorders, bounds and aggregated values, infinite ones and NaN included", "why_tests_cant": "Tests use one or two objectives with the usual spellings; a spelling that is taken for the other direction silently turns an optimisation round.", "anchors": ["pywr/recorders/_recorders.pyx:35-46", "pywr/recorders/_recorders.pyx:241-255", "pywr/_model.pyx:147-149", "pywr/optimisation/pygmo.py:20-24", "pywr/optimisation/platypus.py:131-135"]}
{"id": "C127", "title": "Licences read as prices follow how much is left for the rest of the year", "statement": "With x the ratio of what an annual licence has left for each remaining day of the year to what it had for each day of the whole year, leap years included, AnnualHyperbolaLicense returns value/x and AnnualExponentialLicense max_value*exp(-x/k). Both fall as more is left. With nothing left the first is infinite and the second exactly max_value; otherwise the first is finite and the second strictly between 0 and max_value. As long as each day takes its share of its year, from a first of January on and over any number of years, x is 1, the first is exactly value and the second max_value*exp(-1/k).", "quantifier": "for all positive amounts, values and k, all states of the licence, all timesteps of all years and all lengths of runs", "why_tests_cant": "Tests look at a few days of one year; that the price does not drift over leap years and changes of year, and that it is monotone, are statements about all states and runs.", "anchors": ["pywr/parameters/licenses.py:153-190", "pywr/parameters/licenses.py:193-228"]}
{"id": "C128", "title": "Table recorders close the files they opened and no others", "statement": "Whatever setup, reset and finish calls a table recorder gets, in whatever order and whether they are refused or not, the handles open on its file are those the user had open and has not closed, and besides at most one, that of the store the recorder holds between reset and finish. A tables.File handed over open is never closed by the recorder, and is refused exactly once the user has closed it. finish() always succeeds and leaves nothing of the recorder open. A recorder of a path can be set up again, and run again, at any time.", "quantifier": "for all sequences of calls, modes, handles of the user and points at which the user closes them", "why_tests_cant": "Tests run a model once or twice and look at the contents of the file; a handle that leaks or is closed too early shows only in particular orders of calls.", "anchors": ["pywr/h5tools.py:5-62", "pywr/recorders/recorders.py:421-428", "pywr/recorders/recorders.py:545-551", "pywr/recorders/recorders.py:679-685", "pywr/recorders/_tables_recorders.pyx:217-224", "pywr/recorders/_tables_recorders.pyx:379-385", "pywr/recorders/_tables_recorders.pyx:616-637"]}
{"id": "C129", "title": "What a schematic shows of a node", "statement": "The table of attributes of a node has one row for each public attribute that has a value and is not one of the internal ones (whatever their case), in the order of the attributes: components by name and type, or by type alone if they have no name, and everything else by its text; different values read differently. The classes of a node type are those on the way from its topmost ancestor below Node down to itself, in lower case, and the search for them ends for every hierarchy without circles.", "quantifier": "for all lists of attributes and values, all names and all class hierarchies without circles", "why_tests_cant": "Tests look at a few node classes of the library; user-defined nodes bring any attributes and hierarchies.", "anchors": ["pywr/notebook/__init__.py:237-291", "pywr/notebook/__init__.py:365-380"]}
