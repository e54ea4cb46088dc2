{
 "C04": {
  "note": "Holds for every instant except the last nanosecond of each period, where the code refuses (C04_last_instant_refuted)."
 },
 "C06": {
  "note": "Proved for the state right after the assignment; adding a scenario afterwards is not revalidated (refuted)."
 },
 "C07": {
  "note": "Holds without slices; false with slices (refuted)."
 },
 "C08": {
  "note": "Holds for every run that sets the model up and for later runs while components are untouched; components created or re-wired after a set-up are left out until something else marks the model dirty (refuted)."
 },
 "C09": {
  "note": "Holds for every set-up; a cycle declared after a set-up is not noticed by the next run, and a refused set-up of a clean model leaves an empty component list (refuted)."
 },
 "C10": {
  "note": "Holds for all modelled constructors except MultipleThresholdIndexParameter and MultipleThresholdParameterIndexParameter, for which it is false (refuted); re-assigning the numerator of a DivisionParameter can drop a dependency (refuted)."
 },
 "C100": {
  "note": "Proved for any array, buffer and point of stopping during a run. Refuted: with a model stepped by hand and then finished the last row is lost unless it completes a block (the residual is computed from the current timestep, which only `run` moves past the end), and `finish` without a current timestep fails if there is a buffer, hiding the error that stopped the setup. The storage of the file itself (PyTables), the attributes and the time and route tables are not modelled."
 },
 "C101": {
  "note": "Proved for every list of items in which no object is recorded again further on. Refuted: entries of two characters (a string is unpacked as a pair of path and name), node objects (the default path needs a string), an object at two paths (only the last array is written, the others stay zero), nodes called 'time' or 'scenarios', and a node and a parameter of the same name. Assumed of PyTables: a path cannot be created where there is already something or below an array."
 },
 "C102": {
  "note": "Proved for exact percentages (in doubles a percentage may come out one lower, never higher than 100). Refuted: `finish` of AssertionRecorder never raises \"never called\", as `sys.exc_info()` is a non-empty tuple also without an exception; without function and data the first timestep fails with a name error."
 },
 "C103": {
  "note": "C103_isolated in full. C103_rerun_partial: equal answers if the presolve flag is the same, in particular always without `use_presolve`. C103_presolve_refuted: with `use_presolve` only the first run after a set-up presolves (has_presolved is not reset), so the second run can take another of several optima."
 },
 "C104": {
  "note": "Choice, switches, keywords and settings proved. Refuted: options passed to `load` are dropped silently when the document has a \"solver\" item (C104_args_refuted); the settings do not contain use_unsafe_api, so results do not tell whether it was used (C104_unsafe_refuted)."
 },
 "C105": {
  "note": "Refuted: an assignment that raises (None or text for a cost or a volume) has already dropped the parameter (C105_refused_refuted); None as minimum flow of an aggregated node is minus infinity, not the 0 of a new one (C105_default_refuted); PiecewiseLink overrides the methods for one scenario but not those for all, so TablesRecorder's max_flow of it is not the bound in force (C105_piecewise_refuted)."
 },
 "C106": {
  "note": "Refuted: the list of virtual types misses monthly and rolling virtual storages, so documents show them as nodes (C106_agree_refuted); tables of attributes raise for documents without parameters and for attributes that are lists (C106_attributes_refuted; C106_attributes_partial has what is needed); scenario_agg_func is popped under the wrong key and ignored (C106_scenarios_refuted)."
 },
 "C107": {
  "note": "Refuted: with reflection at 0 and 1 the probability of the target 1 is less than 1 for any kernel that has mass everywhere (C107_full, C107_full_refuted); the PDF of normalised volumes is calculated from 0 to 1 although the volumes are from -1 to 1 (C107_range, C107_range_refuted). The normal distribution enters only through its symmetry, monotonicity and bounds."
 },
 "C108": {
  "note": "Refuted: \"indexes\" cannot be combined with \"column\" or \"index\" (C108_indexes_refused, C108_indexes_refuted), so the targets of FlowDurationCurveDeviationRecorder cannot be taken from a column (C108_target_refused); \"columns\" after \"column\" are labels of rows (C108_column_columns); comments are lost by Parameter.load, by constants from files and by DataFrameParameter, which passes keys as positional arguments and is named after the first (C108_comment_lost, C108_comment_refuted); tables can refer only to earlier ones (C108_order_refuted); the suffix Parameter is not optional for classes without it (C108_parameter_class_refuted)."
 },
 "C109": {
  "note": "Refuted: a reference to a part of a node (\"x (link)\" of a BreakLink) loads only if the entry of that node comes first (C109_order_refuted); C109_order holds for documents that refer to entries only (closed)."
 },
 "C110": {
  "note": "Refuted for documents that are not `direct`: a loaded reservoir with above_curve_cost and cost has no control curve (C110_reservoir, C110_reservoir_refuted); lists of splits have to include the extra slots in documents only (C110_split_lists, C110_split_refuted); null min_volume, costs, max_flows and initial_volume (C110_null, C110_null_refuted); references to parameters as cost of VirtualStorage or PiecewiseLink (C110_reference_refuted); limits of AggregatedNode are refused by its constructor (C110_aggregated, C110_aggregated_refuted). RiverSplit without costs needs a single step (C110_river_split_steps)."
 },
 "C111": {
  "note": "Refuted: generate_dataframes labels columns with the product of all scenarios whatever was run, so reordered combinations and reversed slices are shown under wrong labels (C111_generate_combinations_refuted, C111_generate_slice_refuted), other selections are refused (C111_generate_refused), and so are files of models without scenarios (C111_generate_no_scenarios) or with flows of several routes (C111_routes_refused). C111_generate holds when everything is run. Slices without start or end cannot be recorded (C111_tables_written, C111_tables_refuted); equal names of members or scenarios (C111_names_refuted, C111_names_alike_refuted); timesteps within a day share labels (C111_days_refuted)."
 },
 "C112": {
  "note": "Proved for states in which no component is held twice by the same holder and attributes without a setter keep what the constructor gave them. Refuted otherwise: a parameter held by two attributes is no longer declared when one of them is replaced (C112_shared_refuted), replacing the second raises and leaves the old one (C112_raises_refuted); a control curve given twice cannot be replaced (C112_curves_refuted); a member aggregated twice and removed once is no longer declared (C112_twice_refuted); attributes without a setter declare nothing when assigned (C112_plain_refuted); an aggregated parameter without members counts as nothing and stays declared when replaced, so that models without a cycle are refused (C112_empty_refuted)."
 },
 "C113": {
  "note": "Proved for documents with distinct keys whose numbers are in the document, and for classes with values also when they come from a file or table (C113_from_file). Refuted: five registered classes have no documents (C113_unloadable_refuted); the comment of a parameter with values is dropped (C113_comment_refuted), and so is an address beside values (C113_url_refuted); a text for a list of parameters is read letter by letter (C113_text_refuted); ControlCurveParameter does not read a file (C113_curve_file_refuted) and ControlCurveIndexParameter no single curve (C113_single_curve_refuted); numbers are refused by some and null by none of the classes that want a parameter (C113_loose_refuted); entries are not always named as arguments (C113_argument_names_refuted). Not modelled: what constructors refuse by the values of arguments (areas of the classes)."
 },
 "C114": {
  "note": "Proved for all documents with distinct keys. Refuted: a rolling mean drops all entries but four, misspelt ones included (C114_rolling_mean_refuted); the scenario of a deviation and the node of a recorder of a parameter have to exist and are not used (C114_scenario_refuted, C114_node_refuted); an aggregated recorder needs a function though one is the default (C114_aggregated_default_refuted); csv_kwargs cannot be given (C114_csv_options_refuted); an event recorder observes the parameter if there is also a recorder by the name (C114_observed_refuted); entries are not always named as arguments (C114_argument_names_refuted); the short name of TablesRecorder2 is not found (C114_short_type_refuted), and the second look-up finds only types no class is called by (C114_odd_type_refuted). Not modelled: what constructors refuse by the values of arguments (areas of the classes)."
 },
 "C115": {
  "note": "Refuted: a name of two letters is taken for a path and a name (C115_two_letters_refuted); nodes themselves are refused without a path (C115_node_itself_refuted); two parameters may get the same place by the replacement of slashes (C115_slashes_refuted); a node by the name of the table of times lets the run fail (C115_time_refuted); of two places for the same thing only the last is written (C115_twice_refuted, C115_earlier in general)."
 },
 "C116": {
  "note": "Proved for both wrappers, for the generator and for the cache. Refuted (C116_pygmo_refuted): pygmo's wrapper compares only the sums of the lengths of the bounds, so parameters with too many lower and others with too many upper bounds are not refused and bounds are paired wrongly. A given candidate that fails is tried again at each call and those after it are never reached (C116_order)."
 },
 "C117": {
  "note": "Proved. C117_unsafe_passes shows what the unchecked calls let through. Errors within GLPK (long jump) are not modelled."
 },
 "C118": {
  "note": "Proved: profiling changes neither calls nor exceptions (unless the profile is written to a file and is empty), the entries of setup and reset, their times, the file of one and of several models. The memory counter is not modelled. Refusal to write an empty profile (KeyError from set_index) is part of C118_dump."
 },
 "C119": {
  "note": "Proved for every timestep after a setup with saving on; nodes' flows are sums of saved flows where the node commits everything that passes through it (C119_accounts). Refuted: a recorder with routes_flows created after a run switches saving on while the array has one row only, so the next run raises in its first solve (C119_switched, C119_late_recorder_refuted)."
 },
 "C12": {
  "note": "Both GLPK solvers; any vector that meets the rows posed. For the edge solver with nothing on edges between domains."
 },
 "C120": {
  "note": "Counts and times are proved for every run. The speed leaves one timestep out (it multiplies the index of the last timestep by the number of scenarios), so a run of one timestep has speed 0: C120_speed_refuted; what it is instead: C120_speed_partial."
 },
 "C121": {
  "note": "Proved for any division of days into consecutive non-empty periods: daily data to calendar periods (value and exact success condition), calendar periods to days (value and exact success condition), and to timesteps of several days by equality with C99's model on daily data. Refuted in two respects: months covered only partly by the data are accepted, and months have equal weight in yearly means. Missing: frequencies of several calendar periods (e.g. two months), sub-daily ticks."
 },
 "C122": {
  "note": "Passing, each error and the warning are characterised exactly. Refuted: virtual storages that are part of another node are not looked at."
 },
 "C123": {
  "note": "Proved for timesteps of at most a day, for nodes that comply and for nodes of a network (C123_in_model). Refuted for longer timesteps: the rest is offered as the flow of every day."
 },
 "C124": {
  "note": "Proved for all keyword dictionaries. Two parts of the statement are false: of a function given by a dictionary only the name is read back, so that a percentile is lost when `func` is copied (C124_read_back_refuted), and a refused assignment clears the callable of a custom aggregator (C124_set_refused_refuted). What the functions compute is C89, which keywords a class takes is C114."
 },
 "C125": {
  "note": "Proved for all sequences, up to the names of what the recorders are on. The last sentence is false for different things of one name: two parameters without names (C125_parameters_refuted); and two unnamed recorders on nothing, such as aggregated ones, always clash (C125_on_nothing_refuted)."
 },
 "C126": {
  "note": "Proved for all texts and recorders. Both wrappers compute the objectives in the same way; the constraints are C79."
 },
 "C127": {
  "note": "The statement is proved for positive amounts, values and k. Outside them it fails, with witnesses: with nothing left the hyperbola is minus infinity for a negative value and NaN for the value 0, not the documented infinity, as the quotient of numpy numbers never raises ZeroDivisionError; and a licence of nothing gives NaN in both. C127_used gives the ratio in every timestep of a year from what has been used in it, for timesteps of any length, as long as the licence lasts."
 },
 "C128": {
  "note": "Proved for all sequences but for the last sentence: set up once and then run any number of times nothing is refused (C128_runs), but a recorder that is set up again before finish() is refused its own file (C128_again_refuted). Relies on PyTables' rule of which modes can be open together, assumed as stated in Store_model. What is written to the file, and its metadata, are not part of this model."
 },
 "C129": {
  "note": "Proved but for two parts: the elements of a list are run together, so that different lists read the same (C129_lists_refuted); and of a class with several bases that are nodes only the ancestors of the last are followed (C129_two_bases_refuted), while with at most one all ancestors are there (C129_ancestors). The attributes are taken as inspect.getmembers yields them."
 },
 "C13": {
  "note": "Both GLPK solvers, up to the rounding 1e-8 of the bounds. The edge solver commits what GLPK puts on the column of an edge between domains, which is in no row; theorems about it assume nothing is put there (refuted without)."
 },
 "C15": {
  "note": "The accumulated identity for the formula, and C15_in_model for the volumes of a model that is run step by step."
 },
 "C16": {
  "note": "Both GLPK solvers. Exact limits: the net flow lies between minus the water available and the room left, per day."
 },
 "C17": {
  "note": "Route solver: exact when route costs are zero or at least 1e-8 in size (smaller ones are rounded to zero by the code); otherwise within 1e-8 times the total flow. Edge solver: exact (its costs are not rounded)."
 },
 "C18": {
  "note": "Holds for links, and for inputs/outputs when no output is drained by, and no input fed within, the same domain; false otherwise (refuted)."
 },
 "C19": {
  "note": "Route solver: holds when no route passes two members; false for members in series (refuted). Edge solver: holds for members in series, not for a member joined to an output that is also a member."
 },
 "C21": {
  "note": "Holds for licences over links, inputs and outputs each listed once, with solver tolerance; a node listed twice or a storage as member breaks it (refuted)."
 },
 "C22": {
  "note": "Cap holds up to 1e-6 per elapsed timestep (snapping to the maximum), exactly when nothing is snapped; snapping and negative factors break the exact cap (refuted). C22_in_model: in a run from reset, what was charged k-1 timesteps ago (at first the initial utilisation) comes back."
 },
 "C23": {
  "note": "Reset exactly in the first timestep of a year on or after the reset date (unless the run starts after it); exactly on the date with daily steps. A year whose last timestep starts before the reset date is skipped (refuted). C23_in_model: the same for the volumes in a run of a model."
 },
 "C24": {
  "note": "Proved for 0 <= initial_months <= months, in month changes seen and, if no month is skipped, in calendar months. initial_months > months never resets, year-long steps never see a change (refuted). C24_in_model: the same for the volumes in a run of a model."
 },
 "C25": {
  "note": "Proved for the first run, timesteps that do not step over the season's ends, and a start in season or before the season of the year. Second run, start after the season, weekly steps with end 31 Dec, and equal bounds are refuted. C25_in_model_partial: the same for a storage of a model that is run."
 },
 "C26": {
  "note": "Both solvers, every LP answer; the inside of the node is shown to survive any connecting and disconnecting of other nodes. A parameter that is zero in a timestep, or any parameter with type gross, raises (C26_zero_parameter, C26_setup); a factor of one leaves the net link closed for later factors (C26_blocked_after_one)."
 },
 "C27": {
  "note": "flow = sum of the steps' flows (C27_flow; C27_solved in terms of the solver's answer), prev_flow in the next timestep (C27_prev), limits (C27_limits; sums of numbers, infinite if a maximum is). That the solver commits nothing to the link itself is a hypothesis (it lies on no route). Sums are exact (Q)."
 },
 "C28": {
  "note": "Route solver: every optimal answer of every network containing the node; the inside survives any connecting and disconnecting of other nodes. Costs that the solver rounds to zero are not told apart (C28_tiny_costs_refuted). Edge solver: where the two solvers can be compared (C28_edge_order_partial). Steps are not members of virtual storages or aggregated nodes (so not MultiSplitLink with its extra slots), and have minimum flow zero and conversion factor one."
 },
 "C29": {
  "note": "Flows, loads of edges and objective agree both ways on acyclic networks of any number of domains; one domain: same set of flows and same optima. Not on cyclic networks, for members of an aggregated node in series, a licence member listed twice, a storage joined to itself, an unfed link (all refuted)."
 },
 "C30": {
  "note": "Both solvers, every network that can be built, every history of set-ups, resets, timesteps and scenarios in which what counts as constant stays so (C30_steady says when). The refuted theorems are about constants that are changed: a number given to node.cost after the set-up is never picked up with set_fixed_costs_once, a number given to node.max_flow only in the next run, and a number replaced by a varying parameter makes the next run fail. Uninitialised memory of the cost array is arbitrary. Errors of the two settings may differ in kind.",
  "status": "proved"
 },
 "C32": {
  "note": "Proved for every node that is not a compound/aggregating one: ordinary nodes, storages with their inputs and outputs, PiecewiseLink, virtual/rolling/annual/monthly storages (C32_prev_flow, C32_prev_flow_child, C32_first, C32_first_run, C32_flow); seasonal storages: C32_seasonal. Refuted for BreakLink, DelayNode, LossLink, AggregatedNode, AggregatedStorage (prev_flow stays 0) and for inactive seasonal storages (stale)."
 },
 "C33": {
  "note": "C33_rerun_partial: any two runs give equal states of nodes, components and values after every timestep, for every history before, if (a) components forget at reset (proved for FlowDelay, RollingMean, Flow, Deficit, threshold ratchets, StorageLicense, AnnualLicense: C33_components_partial), (b) nothing reads prev_flow of nodes with a parent in the first timestep, (c) no seasonal storages, no aggregated storages over variable max_volume, no monthly storage that resets in the first timestep to a parameter. Each of (b), (c) is necessary: four refutations. Recorders (C33_recorded_partial with C33_recorders_forget, C33_annual_threshold, C33_window, C33_rolling_mean_partial): the output after a second run is that of the first, also where reset leaves arrays as they are; refuted for RollingMeanFlowNodeRecorder if the second run stops early, and for rolling windows after reset(start). Missing: recorders that write files or print; the solver is taken as a function of what it is given (C103 shows when this is so: the bases are forgotten at reset, only that it has presolved is not); user edits between runs."
 },
 "C35": {
  "note": "With a parameter as max volume the code takes initial_volume and initial_volume_pc as given without checking them against each other (refuted part)."
 },
 "C36": {
  "note": "Volume: holds while no member is snapped to a bound or reset on its own, otherwise bounded drift; false in general (refuted)."
 },
 "C37": {
  "note": "FlowDelayParameter and DelayNode from a fresh reset; a timestep length not dividing the days is refused."
 },
 "C38": {
  "note": "Runs that start at ts.index 0; after reset(start) the empty memory is averaged in (refuted)."
 },
 "C39": {
  "note": "Mean and median of indices, and any/all of values, are refused by the constructor as in the code; the custom function option is passed through."
 },
 "C40": {
  "note": "Proved for the curves known at construction; curves assigned later without refreshing the values are refuted."
 },
 "C42": {
  "note": "Proved for breakpoints that start at or above zero and increase; a first breakpoint below zero is refuted."
 },
 "C43": {
  "note": "Reset dates from 1 March on, and any reset date in leap years: exact. Earlier reset dates in years without 29 February are one day off (partial theorem states the exact values); 29 February as reset date never reaches 1 in such years."
 },
 "C45": {
  "note": "Proved for years whose first timestep starts at midnight (always so with timesteps of whole days) or that contain the start of the run. Refuted for timesteps of a fraction of a day that cross the new year off midnight. C45_in_model, C45_edge_in_model: the same for a node of a network whose max_flow is the licence, with whatever the solver commits, up to 1e-5 (bounds are rounded on their way to the solver)."
 },
 "C46": {
  "note": "Storage licences, and the upper bound for annual licences, in full. Annual licences can become negative when a timestep longer than a day carries a flow into the new year (refuted); proved otherwise."
 },
 "C47": {
  "note": "Index as stated for every class; the ratchet clause fails for a recorder threshold, whose first index (initial_value, 1 by default) does not set the ratchet (refuted)."
 },
 "C48": {
  "note": "For the list of thresholds as read in the timestep. That the thresholds are not registered as children is C10."
 },
 "C49": {
  "note": "Exact arithmetic; the head is the water level difference as the code computes it."
 },
 "C51": {
  "note": "Runs to the end of the timestepper, as model.run makes them. Advancing with step() and then finish() divides by one timestep too few (refuted)."
 },
 "C53": {
  "note": "Timesteps of whole minutes that contain at most one year end. A timestep covering a complete year books it wrongly, and around 1 January 1970 a nanosecond is lost (refuted)."
 },
 "C54": {
  "note": "The trigger is the truncated integer value of a parameter or recorder, so a fraction does not trigger although the documentation says non-zero (refuted part)."
 },
 "C55": {
  "note": "Missing: events that are open when the run ends are reported however short they are (refuted)."
 },
 "C56": {
  "note": "Runs that start at ts.index 0 and aggregates that ignore order; order-dependent aggregates and reset(start) break it (refuted)."
 },
 "C57": {
  "note": "Proved with exact numbers and a finite range. With the default infinite upper bound, or in double precision with epsilon below the spacing of doubles, the loop can go on for ever (both refuted)."
 },
 "C58": {
  "note": "Finite bounds or none; values may be infinite or NaN. An upper bound of minus infinity is forgotten (refuted)."
 },
 "C59": {
  "note": "Uniqueness, refusal of taken names, lookup and recursive deletion are proved for all sequences of creating, renaming and deleting nodes of the modelled classes, and uniqueness and lookup for parameters and recorders. Refuted: a hidden sub-node with the same name is found and deleted first; helper nodes without a parent survive the deletion of a LossLink; deleting a parameter or recorder by name has no effect."
 },
 "C60": {
  "note": "Proved for documents whose definitions are typed dictionaries and where no nested recorder has the name of a defined one: loading always ends, makes exactly one component from every typed dictionary, every reference gives the one component of that name, circles and undefined names are refused, and every document without circles, with defined references and distinct names is loaded. Refuted: an untyped definition can be referred to only once, a definition in the section recorders is dropped when a nested recorder has its name, and a reference to a nested name depends on the order of the definitions. What a class does with its data beyond loading its children is one bit."
 },
 "C61": {
  "note": "Lock-step, order, finishing and the check of the scenarios are proved for any number of sub-models and timesteps. Refuted: a sub-model with more timesteps is cut short without an exception."
 },
 "C62": {
  "note": "Start and end are proved; the timestep is not passed on (assigned to an attribute that is not used): refuted."
 },
 "C63": {
  "note": "Parameters with variables: constant, offset, activation functions, monthly profile, harmonic series, control curve, radial basis function profile. A control curve with a repeated index is refuted."
 },
 "C64": {
  "note": "All volumes and curves except both equal to 1, where the code divides by zero (refuted)."
 },
 "C65": {
  "note": "Order and counts of the calls are proved for every run length, and finishing for every point at which something raises. Refuted: a component made after the first run takes no part in the next (the model is not marked dirty); an exception in a finish hook leaves the rest unfinished; an interrupted setup after a change of dates alone is not repeated."
 },
 "C66": {
  "note": "Proved for ConstantScenario(Index)Parameter, ArrayIndexedScenarioParameter, the monthly factors, the three scenario profiles and ScenarioWrapperParameter: every combination run has exactly one, existing, member of every scenario, and the value is the one given for it; tables of the wrong shape are refused."
 },
 "C67": {
  "note": "connect is characterised for every kind of node; disconnect for edges to ordinary nodes and to storages; for whole programs the edge between two ordinary nodes exists exactly if connected and not disconnected since, edges stay within one model and changed models are marked. Refuted: disconnecting from a storage (the edges start at its inputs, so disconnect(v) raises and disconnect() does nothing), and disconnecting to a compound node (iter_slots there does not take all_slots: TypeError)."
 },
 "C68": {
  "note": "Without a cache, and for files that do not change, a check passes exactly for the right digest, for every history of checks. Refuted: a file that changes after a check of the same model is accepted (the cache is not tied to the contents); chunk_size=0 reads nothing."
 },
 "C69": {
  "note": "Thresholds of at least 1, or indices that are never negative; otherwise the starting value 0 of the yearly maximum is counted (refuted). A range that begins or ends on 29 February raises in other years (refuted)."
 },
 "C72": {
  "note": "Missing: with variable_days_of_year_range the bounds can exceed day 365 (refuted)."
 },
 "C73": {
  "note": "Proved for plain nodes, storages and for renaming; refuted for PiecewiseLink (sub-nodes remain), LossLink (a visible node remains) and for components whose subclass constructor raises after registration."
 },
 "C74": {
  "note": "Proved for MultiModel.load_from_dict; refuted for MultiModel.load, which passes solver=None."
 },
 "C75": {
  "note": "Every list is appended once and in order, also those of documents included by included documents, the last entry of a dictionary counts, python files add nothing, names of other kinds are refused, and reading ends unless documents include others. Refuted: a document read from a file gets every included list twice, because loads and load_from_dict both read the includes; a document that includes itself is read for ever. Not modelled: joining names with the directory, what python files do."
 },
 "C76": {
  "note": "Proved for distinct names; refuted otherwise: the earlier definition is dropped without an error."
 },
 "C77": {
  "note": "Soundness is proved in full: a value returned is that of the member. That one is returned is proved for user combinations, unsliced scenarios and slices with 0 <= stop <= size, start not negative and positive step; refuted for slices without a stop (TypeError in setup), stops outside the scenario and negative steps (IndexError at run time). For tables the row is proved for offsets that stay within the run; refuted beyond: with some columns loaded, only the rows of the run are, so a look ahead is clipped at the end of the run instead of at the end of the table."
 },
 "C78": {
  "note": "Holds when the members are ordinary nodes or storages, or come earlier in graph order (always so for models loaded from JSON, where members are created first). Refuted for a compound member later in the graph, reachable by assigning `nodes` after construction."
 },
 "C79": {
  "note": "Shape and direction are proved. Feasibility is proved with equality constraints compared with 0 (C79_feasible_partial), and as stated when equalities are with 0 (C79_same_as_model). As stated it is false: eq_constraints.append(x) forgets to subtract the bound, so an equality with another value is presented as x = 0 (C79_equality_refuted)."
 },
 "C80": {
  "note": "Proved for double variables (same as platypus, and read back). False for integer variables: the whole segment is handed to set_double_variables, so every candidate is refused (C80_integers_refuted)."
 },
 "C81": {
  "note": "Edge and route solver: equal sets of reported flows, equal cost of optima, storage of the BreakLink stays empty; connect calls give the rerouted edges. Hypotheses as for C29 for the route solver (both networks comparable, no cycle, no storage short-circuited, no route cost strictly between 0 and 1e-8). Refuted when the node is a member of an AggregatedNode: it is on no route and not limited."
 },
 "C82": {
  "note": "Given back = due amount (0 if below 1e-8); over a run the balance holds to 1e-8 per timestep, exactly without traces below 1e-8. Refuted for timesteps of different length (months): rates are delayed, so volumes are not kept.",
  "status": "proved"
 },
 "C83": {
  "note": "Same reported flows and same optima under explicit conditions on the data (shown to hold in the example); exact limits unconditionally; Parameters as limits or factors of aggregated nodes are refused. Refuted outside the conditions: volume above a falling maximum volume (no answer, where GLPK has one), aggregated limit changed after setup (not followed).",
  "status": "proved"
 },
 "C84": {
  "note": "Proved for both GLPK solvers. The reading that each slot takes exactly its share is refuted (C84_exact_share_refuted): what an extra slot does not take of its share stays in the river, also in a cheapest answer. The statement does not claim it.",
  "status": "proved"
 },
 "C85": {
  "note": "Catchment for both GLPK solvers; gauge for the route solver. A flow of None leaves a catchment free (C85_flow_none)."
 },
 "C86": {
  "note": "Proved: which timestep a value belongs to, for parameters, flows, volumes and shadows; runs repeat when parameters refer only to parameters of earlier models. Refuted: in the first timestep a parameter of a later model has never been evaluated, so uninitialised memory is read (in the next run: the last value of the previous run), hence runs do not repeat in general; prev_flow of a shadow of an earlier model's node is the flow of the current timestep. Not modelled: a model that refers to itself, child nodes as targets."
 },
 "C87": {
  "note": "Proved for a Model and for the first model of a MultiModel. Refuted for the other models of a MultiModel: zip stops before advancing their timesteppers, so an event open at the end of the run ends at the last timestep instead of after it, and its duration is one timestep too short. Pandas' grouping and aggregation are modelled, not verified; NaN among the tracked values is not modelled."
 },
 "C88": {
  "note": "Proved for all kinds of series and curves. Refuted: FlowDurationCurveDeviationRecorder.load takes `scenario` out of the document and does not pass it on, so a loaded recorder compares with the wrong target (user combinations) or is refused in setup (several scenarios); where a target is zero the deviation is NaN even for a curve between the targets. np.percentile is modelled, not verified; NumpyArrayNodeDeficitRecorder: see C51's deficit."
 },
 "C89": {
  "note": "Proved for all shapes. Refuted: with ignore_nan every recorder with a time series fails (a two dimensional mask gives a one dimensional array, which does not fit the declared memory view); AggregatedRecorder has no default function although \"mean\" is documented; it accepts \"median\", \"percentile\" and \"count_nonzero\" and fails when asked for values; with all members NaN \"max\" and \"min\" report -inf and inf. numpy's behaviour is modelled, not verified. The percentile of a score (all four kinds) is stated by counts of smaller and equal values (C89_score), with its monotony, range and columns."
 },
 "C90": {
  "note": "The metrics are proved for all series. Refuted: one observed series cannot be compared with several scenario combinations (pandas refuses the shapes), and aggregated_value always fails because values() gives a pandas Series where a buffer is needed, so these recorders cannot be objectives. Square roots use the standard library's real numbers (their axioms are listed in DESIGN.md); pandas' and Cython's conversion rules are modelled, not verified."
 },
 "C91": {
  "note": "Proved for linear interpolation; other kinds of interp1d and InterpolatedQuadratureParameter are not modelled, scipy's interp1d is modelled, not verified. Refuted: initial_level of an aquifer cannot be read (TypeError) until the model has been set up, even just after it was given."
 },
 "C92": {
  "note": "Proved for parameters and storages. Refuted: a node's flow is always zero when parameters are calculated (nodes' before() comes first), so the documented previous flow is never used; C92_node_flow shows that the polynomial is taken at the offset in every timestep of every run. Without any source there is nothing to read: Parameter._node is never assigned."
 },
 "C93": {
  "note": "Refuted: min_output is documented as the value at 0, where it is 0. C93_logistic is about real numbers, not floating point exp."
 },
 "C94": {
  "note": "Refuted: a predicate given as a number is not checked; any unknown number tests for equality. The classes are not registered, so they cannot be named in a JSON document (not modelled)."
 },
 "C95": {
  "note": "Refuted: a constant parameter as maximum volume is refused (`is_constant()` calls a boolean); storages beyond the number of profiles are left out silently. A total volume of zero gives NaN."
 },
 "C96": {
  "note": "Overflow of a C int index counts as an exception. The two multiple-threshold classes are left out: they forget their dependencies (see C10)."
 },
 "C97": {
  "note": "Proved with scipy's Rbf replaced by any function through its points. Refuted: variable_days_of_year_range can offer the optimiser days after 365 for the last day, which set_integer_variables then refuses; and explicit bounds need not be as many as the days to be varied."
 },
 "C98": {
  "note": "Proved for all runs (each starts with a reset) and rates above -1. Refuted: variables set after a value was asked for do not show within the same timestep, because the cached value is kept. C98_leap_shift records that dates after February are one day later in the series in leap years."
 },
 "C99": {
  "note": "Proved for frequencies of whole days with pandas' slicing, binning, mean and forward fill as described in Resample_model.v (hour frequencies not modelled). Refuted: a missing day inside a timestep is skipped by the mean, so the check for missing values does not see it, and the last timestep may be averaged over only the days the data reach. Calendar periods are in C121."
 }
}