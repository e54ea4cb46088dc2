# Formal model of pywr — design

Subject: `pywr/pywr` as found in `/repo` (Python/Cython water resource simulator).
The code is read as text only; nothing of it is built or run here.  The proofs are about
the Gallina model in `rocq/theories`, and the tie to the code is the citation carried by
each definition.

## Conventions

* **Numbers.** Doubles are modelled as exact rationals (`Q`), so rounding is out of the model.
  Where the code depends on infinities or NaN the model uses an explicit extended type or an
  `option`, with the branch spelled out.  C/Python integers are `Z` or `nat`; nothing proved
  depends on overflow.
* **Exceptions** are values (`option`, `sum` or a dedicated result type).
* **External code.** GLPK is an oracle: theorems that mention a solved timestep quantify over
  *every* vector that satisfies the rows and column bounds the code posed (and, where needed, is
  optimal for the objective posed).  pandas/numpy/networkx calls are replaced by the Gallina
  definition of what the call returns; each such place is named in the comment of the definition.
* **Layout.** For each area `X`: `X_model.v` (the code, function by function, each with a citation
  of file and lines), `X_spec.v` (small specification, does not mention the model's helpers; present where the
  specification is more than a formula), `X_proofs.v` (lemmas), and `X_props.v` (only the property
  theorems, each closed by `exact`, with `Print Assumptions` below and examples that meet the
  hypotheses).
* Names: `Cnn_...` for the theorems of property `Cnn`; the suffix `_partial` if the theorem is
  weaker than the statement in `properties.jsonl`; `_refuted` if the statement (or a part of it) is
  false of the model, with a concrete witness.

## Trusted base

* Coq 8.16.1's kernel (and `vm_compute`, used for concrete examples and witnesses and finite sweeps).
* What `Print Assumptions` lists under each theorem — see section "Assumptions" below (kept current).
* The faithfulness of the hand translation, definition by definition.
* Exact arithmetic in place of IEEE doubles.

## Assumptions

Every property theorem is followed by `Print Assumptions`; all but the following print *Closed under the global context*
(no axiom, not even one of the standard library).  The exceptions speak of square roots, exponentials, cosines or distributions and use the
standard library's real numbers: `C90_rmse`, `C90_ratio`, `C93_logistic`, `C98_series`, `C98_accepted`, `C98_range`, `C98_period`,
`C98_variables`, `C98_set_shows_refuted`, `C127_exponential`, `C127_cheaper`, `C127_on_track`, `C127_nothing_refuted` and all theorems of C107.  For them it lists axioms of that library, no others:

* `ClassicalDedekindReals.sig_not_dec : forall P : Prop, {~ ~ P} + {~ P}`
* `ClassicalDedekindReals.sig_forall_dec : forall P : nat -> Prop, (forall n, {P n} + {~ P n}) -> {n | ~ P n} + {forall n, P n}`
* `FunctionalExtensionality.functional_extensionality_dep`
* `Classical_Prop.classic : forall P : Prop, P \/ ~ P` (only `C93_logistic`, `C127_exponential`, `C127_cheaper` and C107)

`tools/manifest.py` lists the theorems.

## Modelled / not modelled

Modelled (see the citation at each definition): calendar fields of a timestep, the timestepper, scenario
collections, component graph and `flatten`, route enumeration, the linear programme of the route-based GLPK solver
(rows, bounds, costs, commit loop), storage volumes, percentages, resets and aggregated storages,
virtual storages, rolling licences, and the reset/activity decisions of annual, seasonal and monthly licences,
flow delays, rolling means and window recorders, control curves and the piecewise integral, aggregated parameters,
drawdown and interpolated monthly profiles, storage and annual licence parameters,
threshold parameters,
hydropower and Keating stream flow formulas, node/parameter/storage recorders with one value per scenario,
ratios, normalised storage, annual totals (with the conversion of timestamps to double) and annual counts,
event recorders, the bisection search (with exact numbers and with IEEE doubles, both as instances of one loop), recorder
constraints and their platypus form, optimisation variables and their packing,
the names of nodes and components: constructors of Node, Storage, PiecewiseLink, MultiSplitLink, BreakLink, DelayNode and LossLink as far as names and parents go, renaming, `NodeIterator` and `NamedIterator` lookup and deletion,
`check_hash` with its cache; the order of calls in `Model.run`, `setup`, `reset`, `before`, `after`, `finish` and in `MultiModel.run`; the reading of includes; time and solver settings in `MultiModel.load_from_dict`,
`load_parameter`, `load_recorder` and the loops over parameters, recorders and nodes of `Model.load_from_dict` (_parameters.pyx 2292-2346, _recorders.pyx 2211-2255, _model.pyx 410-453, nodes.py 78-88),
  the scenario-dependent parameters (_parameters.pyx 192-270, 305-335, 338-440, 515-612, 798-910, 1228-1258; parameters.py 359-405),
  connecting and disconnecting (nodes.py 91-173 and every iter_slots),
the life cycle of all node classes (`before`, `commit`, `after`, `reset`, `setup`) and of the parameters with memory run together (Nodes_model, Nodes_components; where a method raises the state is left),
the edge solver (EdgeLP_model.v: columns, rows, costs and commits of CythonGLPKEdgeSolver),
LossLink (nodes.py 1242-1364: the nodes, edges and slots, setup),
PiecewiseLink (nodes.py 760-887: the nodes, edges and slots),
the GLPK problem as it is kept between calls of both solvers (setup, reset, _solve_scenario) with the options set_fixed_flows_once, set_fixed_costs_once and set_fixed_factors_once, the nodes' has_fixed_cost, has_constant_flows, has_constant_factors,
`optimisation/pygmo.py` (`fitness` without the simulation itself, `get_nobj`, `get_nec`, `get_nic`, `get_bounds`),
BreakLink with its inner nodes, connected like a Link and compared to it (nodes.py 1074-1171),
DelayNode within a run: memory of the delay, row of its Input, flow of its Output (nodes.py 1174-1239),
the lpsolve solver: rows, bounds and costs posed, flows committed (cython_lpsolve.pyx 69-88, 148-471, 482-598),
MultiSplitLink, RiverSplit, RiverSplitWithGauge: what the constructors build and connect, the constructor's checks, the hidden aggregated node (nodes.py 890-1015, river.py 112-233),
Catchment, Reservoir, RiverGauge: the attributes their constructors and properties set (river.py 22-98, 246-300; _core.pyx 514-520, 580-645),
the exchange of values between the models of a MultiModel: OtherModel* parameters, ShadowNode, ShadowStorage, arrays kept or cleared by setup and reset (multi_model_parameters.py, _core.pyx 1539-1596),
EventDurationRecorder and EventStatisticRecorder (events.py 208-361), pandas' sum, mean, min, max, count on non-empty groups,
the NumpyArray recorders, flow and storage duration curves, seasonal curves and deviations from targets (_recorders.pyx 574-1553 except index parameters' lack of values), np.percentile with linear interpolation,
Aggregator.aggregate_1d and aggregate_2d, Recorder.aggregated_value for recorders with a series, AggregatedRecorder (_recorders.pyx 9-184, 333-335, 358-446; percentileofscore for numbers in Score_model.v),
the comparison recorders (calibration.py): metrics on aligned data, the shapes pandas can subtract, the type returned; not the alignment itself,
linearly interpolated parameters (parameters.py 124-277; scipy's interp1d with kind linear) and KeatingAquifer (groundwater.py),
polynomial parameters (_polynomial.pyx),
activation functions as parameters (_activation_functions.pyx; exp over the real numbers),
threshold recorders (recorders/_thresholds.pyx),
WeightedAverageProfileParameter and daily profiles (_control_curves.pyx 554-628, _parameters.pyx 615-641),
one whole evaluation of parameters built from parameters (_model.pyx 844-848 with calc_values of the composite classes),
daily, weekly and radial-basis-function profiles (_parameters.pyx 615-662, 985-1184; scipy's Rbf is an argument),
AnnualHarmonicSeriesParameter over the real numbers and DiscountFactorParameter (_parameters.pyx 1315-1408, 2165-2187),
alignment and resampling of data between frequencies of whole days (dataframe_tools.py 20-103, 114-127, 149-152), the look-up with an offset in DataFrameParameter,
the buffered writing of TablesRecorder2 (_tables_recorders.pyx 249-262, 380-424, 500-640), one array at a time,
the items, paths and arrays of TablesRecorder and the lines of CSVRecorder (recorders.py 113-225, 332-356, 408-600, without attributes, compression and the tables of routes), given what PyTables creates, removes and refuses,
ProgressRecorder and the end of JupyterProgressRecorder (progress.py 8-64, 85-93) with exact percentages, AssertionRecorder (recorders.py 38-110),
the memory of the GLPK solvers between solves: bases by scenario, first solve, presolve, second attempt (cython_glpk.pyx 173-186, 197-233, 738-739, 758-759, 821-831, 1025-1063 and the same of the edge solver); GLPK is any function of posed problem, starting basis and presolve flag,
the choice of the solver and its options (solvers/__init__.py 17-35 and constructors and settings, _model.pyx 74-75, 95-111, 343-367, the constructors' keywords of cython_glpk.pyx and cython_lpsolve.pyx); time and iteration limits are accepted but have no meaning in the model,
recorders from one run to the next: what reset leaves (Forget_model.v) for the array, constant, rolling, annual and event recorders,
the attributes of nodes that are numbers or parameters and their getters for one and all scenarios (_core.pyx 500-709, 749-756, 829-905, 953-1004, 1046-1108, 1170-1266; nodes.py 834-838),
schematics of models and documents, Sankey links, aligned series (notebook/__init__.py 171-234 and 291-364, notebook/sankey.py 6-74, notebook/figures.py 17-56),
kernel density estimates (recorders/kde.py), with scipy's gaussian_kde as documented and any symmetric kernel,
loading data: load_dataframe and read_dataframe (dataframe_tools.py 159-314), load_parameter_values, look-up of classes by type, the tables of a model; pandas' readers are an arbitrary function of their arguments, selection by label as documented,
creation of the nodes of a document (_model.pyx 407-412, 442-454, 481-494; nodes.py 43-91; _core.pyx 385-394),
constructors of nodes and loading of their numeric attributes (nodes.py 43-91, 214-244, 344-393, 456-481, 793-867, 934-989, 1063-1069, 1107-1155, 1263-1347; domains/river.py 24-293),
data frames of results and tables of scenarios in files (_core.pyx 55-73, 190-200; recorders/_recorders.pyx to_dataframe; recorders/recorders.py 477-537, 650-730; recorders/_tables_recorders.pyx 279-380, 640-683; _model.pyx 874-882, 1086-1099),
setters of attributes holding parameters and the methods adding and removing one (parameters/_parameters.pyx 1488-1494, 1608-1614, 1698-1725; parameters/_hydropower.pyx 134-168; recorders/_hydropower.pyx 118-124, 223-229; parameter_property.py; parameters/_control_curves.pyx 48-68, 322-343; parameters/_thresholds.pyx 117-132; recorders/recorders.py 345-381; recorders/_tables_recorders.pyx 142-179),
class methods load of all registered parameters but DataFrameParameter, and the signatures of their constructors (parameters/_parameters.pyx 125-2272, parameters/_control_curves.pyx 77-92, 217-226, 300-304, 367-370, 484-499, 617-620, parameters/_thresholds.pyx 150-388, parameters/_hydropower.pyx 208-227, parameters/_polynomial.pyx 87-100, 170-175, parameters/_activation_functions.pyx 52-155, parameters/parameters.py 111-412, parameters/licenses.py 98-101, parameters/multi_model_parameters.py 25-109), get_parameter_from_registry and load_parameter (parameters/_parameters.pyx 2276-2345),
class methods load of all registered recorders and the signatures of their constructors (recorders/_recorders.pyx 340-2149, recorders/_hydropower.pyx 106-270, recorders/_tables_recorders.pyx 37-187, recorders/recorders.py 135-389, recorders/events.py 58-358, recorders/kde.py 37-142), load_recorder (recorders/_recorders.pyx 2211-2255),
TablesRecorder._add_parameter, _node_attribute, setup, reset, after (recorders/recorders.py 344-369, 391-492, 549-685) and the same of TablesRecorder2 but for buffers (recorders/_tables_recorders.pyx 140-165, 189-318, 386-569), on top of a file of arrays by paths in place of PyTables; not: attributes of arrays, filters, titles, contents of the tables of scenarios and routes,
`optimisation/platypus.py` (`PlatypusWrapper.__init__` and `_make_variables`, `PywrRandomGenerator`; platypus itself is not modelled), the cache of models in `optimisation/__init__.py`,
the checked and unchecked calls of GLPK with NaN and infinities (solvers/cython_glpk.pyx 251-336, 763-819, 826-1031, 1640-1855; Nan_model.v),
the profiler of setup and reset (profiler.py 33-77; the memory counter is not modelled),
the route flows kept by the route-based solver and taken by recorders (cython_glpk.pyx 457-466, 826-828, 1068-1093; recorders.py 331-333, 672-678),
the timers and the counts of `ModelResult` (_model.pyx 640-682, 818-820, 825-860, 1066-1082),
alignment of data where the data or the timesteps are of calendar periods (`dataframe_tools.py` 20-150, for daily data or timesteps of whole days),
`Model.check` and `NodeIterator` (`_model.pyx` 163-188, 931-951, 1000-1012) with the `check` methods of nodes,
the keywords that name the functions of recorders and the setter of Aggregator (recorders/_recorders.pyx:79-110, 218-239, 832-845, 1263-1276, 1558-1575;
  recorders/events.py:58-64, 231-239, 308-317),
the default names of recorders (recorders/_recorders.pyx:224-226, 459-463, 480-484, 511-515, 548-552),
the directions of objectives (recorders/_recorders.pyx:35-46, 241-255),
values of the exponential and hyperbola licences (parameters/licenses.py:153-190, 193-228),
the life of the file of a table recorder (h5tools.py:5-62 without directories and metadata; recorders/recorders.py:421-428, 545-551, 679-685; recorders/_tables_recorders.pyx:217-224, 379-385, 616-637),
the attributes and classes a schematic shows of a node (notebook/__init__.py:237-291, 365-380).

Calendar fields of a timestep (`period.year`, `month`, `day`, `dayofyear`) are taken from the first day of the period, which
is what pandas reports for day and hour frequencies; for week, month and year frequencies pandas reports the last day, and
those are outside the theorems that mention calendar fields.

Not modelled: floating point rounding, GLPK itself, pandas/numpy internals, file and table output, JSON parsing of
individual parameters (except where a property is about loading), plotting, the Javascript of the notebook helpers. Which modes PyTables lets be
open together is taken as `compatible` in Store_model says, and bears on C128 only.

## Plan per property

| id | property | area | what is modelled, how it is proved |
|---|---|---|---|
| C01 | Day-of-year profile index depends only on month and day | Calendar | `is_leap_year` with its bit operations and the `Timestep.__init__` fields; finite sweep over month/day, arithmetic over all years |
| C02 | Week index is a 52-week partition of the year | Calendar | week index as computed; arithmetic |
| C03 | The timestepper yields every period exactly once | Timestepper | `setup/reset/next` as a state machine over day numbers; induction over the number of `next` calls |
| C04 | Timestepper.reset(start) resumes at the requested date or refuses | Timestepper | `reset(start)`; arithmetic; tail of the sequence; refutation where the boundary test differs |
| C05 | Default scenario combinations are the cartesian product | Scenario | `get_combinations` via `itertools.product`; induction over the scenario list |
| C06 | Accepted user combinations are always valid ensemble indices | Scenario | setter as function returning error or new state |
| C07 | ravel_indices identifies a combination | Scenario | `ravel_indices`; proof without slices, witness with slices |
| C08 | Components are updated after everything they depend on | Graph | `flatten_component_tree` as DFS; induction; topological order |
| C09 | Circular component dependencies are always refused | Graph | cycle test equals existence of a cycle |
| C10 | A parameter reads up-to-date values of the parameters given to its constructor | Graph | constructors' `children.add` calls, `GraphInterface.add`; witness for the list argument |
| C11 | Route enumeration is sound, complete and duplicate-free | Routes | `find_all_routes`: simple path enumeration, sound and complete; sort |
| C12 | Flow is conserved in every solved timestep | RouteLP | rows built by `setup`, bounds by `_solve_scenario`, commit loop; algebra of finite sums over routes |
| C13 | Committed node flows respect min_flow and max_flow | RouteLP | row bounds and `constraint_type`; every vector satisfying the rows |
| C14 | Storage volume stays within its bounds over a whole simulation | Storage | LP row bound + `Storage.after`; induction over the run |
| C15 | Storage water accounting | Storage | `Storage.after`; telescoping sum with snapping error |
| C16 | Storage flow is net inflow over its slots | RouteLP | storage row coefficients versus commits through slots |
| C17 | The LP minimises the sum of node cost times node flow | RouteLP | route cost; exchange of summation |
| C18 | Aggregated node factors fix flow ratios | RouteLP | factor rows; normalised factors |
| C19 | Aggregated node min/max flow is honoured | RouteLP | min/max rows with overwriting dictionary; proof when no route holds two members, witness otherwise |
| C20 | Cross-domain conversion | RouteLP | cross-domain rows |
| C21 | Virtual storage accounts for its nodes' flows and is never overdrawn | VirtualStorage | virtual rows, `after`; invariant over runs |
| C22 | Rolling licence caps every window | Rolling | ring buffer; invariant relating memory to the usage history |
| C23 | Annual licence resets exactly once a year | Periodic | `before` as state machine over dates; witness for skipped resets |
| C24 | Monthly licence resets every `months` months | Periodic | month counter; induction; witness for initial_months > months |
| C25 | Seasonal licence is enforced exactly inside the season | Periodic | two-run witness; single-run theorem |
| C26 | LossLink loses the stated proportion | Loss | the inside survives any program of connects; exclusion on routes; factor rows; both solvers |
| C27 | PiecewiseLink reports the flow and limits of its steps | Compound | `after` order; sums |
| C28 | PiecewiseLink uses its steps in order of cost | Piecewise | exchange argument on an optimal LP answer |
| C29 | The route-based and the edge-based solvers pose equivalent problems | EdgeLP | edge matrix; routes to edges; flow decomposition back |
| C30 | `set_fixed_flows_once`, `set_fixed_costs_once` and `set_fixed_factors_once` do not change results | FixedOnce | LP bounds as state machine with the options on and off |
| C31 | Zero flow is always allowed when nothing is forced | RouteLP | zero vector satisfies all rows |
| C32 | prev_flow is the previous timestep's flow | Nodes | life cycle `reset/before/commit/after` per class; witnesses for the classes that update `prev_flow` too early |
| C33 | Re-running a model reproduces the results | Nodes/Rerun | state after reset as a function of configuration only; witnesses where it is not |
| C34 | Storage percentage is a proportion | Storage | `get_current_pc` |
| C35 | Initial volume rules | Storage | `get_initial_volume/pc`, `_reset_storage_only` |
| C36 | Aggregated storage is the sum of its members | Storage | `AggregatedStorage.after`; witness for clamps/resets |
| C37 | Delayed flow is the flow n timesteps ago | Delay | ring buffer invariant |
| C38 | Rolling mean flow is the mean of the last flows | Delay | ring buffer invariant |
| C39 | Aggregated parameters compute the named aggregate | Aggregate | folds; permutation invariance |
| C40 | Control curve index is the band of the current storage | ControlCurves | loop as recursion over curves |
| C41 | Control curve interpolation stays between, and passes through, its values | ControlCurves | `_interpolate`; rational inequalities |
| C42 | Piecewise integral parameter is the integral | ControlCurves | loop versus integral specification |
| C43 | Uniform drawdown profile falls linearly from 1 to the residual over the year | Profiles | date arithmetic; witness for early reset dates in non-leap years |
| C44 | Interpolated monthly profile stays within neighbouring months | Profiles | rational inequalities |
| C45 | An annual licence is never exceeded | Licences | state machine over timesteps; invariant |
| C46 | A timestep licence and an annual-type licence amount never become negative | Licences | invariant; witness for the partial first year |
| C47 | Threshold parameters and ratchets | Thresholds | state machine with ratchet per scenario |
| C48 | Multiple-threshold index is the first threshold reached | Thresholds | loop as recursion |
| C49 | Hydropower target inverts the hydropower equation | Physics | rational functions |
| C50 | Keating stream flow | Physics | rational functions over lists |
| C51 | Total and mean node recorders | Recorders | fold over the step history versus closed form |
| C52 | Supply ratios and curtailment ratios are complementary proportions | Recorders | rational functions |
| C53 | Annual totals lose no water | Recorders | fold with split of a step at the year end |
| C54 | Recorded events are exactly the maximal triggered periods | Events | fold; specification by maximal runs |
| C55 | Short events are dropped | Events | as above; witness for events open at the end |
| C56 | Rolling window recorders see exactly the window | Recorders | ring buffer invariant |
| C57 | Bisection search finds the feasible boundary | Bisect | loop with fuel; measure shows that fuel is enough |
| C58 | Recorder constraint bounds | Constraints | setters as state machine |
| C59 | Component and node names are unique | Names | registry as operation list |
| C60 | Loading resolves each named parameter once and refuses cycles | Loading | recursive loader popping from the work list |
| C61 | Models in a MultiModel advance in lock-step | MultiModel | lock-step loop over timesteppers |
| C62 | MultiModel time settings apply to the sub-models | MultiModel | loader assigns a non-existing attribute: witness; start/end part proved |
| C63 | Optimisation variables are written where they are read | Optimisation | slices of the solution vector |
| C64 | Normalised storage is in [-1, 1] and signs agree with the curve | Recorders | rational functions |
| C65 | Every run finishes what it started | Run | life cycle trace with an exception at an arbitrary point |
| C66 | Scenario-dependent parameters pick the member of their own scenario | ScenarioParams | index selection |
| C67 | Connecting and disconnecting nodes | Connect | edge set operations |
| C68 | Data file checks never accept wrong contents | Hash | cache state machine; witness for a file changed after a check |
| C69 | Time-varying aggregates over years count each year once | Recorders | folds |
| C70 | Orphaned nodes and parameters are detected exactly | Graph | orphan detection |
| C71 | Total, mean, extreme and count recorders | Recorders | folds over the history |
| C72 | Optimised days of a profile | Optimisation | setter of the days versus declared bounds |
| C73 | A failed construction leaves the model unchanged | Names | Case analysis of the statements of the constructors |
| C74 | Solver of a MultiModel | Documents | loader as fold over definitions |
| C75 | Includes merged once | Includes, Documents | extensions of names of files; merge of dictionaries; loop over a growing list |
| C76 | Every definition is used | Documents | dictionaries in order of insertion |
| C77 | Data frame and table parameters give the column of the member, whichever columns are loaded | ScenarioParams | invariant of the look-up table of loaded columns |
| C78 | Nodes that add up others | Nodes | induction over the order of nodes; refuted for late members |
| C79 | Constraints and objectives as pygmo sees them | Pygmo | The fitness vector as a list of extended reals, pygmo's convention as a separate predicate |
| C80 | Variables as written by the pygmo wrapper | Pygmo | Equality with the model of the platypus wrapper; refutation for integers |
| C81 | BreakLink in place of a Link | Break | Allocations to edges of the two networks are carried over to one another (esum over permuted edges); route solver through C29; refutation for members of aggregated nodes |
| C82 | DelayNode keeps water | Delay | Induction over the run: each timestep replaces one entry of the memory; the released flow is fixed by the row of the Input; refutation for timesteps of different length |
| C83 | The lpsolve solver agrees with the GLPK solver | LpSolve | Both problems are brought to one list of demands on the amounts of the routes; the demand columns of lpsolve are determined by the routes; refutations for overfull storages and for limits changed after setup |
| C84 | A MultiSplitLink shares its water out in the ratio of its factors | Split | The node's edges are derived from the constructor and the frame rule for connect/disconnect; crossing balances at its parts give the sums; the factor rows of the aggregated node give the ratio; shares by algebra |
| C85 | River nodes: catchments, reservoirs and gauges | River | Attribute assignments as programs; the fixed flow row of the LP; C28 (order of steps) for the gauge; C40 (curve values) for the reservoir |
| C86 | Values taken from another model of a MultiModel | Exchange | Each model is a triple of arbitrary functions; invariant over the order of turns within a timestep; repeatability by a relation on worlds that reset leaves alike; witnesses for uninitialised and stale parameter values |
| C87 | Durations and statistics of events | EventStats | Grouping shown to be a filter per scenario; the timesteps of the maximal periods are a permutation of the triggered timesteps; witness for later models of a MultiModel |
| C88 | Time series recorders and duration curves | Series | Rows written by index, invariant over the run; percentile by sorting shown to be the interpolated rank; deviation arithmetic; witnesses for loading and zero targets |
| C89 | Aggregation over time, scenarios and recorders | Aggregator | numpy's functions on columns; both axes against the flattened table; accumulating loops with NaN; witnesses for ignore_nan, defaults and infinities |
| C90 | Goodness of fit recorders | Calibration | Sums of squares, Jensen's inequality, real square roots; witnesses for several scenarios and for aggregation |
| C91 | Interpolated parameters and aquifer levels | Interp | Insertion sort gives strictly rising points; induction over segments against neighbouring points; forth and back through rising points; layers of the aquifer |
| C92 | Polynomial parameters | Polynomial | Sum of powers against Horner's rule by induction; a run of a node's before, commit and after |
| C93 | Activation functions | Activation | Case analysis on rationals; the logistic function over Coq's reals |
| C94 | Threshold recorders | ThresholdRec | Writing of the combinations one by one, induction over the history; string lookup |
| C95 | Weighted average of profiles | Weighted | Days of the expanded monthly profile against the month of the date; sums entry by entry by induction over the members |
| C96 | The value of every parameter is that of its expression | Eval | Inductive meaning of expressions, shown unique; the pass over a topological order keeps the invariant that everything calculated so far is right; an order exists because dependencies point to earlier components |
| C97 | Daily, weekly and interpolated annual profiles | Rbf | Positions in the year from C01; the interpolation is any function through the points it is given; increasing days from positive differences; bounds that do not overlap keep the order |
| C98 | Harmonic series and discount factors | Harmonic | Invariant on the cached value over all sequences of calls; induction on the harmonics over the real numbers; powers with integer exponents |
| C99 | Data are aligned with the timesteps | Resample | Labels as arithmetic progressions; slices and bins of them by filter lemmas; the aligned labels force the bins to start with the first timestep |
| C100 | Buffering does not change the results file | Tables | Invariant over the timesteps: whole blocks are in the file, the current one in the buffer; division with remainder |
| C101 | The results files hold what their names say | Results | Files as maps from paths; dictionary by object as association list; induction over the timesteps with the sequential writes of C100 |
| C102 | Progress and assertions are reported truthfully | Report | Monotone division; the reported percentages are the records of a monotone sequence; induction over timesteps and scenarios |
| C103 | A scenario's solution depends on its own problem and basis only | Memory | Invariant over scenarios and timesteps: the bases are those of the scenarios alone |
| C104 | Solver and solver options are those asked for | Options | Lookup after insertion in dictionaries; names distinct without regard to case |
| C105 | Attributes of nodes read back as assigned | Attributes | Case analysis on the last assignment; vectors by induction over the scenarios |
| C106 | Pictures show the model that was simulated | Drawing | Positions of names; invariant of the dictionary of sums by induction over the routes |
| C107 | Kernel density estimates of storage are probabilities | Kde | Reflection keeps the variance, hence the width of the kernels; disjoint intervals of a monotone function |
| C108 | Data loaded from files and tables is what the document asks for | DataLoad | Selection by places of labels; trace of checks and reads |
| C109 | Nodes of a document are created once, after what they refer to | NodeLoad | Invariant of the log of created nodes; measure of entries left |
| C110 | Attributes of nodes are what arguments or documents say | NodeArgs | Log of assignments, last one counts; expected values as a table of sources |
| C111 | Data frames show each value under its timestep and scenarios | Frames | Lists; reshape and flatten are inverse; positions in concatenated columns |
| C112 | Dependencies follow assignments | Rewire | Invariant of reachable states (what is held is declared, and conversely); order from C08 |
| C113 | Documents of parameters | ParamLoad | A table of entries per class as the specification; each `load` equals the reader of its table, which is proved to be the relation between documents and arguments |
| C114 | Documents of recorders | RecLoad | A table of entries per class as the specification; each `load` equals the reader of its table, which is proved to be the relation between documents and arguments |
| C115 | What recorders of HDF files record where | TableItems | Texts of paths against lists of their parts; files as lists of arrays by path, whose creation and writing is followed through setup, reset and the timesteps by an invariant |
| C116 | What optimisers are given | Search | Places of a candidate as sums of sizes; bounds and values related to places by induction over the parameters; the cache by an invariant over sequences of accesses |
| C117 | Values that are not numbers do not reach the solver | Nan | Doubles as numbers, infinities or NaN; sums and differences characterised by what is in them; the calls as a list that stops at the first refused |
| C118 | A setup profile lists every hook once with its own time | Profile | profiler as state machine over an arbitrary clock; entries against a specification by segments of calls |
| C119 | Saved route flows are each scenario's own and account for the flows of the nodes | Saved | array as state machine over scenarios and timesteps; invariant; witness for saving switched on after setup |
| C120 | The result of a run reports its own counts and times | Timing | timers as state machine over an arbitrary clock; sums over timesteps; witness for the speed |
| C121 | Data and timesteps of calendar periods | Months | any division of days into periods; reduction of monthly data to daily data (C99); witnesses for partly covered months and for weights |
| C122 | What Model.check refuses, and iteration over nodes | Check | iterator as state machine over a changing graph; check as first raising node, then C70's graph check and orphans; witness for hidden nodes |
| C123 | A storage licence is never exceeded over the run | Licences, Licensed | induction over the run on what is left; composition with the bounds the solver keeps (C13); witness for weekly timesteps |
| C124 | Which function a recorder aggregates with | AggKeys | keywords as dictionaries; what is meant as a relation with one case per rule; equivalence with the constructors; witnesses for reading back and refused assignment |
| C125 | Names of recorders that are given none | DefaultNames | composition with the component names of Names_model; injectivity of the default names by induction on texts; equivalence for whole sequences |
| C126 | Objectives are optimised in the direction asked for | Direction | setter and getter as functions; composition with the objectives of Pygmo_model; induction over the recorders |
| C127 | Licences read as prices follow how much is left for the rest of the year | Scaled | ratio by the field axioms from the value of an annual licence (C45); real exponential; invariant of runs that use the licence evenly, over changes of year |
| C128 | Table recorders close the files they opened and no others | Store | handles and stores as a state machine over events; invariant: the recorder's handle above those of the user; induction over sequences |
| C129 | What a schematic shows of a node | Schematic | the table as an inductive relation, shown to be the only one; climbing with a rank of the hierarchy; lineage as a relation; witnesses |

All properties are expressible in the model; where a statement turns out false of the code as
written the table in MANIFEST.json names the `_refuted` theorem and the part that does hold.
