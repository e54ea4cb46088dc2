{
 "claims": [
  {
   "property": "C01",
   "status": "proved",
   "theorems": [
    "C01_leap_year_gregorian",
    "C01_index_is_leap_position",
    "C01_index_same_iff",
    "C01_index_59_is_feb29",
    "C01_timestep_refused_iff"
   ],
   "note": ""
  },
  {
   "property": "C02",
   "status": "proved",
   "theorems": [
    "C02_week_index_range",
    "C02_week_index_monotone",
    "C02_week_index_blocks"
   ],
   "note": ""
  },
  {
   "property": "C03",
   "status": "proved",
   "theorems": [
    "C03_timestepper_yields_each_period_once",
    "C03_len_is_number_of_timesteps",
    "C03_setup_succeeds_iff",
    "C03_exhausted_current_index"
   ],
   "note": ""
  },
  {
   "property": "C04",
   "status": "partial",
   "theorems": [
    "C04_reset_resumes_at_date_partial",
    "C04_last_instant_refuted"
   ],
   "note": "Holds for every instant except the last nanosecond of each period, where the code refuses (C04_last_instant_refuted)."
  },
  {
   "property": "C05",
   "status": "proved",
   "theorems": [
    "C05_combinations_are_cartesian_product",
    "C05_selected_members_are_valid",
    "C05_unsliced_scenario_selects_all",
    "C05_slice_selects"
   ],
   "note": ""
  },
  {
   "property": "C06",
   "status": "partial",
   "theorems": [
    "C06_accepted_user_combinations_are_valid",
    "C06_refused_only_if_invalid",
    "C06_adding_scenario_later_refuted"
   ],
   "note": "Proved for the state right after the assignment; adding a scenario afterwards is not revalidated (refuted)."
  },
  {
   "property": "C07",
   "status": "partial",
   "theorems": [
    "C07_ravel_is_global_id_partial",
    "C07_ravel_with_slice_refuted"
   ],
   "note": "Holds without slices; false with slices (refuted)."
  },
  {
   "property": "C08",
   "status": "partial",
   "theorems": [
    "C08_order",
    "C08_later_runs",
    "C08_changed",
    "C08_late_component_refuted"
   ],
   "note": "Holds for every run that sets the model up and for later runs while components are untouched; components created or re-wired after a set-up are left out until something else marks the model dirty (refuted)."
  },
  {
   "property": "C09",
   "status": "partial",
   "theorems": [
    "C09_refused_iff_cyclic",
    "C09_dirty_run_refused_iff_cyclic",
    "C09_late_cycle_refuted",
    "C09_run_after_refusal_refuted"
   ],
   "note": "Holds for every set-up; a cycle declared after a set-up is not noticed by the next run, and a refused set-up of a clean model leaves an empty component list (refuted)."
  },
  {
   "property": "C10",
   "status": "partial",
   "theorems": [
    "C10_constructor_declares_partial",
    "C10_same_timestep_partial",
    "C10_multiple_threshold_refuted",
    "C10_division_reassign_refuted"
   ],
   "note": "Holds for all modelled constructors except MultipleThresholdIndexParameter and MultipleThresholdParameterIndexParameter, for which it is false (refuted); re-assigning the numerator of a DivisionParameter can drop a dependency (refuted)."
  },
  {
   "property": "C11",
   "status": "proved",
   "theorems": [
    "C11_routes_exact",
    "C11_known_domain_rule_never_fails",
    "C11_sorted_by_names",
    "C11_order_depends_on_names_only"
   ],
   "note": ""
  },
  {
   "property": "C12",
   "status": "proved",
   "theorems": [
    "C12_edge_domain_balance",
    "C12_edge_link_balance",
    "C12_domain_balance",
    "C12_link_balance",
    "C12_water_follows_edges"
   ],
   "note": "Both GLPK solvers; any vector that meets the rows posed. For the edge solver with nothing on edges between domains."
  },
  {
   "property": "C13",
   "status": "partial",
   "theorems": [
    "C13_edge_flow_in_bounds",
    "C13_edge_between_domains_refuted",
    "C13_flow_in_bounds"
   ],
   "note": "Both GLPK solvers, up to the rounding 1e-8 of the bounds. The edge solver commits what GLPK puts on the column of an edge between domains, which is in no row; theorems about it assume nothing is put there (refuted without)."
  },
  {
   "property": "C14",
   "status": "proved",
   "theorems": [
    "C14_volume_stays_in_bounds",
    "C14_unlimited_maximum",
    "C14_moving_bounds"
   ],
   "note": ""
  },
  {
   "property": "C15",
   "status": "proved",
   "theorems": [
    "C15_in_model",
    "C15_starts",
    "C15_run_accounting",
    "C15_any_bounds",
    "C15_exact_step"
   ],
   "note": "The accumulated identity for the formula, and C15_in_model for the volumes of a model that is run step by step."
  },
  {
   "property": "C16",
   "status": "proved",
   "theorems": [
    "C16_edge_storage_flow",
    "C16_edge_lp_limits_that_flow",
    "C16_storage_flow",
    "C16_lp_limits_that_flow"
   ],
   "note": "Both GLPK solvers. Exact limits: the net flow lies between minus the water available and the room left, per day."
  },
  {
   "property": "C17",
   "status": "proved",
   "theorems": [
    "C17_edge_objective_is_user_cost",
    "C17_objective_is_user_cost",
    "C17_objective_within_rounding",
    "C17_cheapest_feasible"
   ],
   "note": "Route solver: exact when route costs are zero or at least 1e-8 in size (smaller ones are rounded to zero by the code); otherwise within 1e-8 times the total flow. Edge solver: exact (its costs are not rounded)."
  },
  {
   "property": "C18",
   "status": "partial",
   "theorems": [
    "C18_edge_flow_ratios",
    "C18_flow_ratios",
    "C18_factors_given",
    "C18_output_drained_refuted"
   ],
   "note": "Holds for links, and for inputs/outputs when no output is drained by, and no input fed within, the same domain; false otherwise (refuted)."
  },
  {
   "property": "C19",
   "status": "partial",
   "theorems": [
    "C19_edge_aggregated_bounds",
    "C19_aggregated_bounds_partial",
    "C19_members_in_series_refuted"
   ],
   "note": "Route solver: holds when no route passes two members; false for members in series (refuted). Edge solver: holds for members in series, not for a member joined to an output that is also a member."
  },
  {
   "property": "C20",
   "status": "proved",
   "theorems": [
    "C20_edge_cross_domain",
    "C20_cross_domain"
   ],
   "note": ""
  },
  {
   "property": "C21",
   "status": "partial",
   "theorems": [
    "C21_edge_licence_limits",
    "C21_never_overdrawn",
    "C21_charged_exactly",
    "C21_charged",
    "C21_period_allowance",
    "C21_node_listed_twice_refuted",
    "C21_storage_member_refuted"
   ],
   "note": "Holds for licences over links, inputs and outputs each listed once, with solver tolerance; a node listed twice or a storage as member breaks it (refuted)."
  },
  {
   "property": "C22",
   "status": "partial",
   "theorems": [
    "C22_in_model",
    "C22_window_cap_partial",
    "C22_window_cap_exact_partial",
    "C22_volume_in_bounds",
    "C22_timesteps",
    "C22_snapping_refuted",
    "C22_returns_refuted"
   ],
   "note": "Cap holds up to 1e-6 per elapsed timestep (snapping to the maximum), exactly when nothing is snapped; snapping and negative factors break the exact cap (refuted). C22_in_model: in a run from reset, what was charged k-1 timesteps ago (at first the initial utilisation) comes back."
  },
  {
   "property": "C23",
   "status": "partial",
   "theorems": [
    "C23_in_model",
    "C23_reset_when",
    "C23_at_most_once_a_year",
    "C23_every_year",
    "C23_daily",
    "C23_skipped_year_refuted"
   ],
   "note": "Reset exactly in the first timestep of a year on or after the reset date (unless the run starts after it); exactly on the date with daily steps. A year whose last timestep starts before the reset date is skipped (refuted). C23_in_model: the same for the volumes in a run of a model."
  },
  {
   "property": "C24",
   "status": "partial",
   "theorems": [
    "C24_in_model",
    "C24_reset_when",
    "C24_between_resets",
    "C24_calendar",
    "C24_initial_months_refuted",
    "C24_year_long_steps_refuted"
   ],
   "note": "Proved for 0 <= initial_months <= months, in month changes seen and, if no month is skipped, in calendar months. initial_months > months never resets, year-long steps never see a change (refuted). C24_in_model: the same for the volumes in a run of a model."
  },
  {
   "property": "C25",
   "status": "partial",
   "theorems": [
    "C25_in_model_partial",
    "C25_active_in_season_partial",
    "C25_daily_partial",
    "C25_inactive_no_constraint",
    "C25_second_run_refuted",
    "C25_start_after_season_refuted",
    "C25_start_between_winters_refuted",
    "C25_weekly_refuted",
    "C25_equal_bounds_refuted"
   ],
   "note": "Proved for the first run, timesteps that do not step over the season's ends, and a start in season or before the season of the year. Second run, start after the season, weekly steps with end 31 Dec, and equal bounds are refuted. C25_in_model_partial: the same for a storage of a model that is run."
  },
  {
   "property": "C26",
   "status": "proved",
   "theorems": [
    "C26_inside",
    "C26_balance",
    "C26_loss",
    "C26_nothing_lost",
    "C26_edge_balance",
    "C26_edge_loss",
    "C26_setup",
    "C26_zero_parameter",
    "C26_blocked_after_one"
   ],
   "note": "Both solvers, every LP answer; the inside of the node is shown to survive any connecting and disconnecting of other nodes. A parameter that is zero in a timestep, or any parameter with type gross, raises (C26_zero_parameter, C26_setup); a factor of one leaves the net link closed for later factors (C26_blocked_after_one)."
  },
  {
   "property": "C27",
   "status": "proved",
   "theorems": [
    "C27_flow",
    "C27_solved",
    "C27_prev",
    "C27_limits"
   ],
   "note": "flow = sum of the steps' flows (C27_flow; C27_solved in terms of the solver's answer), prev_flow in the next timestep (C27_prev), limits (C27_limits; sums of numbers, infinite if a maximum is). That the solver commits nothing to the link itself is a hypothesis (it lies on no route). Sums are exact (Q)."
  },
  {
   "property": "C28",
   "status": "partial",
   "theorems": [
    "C28_inside",
    "C28_order",
    "C28_steps",
    "C28_through",
    "C28_edge_order_partial",
    "C28_tiny_costs_refuted"
   ],
   "note": "Route solver: every optimal answer of every network containing the node; the inside survives any connecting and disconnecting of other nodes. Costs that the solver rounds to zero are not told apart (C28_tiny_costs_refuted). Edge solver: where the two solvers can be compared (C28_edge_order_partial). Steps are not members of virtual storages or aggregated nodes (so not MultiSplitLink with its extra slots), and have minimum flow zero and conversion factor one."
  },
  {
   "property": "C29",
   "status": "partial",
   "theorems": [
    "C29_route_answer_on_edges",
    "C29_edge_answer_on_routes",
    "C29_same_flows",
    "C29_same_optima",
    "C29_both_can_be_posed",
    "C29_cyclic_network_refuted",
    "C29_members_in_series_refuted",
    "C29_member_listed_twice_refuted",
    "C29_short_circuit_refuted",
    "C29_unfed_link_refuted"
   ],
   "note": "Flows, loads of edges and objective agree both ways on acyclic networks of any number of domains; one domain: same set of flows and same optima. Not on cyclic networks, for members of an aggregated node in series, a licence member listed twice, a storage joined to itself, an unfed link (all refuted)."
  },
  {
   "property": "C30",
   "status": "proved",
   "theorems": [
    "C30_posed",
    "C30_options",
    "C30_answers",
    "C30_steady",
    "C30_cost_changed_refuted",
    "C30_flow_changed_refuted",
    "C30_replaced_refuted"
   ],
   "note": "Both solvers, every network that can be built, every history of set-ups, resets, timesteps and scenarios in which what counts as constant stays so (C30_steady says when). The refuted theorems are about constants that are changed: a number given to node.cost after the set-up is never picked up with set_fixed_costs_once, a number given to node.max_flow only in the next run, and a number replaced by a varying parameter makes the next run fail. Uninitialised memory of the cost array is arbitrary. Errors of the two settings may differ in kind."
  },
  {
   "property": "C31",
   "status": "proved",
   "theorems": [
    "C31_zero_is_feasible"
   ],
   "note": ""
  },
  {
   "property": "C32",
   "status": "partial",
   "theorems": [
    "C32_prev_flow",
    "C32_prev_flow_child",
    "C32_first",
    "C32_first_run",
    "C32_flow",
    "C32_seasonal",
    "C32_compound_refuted",
    "C32_seasonal_refuted"
   ],
   "note": "Proved for every node that is not a compound/aggregating one: ordinary nodes, storages with their inputs and outputs, PiecewiseLink, virtual/rolling/annual/monthly storages (C32_prev_flow, C32_prev_flow_child, C32_first, C32_first_run, C32_flow); seasonal storages: C32_seasonal. Refuted for BreakLink, DelayNode, LossLink, AggregatedNode, AggregatedStorage (prev_flow stays 0) and for inactive seasonal storages (stale)."
  },
  {
   "property": "C33",
   "status": "partial",
   "theorems": [
    "C33_recorded_partial",
    "C33_recorders_forget",
    "C33_same_values",
    "C33_annual_threshold",
    "C33_window",
    "C33_rolling_mean_partial",
    "C33_rolling_mean_refuted",
    "C33_resumed_refuted",
    "C33_rerun_partial",
    "C33_components_partial",
    "C33_seasonal_refuted",
    "C33_child_refuted",
    "C33_aggregated_storage_refuted",
    "C33_monthly_refuted"
   ],
   "note": "C33_rerun_partial: any two runs give equal states of nodes, components and values after every timestep, for every history before, if (a) components forget at reset (proved for FlowDelay, RollingMean, Flow, Deficit, threshold ratchets, StorageLicense, AnnualLicense: C33_components_partial), (b) nothing reads prev_flow of nodes with a parent in the first timestep, (c) no seasonal storages, no aggregated storages over variable max_volume, no monthly storage that resets in the first timestep to a parameter. Each of (b), (c) is necessary: four refutations. Recorders (C33_recorded_partial with C33_recorders_forget, C33_annual_threshold, C33_window, C33_rolling_mean_partial): the output after a second run is that of the first, also where reset leaves arrays as they are; refuted for RollingMeanFlowNodeRecorder if the second run stops early, and for rolling windows after reset(start). Missing: recorders that write files or print; the solver is taken as a function of what it is given (C103 shows when this is so: the bases are forgotten at reset, only that it has presolved is not); user edits between runs."
  },
  {
   "property": "C34",
   "status": "proved",
   "theorems": [
    "C34_current_pc_is_a_proportion",
    "C34_always_between_0_and_1"
   ],
   "note": ""
  },
  {
   "property": "C35",
   "status": "partial",
   "theorems": [
    "C35_constant_max_volume",
    "C35_variable_max_volume",
    "C35_reset_to_maximum",
    "C35_variable_max_consistency_refuted"
   ],
   "note": "With a parameter as max volume the code takes initial_volume and initial_volume_pc as given without checking them against each other (refuted part)."
  },
  {
   "property": "C36",
   "status": "partial",
   "theorems": [
    "C36_flow_is_the_sum",
    "C36_first_volume_is_the_sum",
    "C36_volume_is_the_sum_partial",
    "C36_drift_is_bounded_partial",
    "C36_snapping_refuted",
    "C36_member_reset_refuted"
   ],
   "note": "Volume: holds while no member is snapped to a bound or reset on its own, otherwise bounded drift; false in general (refuted)."
  },
  {
   "property": "C37",
   "status": "proved",
   "theorems": [
    "C37_delayed_flow",
    "C37_second_run",
    "C37_timesteps",
    "C37_delay_node"
   ],
   "note": "FlowDelayParameter and DelayNode from a fresh reset; a timestep length not dividing the days is refused."
  },
  {
   "property": "C38",
   "status": "partial",
   "theorems": [
    "C38_rolling_mean",
    "C38_resumed_refuted"
   ],
   "note": "Runs that start at ts.index 0; after reset(start) the empty memory is averaged in (refuted)."
  },
  {
   "property": "C39",
   "status": "proved",
   "theorems": [
    "C39_aggregate",
    "C39_order_irrelevant",
    "C39_index_aggregate",
    "C39_index_order_irrelevant",
    "C39_refused"
   ],
   "note": "Mean and median of indices, and any/all of values, are refused by the constructor as in the code; the custom function option is passed through."
  },
  {
   "property": "C40",
   "status": "partial",
   "theorems": [
    "C40_index_is_band",
    "C40_index_falls_with_storage",
    "C40_index_counts_curves_above",
    "C40_value_of_band",
    "C40_default_values",
    "C40_reassigned_curves_refuted"
   ],
   "note": "Proved for the curves known at construction; curves assigned later without refreshing the values are refuted."
  },
  {
   "property": "C41",
   "status": "proved",
   "theorems": [
    "C41_on_the_line",
    "C41_exact_at_curves",
    "C41_between_band_values",
    "C41_monotone",
    "C41_piecewise_on_the_line",
    "C41_piecewise_ends"
   ],
   "note": ""
  },
  {
   "property": "C42",
   "status": "partial",
   "theorems": [
    "C42_is_the_integral",
    "C42_only_the_integral",
    "C42_continuous",
    "C42_non_decreasing",
    "C42_negative_breakpoint_refuted"
   ],
   "note": "Proved for breakpoints that start at or above zero and increase; a first breakpoint below zero is refuted."
  },
  {
   "property": "C43",
   "status": "partial",
   "theorems": [
    "C43_linear_from_reset",
    "C43_linear_early_reset_partial",
    "C43_between_residual_and_one",
    "C43_january_reset_refuted",
    "C43_leap_day_reset_refuted"
   ],
   "note": "Reset dates from 1 March on, and any reset date in leap years: exact. Earlier reset dates in years without 29 February are one day off (partial theorem states the exact values); 29 February as reset date never reaches 1 in such years."
  },
  {
   "property": "C44",
   "status": "proved",
   "theorems": [
    "C44_first",
    "C44_last",
    "C44_exact_days",
    "C44_between"
   ],
   "note": ""
  },
  {
   "property": "C45",
   "status": "partial",
   "theorems": [
    "C45_never_exceeded",
    "C45_whole_days",
    "C45_not_carried_over",
    "C45_part_days_refuted",
    "C45_in_model",
    "C45_edge_in_model"
   ],
   "note": "Proved for years whose first timestep starts at midnight (always so with timesteps of whole days) or that contain the start of the run. Refuted for timesteps of a fraction of a day that cross the new year off midnight. C45_in_model, C45_edge_in_model: the same for a node of a network whose max_flow is the licence, with whatever the solver commits, up to 1e-5 (bounds are rounded on their way to the solver)."
  },
  {
   "property": "C46",
   "status": "partial",
   "theorems": [
    "C46_storage_licence",
    "C46_annual_not_above",
    "C46_annual_short_steps_partial",
    "C46_annual_long_steps_partial",
    "C46_carried_flow_refuted"
   ],
   "note": "Storage licences, and the upper bound for annual licences, in full. Annual licences can become negative when a timestep longer than a day carries a flow into the new year (refuted); proved otherwise."
  },
  {
   "property": "C47",
   "status": "partial",
   "theorems": [
    "C47_named",
    "C47_no_ratchet",
    "C47_ratchet",
    "C47_ratchet_stays",
    "C47_recorder_first_step_refuted"
   ],
   "note": "Index as stated for every class; the ratchet clause fails for a recorder threshold, whose first index (initial_value, 1 by default) does not set the ratchet (refuted)."
  },
  {
   "property": "C48",
   "status": "proved",
   "theorems": [
    "C48_first_reached",
    "C48_counts_above",
    "C48_falls_with_flow"
   ],
   "note": "For the list of thresholds as read in the timestep. That the thresholds are not registered as children is C10."
  },
  {
   "property": "C49",
   "status": "proved",
   "theorems": [
    "C49_inverse",
    "C49_inverse_unique",
    "C49_no_head",
    "C49_target_limits",
    "C49_target_met",
    "C49_target_bounded",
    "C49_minimum_head",
    "C49_total_energy"
   ],
   "note": "Exact arithmetic; the head is the water level difference as the code computes it."
  },
  {
   "property": "C50",
   "status": "proved",
   "theorems": [
    "C50_zero_below",
    "C50_non_negative",
    "C50_non_decreasing_lipschitz",
    "C50_formula"
   ],
   "note": ""
  },
  {
   "property": "C51",
   "status": "partial",
   "theorems": [
    "C51_total_flow",
    "C51_total_deficit",
    "C51_mean_flow",
    "C51_deficit_frequency",
    "C51_stepping_refuted"
   ],
   "note": "Runs to the end of the timestepper, as model.run makes them. Advancing with step() and then finish() divides by one timestep too few (refuted)."
  },
  {
   "property": "C52",
   "status": "proved",
   "theorems": [
    "C52_complementary",
    "C52_proportions"
   ],
   "note": ""
  },
  {
   "property": "C53",
   "status": "partial",
   "theorems": [
    "C53_year_entry",
    "C53_total",
    "C53_no_water_lost",
    "C53_long_timestep_refuted",
    "C53_nanosecond_refuted"
   ],
   "note": "Timesteps of whole minutes that contain at most one year end. A timestep covering a complete year books it wrongly, and around 1 January 1970 a nanosecond is lost (refuted)."
  },
  {
   "property": "C54",
   "status": "partial",
   "theorems": [
    "C54_maximal_periods",
    "C54_accepted",
    "C54_fraction_refuted",
    "C54_trigger"
   ],
   "note": "The trigger is the truncated integer value of a parameter or recorder, so a fraction does not trigger although the documentation says non-zero (refuted part)."
  },
  {
   "property": "C55",
   "status": "partial",
   "theorems": [
    "C55_minimum_length_partial",
    "C55_closed_runs",
    "C55_open_event_refuted"
   ],
   "note": "Missing: events that are open when the run ends are reported however short they are (refuted)."
  },
  {
   "property": "C56",
   "status": "partial",
   "theorems": [
    "C56_window",
    "C56_window_aggregate",
    "C56_rolling_mean",
    "C56_order_refuted",
    "C56_resumed_refuted"
   ],
   "note": "Runs that start at ts.index 0 and aggregates that ignore order; order-dependent aggregates and reset(start) break it (refuted)."
  },
  {
   "property": "C57",
   "status": "partial",
   "theorems": [
    "C57_terminates",
    "C57_result",
    "C57_nothing_feasible",
    "C57_refused",
    "C57_infinite_bound_refuted",
    "C57_unbounded_refuted",
    "C57_double_refuted",
    "C57_double_feasible",
    "C57_comparisons"
   ],
   "note": "Proved with exact numbers and a finite range. With the default infinite upper bound, or in double precision with epsilon below the spacing of doubles, the loop can go on for ever (both refuted)."
  },
  {
   "property": "C58",
   "status": "partial",
   "theorems": [
    "C58_violated",
    "C58_created",
    "C58_classification",
    "C58_model_feasible",
    "C58_platypus",
    "C58_platypus_objective",
    "C58_minus_infinity_refuted"
   ],
   "note": "Finite bounds or none; values may be infinite or NaN. An upper bound of minus infinity is forgotten (refuted)."
  },
  {
   "property": "C59",
   "status": "partial",
   "theorems": [
    "C59_nodes_unique",
    "C59_taken_refused",
    "C59_created",
    "C59_lookup",
    "C59_delete",
    "C59_parts",
    "C59_delete_missing",
    "C59_lookup_refuted",
    "C59_delete_compound_refuted",
    "C59_components_unique",
    "C59_component_lookup",
    "C59_component_delete_refuted"
   ],
   "note": "Uniqueness, refusal of taken names, lookup and recursive deletion are proved for all sequences of creating, renaming and deleting nodes of the modelled classes, and uniqueness and lookup for parameters and recorders. Refuted: a hidden sub-node with the same name is found and deleted first; helper nodes without a parent survive the deletion of a LossLink; deleting a parameter or recorder by name has no effect."
  },
  {
   "property": "C60",
   "status": "partial",
   "theorems": [
    "C60_terminates",
    "C60_once",
    "C60_definition",
    "C60_references",
    "C60_cycles",
    "C60_undefined",
    "C60_loads",
    "C60_untyped_refuted",
    "C60_dropped_refuted",
    "C60_order_refuted"
   ],
   "note": "Proved for documents whose definitions are typed dictionaries and where no nested recorder has the name of a defined one: loading always ends, makes exactly one component from every typed dictionary, every reference gives the one component of that name, circles and undefined names are refused, and every document without circles, with defined references and distinct names is loaded. Refuted: an untyped definition can be referred to only once, a definition in the section recorders is dropped when a nested recorder has its name, and a reference to a nested name depends on the order of the definitions. What a class does with its data beyond loading its children is one bit."
  },
  {
   "property": "C61",
   "status": "partial",
   "theorems": [
    "C61_lock_step",
    "C61_all_finished",
    "C61_scenarios",
    "C61_cut_short_refuted"
   ],
   "note": "Lock-step, order, finishing and the check of the scenarios are proved for any number of sub-models and timesteps. Refuted: a sub-model with more timesteps is cut short without an exception."
  },
  {
   "property": "C62",
   "status": "partial",
   "theorems": [
    "C62_start_end_partial",
    "C62_own_timestep_partial",
    "C62_required",
    "C62_timestep_refuted"
   ],
   "note": "Start and end are proved; the timestep is not passed on (assigned to an attribute that is not used): refuted."
  },
  {
   "property": "C63",
   "status": "partial",
   "theorems": [
    "C63_own_segment",
    "C63_write_back",
    "C63_empty_refused",
    "C63_short_refused",
    "C63_repeated_index_refuted"
   ],
   "note": "Parameters with variables: constant, offset, activation functions, monthly profile, harmonic series, control curve, radial basis function profile. A control curve with a repeated index is refuted."
  },
  {
   "property": "C64",
   "status": "partial",
   "theorems": [
    "C64_normalised_partial",
    "C64_monotone",
    "C64_full_curve_refuted"
   ],
   "note": "All volumes and curves except both equal to 1, where the code divides by zero (refuted)."
  },
  {
   "property": "C65",
   "status": "partial",
   "theorems": [
    "C65_order",
    "C65_exception",
    "C65_nothing_to_run",
    "C65_setup_again_partial",
    "C65_late_component_refuted",
    "C65_finish_refuted",
    "C65_setup_again_refuted"
   ],
   "note": "Order and counts of the calls are proved for every run length, and finishing for every point at which something raises. Refuted: a component made after the first run takes no part in the next (the model is not marked dirty); an exception in a finish hook leaves the rest unfinished; an interrupted setup after a change of dates alone is not repeated."
  },
  {
   "property": "C66",
   "status": "proved",
   "theorems": [
    "C66_member",
    "C66_checked",
    "C66_value",
    "C66_shape"
   ],
   "note": "Proved for ConstantScenario(Index)Parameter, ArrayIndexedScenarioParameter, the monthly factors, the three scenario profiles and ScenarioWrapperParameter: every combination run has exactly one, existing, member of every scenario, and the value is the one given for it; tables of the wrong shape are refused."
  },
  {
   "property": "C67",
   "status": "partial",
   "theorems": [
    "C67_connect",
    "C67_connect_refuses",
    "C67_disconnect",
    "C67_disconnect_storage",
    "C67_disconnect_all",
    "C67_one_model",
    "C67_history",
    "C67_marked",
    "C67_storage_source_refuted",
    "C67_compound_target_refuted"
   ],
   "note": "connect is characterised for every kind of node; disconnect for edges to ordinary nodes and to storages; for whole programs the edge between two ordinary nodes exists exactly if connected and not disconnected since, edges stay within one model and changed models are marked. Refuted: disconnecting from a storage (the edges start at its inputs, so disconnect(v) raises and disconnect() does nothing), and disconnecting to a compound node (iter_slots there does not take all_slots: TypeError)."
  },
  {
   "property": "C68",
   "status": "partial",
   "theorems": [
    "C68_without_cache",
    "C68_some_contents_partial",
    "C68_unchanged_file",
    "C68_changed_file_refuted",
    "C68_zero_chunk_refuted"
   ],
   "note": "Without a cache, and for files that do not change, a check passes exactly for the right digest, for every history of checks. Refuted: a file that changes after a check of the same model is accepted (the cache is not tied to the contents); chunk_size=0 reads nothing."
  },
  {
   "property": "C69",
   "status": "partial",
   "theorems": [
    "C69_years_reached",
    "C69_negative_index_refuted",
    "C69_timesteps_reached",
    "C69_timesteps_recorded",
    "C69_leap_day_refuted"
   ],
   "note": "Thresholds of at least 1, or indices that are never negative; otherwise the starting value 0 of the yearly maximum is counted (refuted). A range that begins or ends on 29 February raises in other years (refuted)."
  },
  {
   "property": "C70",
   "status": "proved",
   "theorems": [
    "C70_orphans_exact",
    "C70_check_graph_exact"
   ],
   "note": ""
  },
  {
   "property": "C71",
   "status": "proved",
   "theorems": [
    "C71_total_parameter",
    "C71_mean_parameter",
    "C71_minimum_volume",
    "C71_threshold_volume",
    "C71_timestep_count"
   ],
   "note": ""
  },
  {
   "property": "C72",
   "status": "partial",
   "theorems": [
    "C72_explicit_bounds",
    "C72_range_partial",
    "C72_range_refuted"
   ],
   "note": "Missing: with variable_days_of_year_range the bounds can exceed day 365 (refuted)."
  },
  {
   "property": "C73",
   "status": "partial",
   "theorems": [
    "C73_failed_construction_partial",
    "C73_failed_rename",
    "C73_failed_component_rename",
    "C73_piecewise_refuted",
    "C73_loss_refuted",
    "C73_component_refuted"
   ],
   "note": "Proved for plain nodes, storages and for renaming; refuted for PiecewiseLink (sub-nodes remain), LossLink (a visible node remains) and for components whose subclass constructor raises after registration."
  },
  {
   "property": "C74",
   "status": "partial",
   "theorems": [
    "C74_solver",
    "C74_load_refuted"
   ],
   "note": "Proved for MultiModel.load_from_dict; refuted for MultiModel.load, which passes solver=None."
  },
  {
   "property": "C75",
   "status": "partial",
   "theorems": [
    "C75_kinds",
    "C75_dict_once",
    "C75_merge_refused",
    "C75_terminates",
    "C75_file_twice",
    "C75_file_refuted",
    "C75_terminates_refuted"
   ],
   "note": "Every list is appended once and in order, also those of documents included by included documents, the last entry of a dictionary counts, python files add nothing, names of other kinds are refused, and reading ends unless documents include others. Refuted: a document read from a file gets every included list twice, because loads and load_from_dict both read the includes; a document that includes itself is read for ever. Not modelled: joining names with the directory, what python files do."
  },
  {
   "property": "C76",
   "status": "partial",
   "theorems": [
    "C76_nodes",
    "C76_submodels",
    "C76_duplicates_refuted"
   ],
   "note": "Proved for distinct names; refuted otherwise: the earlier definition is dropped without an error."
  },
  {
   "property": "C77",
   "status": "partial",
   "theorems": [
    "C77_dataframe",
    "C77_dataframe_returns_partial",
    "C77_dataframe_open_slice_refuted",
    "C77_dataframe_negative_step_refuted",
    "C77_tables",
    "C77_tables_returns_partial",
    "C77_tables_offset_refuted"
   ],
   "note": "Soundness is proved in full: a value returned is that of the member. That one is returned is proved for user combinations, unsliced scenarios and slices with 0 <= stop <= size, start not negative and positive step; refuted for slices without a stop (TypeError in setup), stops outside the scenario and negative steps (IndexError at run time). For tables the row is proved for offsets that stay within the run; refuted beyond: with some columns loaded, only the rows of the run are, so a look ahead is clipped at the end of the run instead of at the end of the table."
  },
  {
   "property": "C78",
   "status": "partial",
   "theorems": [
    "C78_aggregated",
    "C78_aggregated_storage",
    "C78_virtual",
    "C78_always_active",
    "C78_order_refuted"
   ],
   "note": "Holds when the members are ordinary nodes or storages, or come earlier in graph order (always so for models loaded from JSON, where members are created first). Refuted for a compound member later in the graph, reachable by assigning `nodes` after construction."
  },
  {
   "property": "C79",
   "status": "partial",
   "theorems": [
    "C79_shape",
    "C79_feasible_partial",
    "C79_same_as_model",
    "C79_direction",
    "C79_equality_refuted"
   ],
   "note": "Shape and direction are proved. Feasibility is proved with equality constraints compared with 0 (C79_feasible_partial), and as stated when equalities are with 0 (C79_same_as_model). As stated it is false: eq_constraints.append(x) forgets to subtract the bound, so an equality with another value is presented as x = 0 (C79_equality_refuted)."
  },
  {
   "property": "C80",
   "status": "partial",
   "theorems": [
    "C80_doubles",
    "C80_read_back",
    "C80_integers_refuted"
   ],
   "note": "Proved for double variables (same as platypus, and read back). False for integer variables: the whole segment is handed to set_double_variables, so every candidate is refused (C80_integers_refuted)."
  },
  {
   "property": "C81",
   "status": "partial",
   "theorems": [
    "C81_connect",
    "C81_edge_same_flows",
    "C81_edge_same_optima",
    "C81_route_same_flows",
    "C81_route_same_optima",
    "C81_holds_nothing",
    "C81_member_refuted"
   ],
   "note": "Edge and route solver: equal sets of reported flows, equal cost of optima, storage of the BreakLink stays empty; connect calls give the rerouted edges. Hypotheses as for C29 for the route solver (both networks comparable, no cycle, no storage short-circuited, no route cost strictly between 0 and 1e-8). Refuted when the node is a member of an AggregatedNode: it is on no route and not limited."
  },
  {
   "property": "C82",
   "status": "proved",
   "theorems": [
    "C82_given_back",
    "C82_water_kept",
    "C82_water_kept_exactly",
    "C82_months_refuted"
   ],
   "note": "Given back = due amount (0 if below 1e-8); over a run the balance holds to 1e-8 per timestep, exactly without traces below 1e-8. Refuted for timesteps of different length (months): rates are delayed, so volumes are not kept."
  },
  {
   "property": "C83",
   "status": "proved",
   "theorems": [
    "C83_can_be_posed",
    "C83_same_flows",
    "C83_same_optima",
    "C83_flow_in_bounds",
    "C83_volume_in_bounds",
    "C83_parameters_refused",
    "C83_overfull_refuted",
    "C83_changed_limit_refuted"
   ],
   "note": "Same reported flows and same optima under explicit conditions on the data (shown to hold in the example); exact limits unconditionally; Parameters as limits or factors of aggregated nodes are refused. Refuted outside the conditions: volume above a falling maximum volume (no answer, where GLPK has one), aggregated limit changed after setup (not followed)."
  },
  {
   "property": "C84",
   "status": "proved",
   "theorems": [
    "C84_inside",
    "C84_through",
    "C84_edge_through",
    "C84_ratio",
    "C84_edge_ratio",
    "C84_share",
    "C84_edge_share",
    "C84_accepted",
    "C84_exact_share_refuted"
   ],
   "note": "Proved for both GLPK solvers. The reading that each slot takes exactly its share is refuted (C84_exact_share_refuted): what an extra slot does not take of its share stays in the river, also in a cheapest answer. The statement does not claim it."
  },
  {
   "property": "C85",
   "status": "proved",
   "theorems": [
    "C85_catchment_limits",
    "C85_catchment_supplies",
    "C85_edge_catchment_supplies",
    "C85_no_flow_is_free",
    "C85_reservoir_cost",
    "C85_reservoir_plain",
    "C85_reservoir_refuses",
    "C85_gauge_attributes",
    "C85_gauge"
   ],
   "note": "Catchment for both GLPK solvers; gauge for the route solver. A flow of None leaves a catchment free (C85_flow_none)."
  },
  {
   "property": "C86",
   "status": "partial",
   "theorems": [
    "C86_value",
    "C86_flow",
    "C86_volume",
    "C86_shadow_flow",
    "C86_shadow_volume",
    "C86_repeat",
    "C86_first_timestep",
    "C86_first_value_refuted",
    "C86_repeat_refuted",
    "C86_shadow_prev_refuted"
   ],
   "note": "Proved: which timestep a value belongs to, for parameters, flows, volumes and shadows; runs repeat when parameters refer only to parameters of earlier models. Refuted: in the first timestep a parameter of a later model has never been evaluated, so uninitialised memory is read (in the next run: the last value of the previous run), hence runs do not repeat in general; prev_flow of a shadow of an earlier model's node is the flow of the current timestep. Not modelled: a model that refers to itself, child nodes as targets."
  },
  {
   "property": "C87",
   "status": "partial",
   "theorems": [
    "C87_aggregates",
    "C87_durations",
    "C87_total_duration",
    "C87_longest",
    "C87_statistics",
    "C87_statistics_overall",
    "C87_later_model_refuted"
   ],
   "note": "Proved for a Model and for the first model of a MultiModel. Refuted for the other models of a MultiModel: zip stops before advancing their timesteppers, so an event open at the end of the run ends at the last timestep instead of after it, and its duration is one timestep too short. Pandas' grouping and aggregation are modelled, not verified; NaN among the tracked values is not modelled."
  },
  {
   "property": "C88",
   "status": "partial",
   "theorems": [
    "C88_series",
    "C88_daily_profile",
    "C88_percentile",
    "C88_percentile_ends",
    "C88_percentile_share",
    "C88_duration_curve",
    "C88_duration_curve_made",
    "C88_seasonal",
    "C88_deviation",
    "C88_deviation_one_sided",
    "C88_zero_target_refuted",
    "C88_targets",
    "C88_deviation_target",
    "C88_loaded_scenario_refuted",
    "C88_loaded_scenarios_refuted"
   ],
   "note": "Proved for all kinds of series and curves. Refuted: FlowDurationCurveDeviationRecorder.load takes `scenario` out of the document and does not pass it on, so a loaded recorder compares with the wrong target (user combinations) or is refused in setup (several scenarios); where a target is zero the deviation is NaN even for a curve between the targets. np.percentile is modelled, not verified; NumpyArrayNodeDeficitRecorder: see C51's deficit."
  },
  {
   "property": "C89",
   "status": "partial",
   "theorems": [
    "C89_named",
    "C89_ignore_nan",
    "C89_over_time",
    "C89_overall",
    "C89_ignore_nan_series_refuted",
    "C89_aggregated",
    "C89_aggregated_func",
    "C89_default_refuted",
    "C89_median_refuted",
    "C89_all_nan_refuted",
    "C89_score",
    "C89_score_monotone",
    "C89_score_range",
    "C89_score_over_time"
   ],
   "note": "Proved for all shapes. Refuted: with ignore_nan every recorder with a time series fails (a two dimensional mask gives a one dimensional array, which does not fit the declared memory view); AggregatedRecorder has no default function although \"mean\" is documented; it accepts \"median\", \"percentile\" and \"count_nonzero\" and fails when asked for values; with all members NaN \"max\" and \"min\" report -inf and inf. numpy's behaviour is modelled, not verified. The percentile of a score (all four kinds) is stated by counts of smaller and equal values (C89_score), with its monotony, range and columns."
  },
  {
   "property": "C90",
   "status": "partial",
   "theorems": [
    "C90_errors",
    "C90_rmse",
    "C90_formulas",
    "C90_bias",
    "C90_efficiency",
    "C90_ratio",
    "C90_columns",
    "C90_one_modelled",
    "C90_other_columns",
    "C90_scenarios_refuted",
    "C90_aggregated_refuted"
   ],
   "note": "The metrics are proved for all series. Refuted: one observed series cannot be compared with several scenario combinations (pandas refuses the shapes), and aggregated_value always fails because values() gives a pandas Series where a buffer is needed, so these recorders cannot be objectives. Square roots use the standard library's real numbers (their axioms are listed in DESIGN.md); pandas' and Cython's conversion rules are modelled, not verified."
  },
  {
   "property": "C91",
   "status": "partial",
   "theorems": [
    "C91_linear",
    "C91_covered",
    "C91_order",
    "C91_outside",
    "C91_rises",
    "C91_source",
    "C91_layers",
    "C91_aquifer",
    "C91_initial_level_refuted"
   ],
   "note": "Proved for linear interpolation; other kinds of interp1d and InterpolatedQuadratureParameter are not modelled, scipy's interp1d is modelled, not verified. Refuted: initial_level of an aquifer cannot be read (TypeError) until the model has been set up, even just after it was given."
  },
  {
   "property": "C92",
   "status": "partial",
   "theorems": [
    "C92_value",
    "C92_input",
    "C92_two_dimensions",
    "C92_node_flow",
    "C92_previous_flow_refuted",
    "C92_default_refuted"
   ],
   "note": "Proved for parameters and storages. Refuted: a node's flow is always zero when parameters are calculated (nodes' before() comes first), so the documented previous flow is never used; C92_node_flow shows that the polynomial is taken at the offset in every timestep of every run. Without any source there is nothing to read: Parameter._node is never assigned."
  },
  {
   "property": "C93",
   "status": "partial",
   "theorems": [
    "C93_variable",
    "C93_step",
    "C93_rectifier",
    "C93_rectifier_rises",
    "C93_rectifier_zero_refuted",
    "C93_logistic"
   ],
   "note": "Refuted: min_output is documented as the value at 0, where it is 0. C93_logistic is about real numbers, not floating point exp."
  },
  {
   "property": "C94",
   "status": "partial",
   "theorems": [
    "C94_names",
    "C94_default",
    "C94_last_timestep",
    "C94_at_start",
    "C94_number_refuted"
   ],
   "note": "Refuted: a predicate given as a number is not checked; any unknown number tests for equality. The classes are not registered, so they cannot be named in a JSON document (not modelled)."
  },
  {
   "property": "C95",
   "status": "partial",
   "theorems": [
    "C95_weighted",
    "C95_between",
    "C95_accepted",
    "C95_constant_volume_refuted",
    "C95_lengths_refuted"
   ],
   "note": "Refuted: a constant parameter as maximum volume is refused (`is_constant()` calls a boolean); storages beyond the number of profiles are left out silently. A total volume of zero gives NaN."
  },
  {
   "property": "C96",
   "status": "proved",
   "theorems": [
    "C96_order",
    "C96_values",
    "C96_unique",
    "C96_succeeds",
    "C96_forgets"
   ],
   "note": "Overflow of a C int index counts as an exception. The two multiple-threshold classes are left out: they forget their dependencies (see C10)."
  },
  {
   "property": "C97",
   "status": "partial",
   "theorems": [
    "C97_daily",
    "C97_weekly",
    "C97_accepted",
    "C97_points",
    "C97_given_days",
    "C97_limits",
    "C97_same_every_year",
    "C97_variables",
    "C97_explicit_bounds",
    "C97_range",
    "C97_range_refuted",
    "C97_bounds_count_refuted"
   ],
   "note": "Proved with scipy's Rbf replaced by any function through its points. Refuted: variable_days_of_year_range can offer the optimiser days after 365 for the last day, which set_integer_variables then refuses; and explicit bounds need not be as many as the days to be varied."
  },
  {
   "property": "C98",
   "status": "partial",
   "theorems": [
    "C98_series",
    "C98_accepted",
    "C98_range",
    "C98_period",
    "C98_leap_shift",
    "C98_variables",
    "C98_set_shows_refuted",
    "C98_discount",
    "C98_discount_falls"
   ],
   "note": "Proved for all runs (each starts with a reset) and rates above -1. Refuted: variables set after a value was asked for do not show within the same timestep, because the cached value is kept. C98_leap_shift records that dates after February are one day later in the series in leap years."
  },
  {
   "property": "C99",
   "status": "partial",
   "theorems": [
    "C99_down",
    "C99_daily",
    "C99_up",
    "C99_up_succeeds",
    "C99_start",
    "C99_all_days_count_refuted",
    "C99_offset"
   ],
   "note": "Proved for frequencies of whole days with pandas' slicing, binning, mean and forward fill as described in Resample_model.v (hour frequencies not modelled). Refuted: a missing day inside a timestep is skipped by the mean, so the check for missing values does not see it, and the last timestep may be averaged over only the days the data reach. Calendar periods are in C121."
  },
  {
   "property": "C100",
   "status": "partial",
   "theorems": [
    "C100_buffer",
    "C100_complete",
    "C100_stopped",
    "C100_stepped_partial",
    "C100_by_hand_refuted",
    "C100_no_timestep_refuted"
   ],
   "note": "Proved for any array, buffer and point of stopping during a run. Refuted: with a model stepped by hand and then finished the last row is lost unless it completes a block (the residual is computed from the current timestep, which only `run` moves past the end), and `finish` without a current timestep fails if there is a buffer, hiding the error that stopped the setup. The storage of the file itself (PyTables), the attributes and the time and route tables are not modelled."
  },
  {
   "property": "C101",
   "status": "partial",
   "theorems": [
    "C101_arrays_partial",
    "C101_time",
    "C101_scenario_tables",
    "C101_all_nodes",
    "C101_named",
    "C101_parameter",
    "C101_two_characters_refuted",
    "C101_objects_refuted",
    "C101_twice_refuted",
    "C101_names_refuted",
    "C101_csv",
    "C101_csv_refused"
   ],
   "note": "Proved for every list of items in which no object is recorded again further on. Refuted: entries of two characters (a string is unpacked as a pair of path and name), node objects (the default path needs a string), an object at two paths (only the last array is written, the others stay zero), nodes called 'time' or 'scenarios', and a node and a parameter of the same name. Assumed of PyTables: a path cannot be created where there is already something or below an array."
  },
  {
   "property": "C102",
   "status": "partial",
   "theorems": [
    "C102_progress",
    "C102_complete",
    "C102_assertion",
    "C102_never_called_refuted",
    "C102_no_expectation_refuted"
   ],
   "note": "Proved for exact percentages (in doubles a percentage may come out one lower, never higher than 100). Refuted: `finish` of AssertionRecorder never raises \"never called\", as `sys.exc_info()` is a non-empty tuple also without an exception; without function and data the first timestep fails with a name error."
  },
  {
   "property": "C103",
   "status": "partial",
   "theorems": [
    "C103_isolated",
    "C103_rerun_partial",
    "C103_presolve_refuted"
   ],
   "note": "C103_isolated in full. C103_rerun_partial: equal answers if the presolve flag is the same, in particular always without `use_presolve`. C103_presolve_refuted: with `use_presolve` only the first run after a set-up presolves (has_presolved is not reset), so the second run can take another of several optima."
  },
  {
   "property": "C104",
   "status": "partial",
   "theorems": [
    "C104_choice",
    "C104_options",
    "C104_keywords",
    "C104_settings",
    "C104_unsafe_refuted",
    "C104_args_refuted"
   ],
   "note": "Choice, switches, keywords and settings proved. Refuted: options passed to `load` are dropped silently when the document has a \"solver\" item (C104_args_refuted); the settings do not contain use_unsafe_api, so results do not tell whether it was used (C104_unsafe_refuted)."
  },
  {
   "property": "C105",
   "status": "partial",
   "theorems": [
    "C105_last_assignment",
    "C105_none",
    "C105_refused_refuted",
    "C105_default",
    "C105_default_refuted",
    "C105_vectors",
    "C105_classes",
    "C105_piecewise_refuted",
    "C105_fixed"
   ],
   "note": "Refuted: an assignment that raises (None or text for a cost or a volume) has already dropped the parameter (C105_refused_refuted); None as minimum flow of an aggregated node is minus infinity, not the 0 of a new one (C105_default_refuted); PiecewiseLink overrides the methods for one scenario but not those for all, so TablesRecorder's max_flow of it is not the bound in force (C105_piecewise_refuted)."
  },
  {
   "property": "C106",
   "status": "partial",
   "theorems": [
    "C106_model",
    "C106_json",
    "C106_agree",
    "C106_attributes_partial",
    "C106_agree_refuted",
    "C106_attributes_refuted",
    "C106_sankey",
    "C106_sankey_total",
    "C106_slices",
    "C106_mean",
    "C106_scenarios_refuted",
    "C106_align"
   ],
   "note": "Refuted: the list of virtual types misses monthly and rolling virtual storages, so documents show them as nodes (C106_agree_refuted); tables of attributes raise for documents without parameters and for attributes that are lists (C106_attributes_refuted; C106_attributes_partial has what is needed); scenario_agg_func is popped under the wrong key and ignored (C106_scenarios_refuted)."
  },
  {
   "property": "C107",
   "status": "partial",
   "theorems": [
    "C107_width",
    "C107_reflection",
    "C107_probability",
    "C107_monotone",
    "C107_normalised",
    "C107_full",
    "C107_pdf",
    "C107_range",
    "C107_full_refuted",
    "C107_range_refuted"
   ],
   "note": "Refuted: with reflection at 0 and 1 the probability of the target 1 is less than 1 for any kernel that has mass everywhere (C107_full, C107_full_refuted); the PDF of normalised volumes is calculated from 0 to 1 although the volumes are from -1 to 1 (C107_range, C107_range_refuted). The normal distribution enters only through its symmetry, monotonicity and bounds."
  },
  {
   "property": "C108",
   "status": "partial",
   "theorems": [
    "C108_column",
    "C108_row",
    "C108_cell",
    "C108_row_part",
    "C108_block",
    "C108_repeated",
    "C108_column_columns",
    "C108_indexes_refused",
    "C108_indexes_refuted",
    "C108_read",
    "C108_source",
    "C108_reader",
    "C108_null",
    "C108_checksum",
    "C108_path",
    "C108_dates",
    "C108_accepted",
    "C108_values",
    "C108_literal",
    "C108_number",
    "C108_literal_number",
    "C108_target_refused",
    "C108_tables",
    "C108_order_refuted",
    "C108_comment",
    "C108_comment_lost",
    "C108_comment_refuted",
    "C108_parameter_class",
    "C108_recorder_class",
    "C108_parameter_class_refuted"
   ],
   "note": "Refuted: \"indexes\" cannot be combined with \"column\" or \"index\" (C108_indexes_refused, C108_indexes_refuted), so the targets of FlowDurationCurveDeviationRecorder cannot be taken from a column (C108_target_refused); \"columns\" after \"column\" are labels of rows (C108_column_columns); comments are lost by Parameter.load, by constants from files and by DataFrameParameter, which passes keys as positional arguments and is named after the first (C108_comment_lost, C108_comment_refuted); tables can refer only to earlier ones (C108_order_refuted); the suffix Parameter is not optional for classes without it (C108_parameter_class_refuted)."
  },
  {
   "property": "C109",
   "status": "partial",
   "theorems": [
    "C109_finishes",
    "C109_nodes",
    "C109_before",
    "C109_circle",
    "C109_unknown",
    "C109_clash",
    "C109_loads",
    "C109_order",
    "C109_order_refuted"
   ],
   "note": "Refuted: a reference to a part of a node (\"x (link)\" of a BreakLink) loads only if the entry of that node comes first (C109_order_refuted); C109_order holds for documents that refer to entries only (closed)."
  },
  {
   "property": "C110",
   "status": "partial",
   "theorems": [
    "C110_constructed",
    "C110_no_other",
    "C110_loaded",
    "C110_same",
    "C110_unresolved",
    "C110_reservoir",
    "C110_reservoir_refuted",
    "C110_split_lists",
    "C110_split_refuted",
    "C110_river_split_steps",
    "C110_null",
    "C110_null_refuted",
    "C110_reference_refuted",
    "C110_aggregated",
    "C110_aggregated_refuted"
   ],
   "note": "Refuted for documents that are not `direct`: a loaded reservoir with above_curve_cost and cost has no control curve (C110_reservoir, C110_reservoir_refuted); lists of splits have to include the extra slots in documents only (C110_split_lists, C110_split_refuted); null min_volume, costs, max_flows and initial_volume (C110_null, C110_null_refuted); references to parameters as cost of VirtualStorage or PiecewiseLink (C110_reference_refuted); limits of AggregatedNode are refused by its constructor (C110_aggregated, C110_aggregated_refuted). RiverSplit without costs needs a single step (C110_river_split_steps)."
  },
  {
   "property": "C111",
   "status": "partial",
   "theorems": [
    "C111_to_dataframe",
    "C111_refused",
    "C111_no_scenarios",
    "C111_named",
    "C111_names_refuted",
    "C111_tables",
    "C111_tables_written",
    "C111_tables_refuted",
    "C111_names_alike_refuted",
    "C111_generate",
    "C111_generate_refused",
    "C111_generate_combinations_refuted",
    "C111_generate_slice_refuted",
    "C111_generate_no_scenarios",
    "C111_frames",
    "C111_array_name",
    "C111_array_name_root",
    "C111_array_name_refuted",
    "C111_routes_refused",
    "C111_days_refuted",
    "C111_model",
    "C111_model_no_recorders",
    "C111_result"
   ],
   "note": "Refuted: generate_dataframes labels columns with the product of all scenarios whatever was run, so reordered combinations and reversed slices are shown under wrong labels (C111_generate_combinations_refuted, C111_generate_slice_refuted), other selections are refused (C111_generate_refused), and so are files of models without scenarios (C111_generate_no_scenarios) or with flows of several routes (C111_routes_refused). C111_generate holds when everything is run. Slices without start or end cannot be recorded (C111_tables_written, C111_tables_refuted); equal names of members or scenarios (C111_names_refuted, C111_names_alike_refuted); timesteps within a day share labels (C111_days_refuted)."
  },
  {
   "property": "C112",
   "status": "partial",
   "theorems": [
    "C112_declared",
    "C112_exact",
    "C112_assign",
    "C112_assign_plain",
    "C112_append",
    "C112_drop",
    "C112_same_timestep",
    "C112_refused",
    "C112_shared_refuted",
    "C112_raises_refuted",
    "C112_curves_refuted",
    "C112_twice_refuted",
    "C112_plain_refuted",
    "C112_empty_refuted"
   ],
   "note": "Proved for states in which no component is held twice by the same holder and attributes without a setter keep what the constructor gave them. Refuted otherwise: a parameter held by two attributes is no longer declared when one of them is replaced (C112_shared_refuted), replacing the second raises and leaves the old one (C112_raises_refuted); a control curve given twice cannot be replaced (C112_curves_refuted); a member aggregated twice and removed once is no longer declared (C112_twice_refuted); attributes without a setter declare nothing when assigned (C112_plain_refuted); an aggregated parameter without members counts as nothing and stays declared when replaced, so that models without a cycle are refused (C112_empty_refuted)."
  },
  {
   "property": "C113",
   "status": "partial",
   "theorems": [
    "C113_load",
    "C113_one_meaning",
    "C113_no_entry_lost",
    "C113_number_refused",
    "C113_list_order",
    "C113_number_constant",
    "C113_from_file",
    "C113_entry",
    "C113_entry_loads",
    "C113_entry_refused",
    "C113_type",
    "C113_unloadable_refuted",
    "C113_loadable",
    "C113_comment_refuted",
    "C113_url_refuted",
    "C113_text_refuted",
    "C113_curve_file_refuted",
    "C113_single_curve_refuted",
    "C113_loose_refuted",
    "C113_argument_names_refuted"
   ],
   "note": "Proved for documents with distinct keys whose numbers are in the document, and for classes with values also when they come from a file or table (C113_from_file). Refuted: five registered classes have no documents (C113_unloadable_refuted); the comment of a parameter with values is dropped (C113_comment_refuted), and so is an address beside values (C113_url_refuted); a text for a list of parameters is read letter by letter (C113_text_refuted); ControlCurveParameter does not read a file (C113_curve_file_refuted) and ControlCurveIndexParameter no single curve (C113_single_curve_refuted); numbers are refused by some and null by none of the classes that want a parameter (C113_loose_refuted); entries are not always named as arguments (C113_argument_names_refuted). Not modelled: what constructors refuse by the values of arguments (areas of the classes)."
  },
  {
   "property": "C114",
   "status": "partial",
   "theorems": [
    "C114_load",
    "C114_one_meaning",
    "C114_no_entry_lost",
    "C114_unknown_refused",
    "C114_entry",
    "C114_entry_loads",
    "C114_entry_refused",
    "C114_type",
    "C114_both_types",
    "C114_short_type_refuted",
    "C114_odd_type_refuted",
    "C114_loadable",
    "C114_rolling_mean_refuted",
    "C114_scenario_refuted",
    "C114_node_refuted",
    "C114_aggregated_default_refuted",
    "C114_csv_options_refuted",
    "C114_observed_refuted",
    "C114_argument_names_refuted"
   ],
   "note": "Proved for all documents with distinct keys. Refuted: a rolling mean drops all entries but four, misspelt ones included (C114_rolling_mean_refuted); the scenario of a deviation and the node of a recorder of a parameter have to exist and are not used (C114_scenario_refuted, C114_node_refuted); an aggregated recorder needs a function though one is the default (C114_aggregated_default_refuted); csv_kwargs cannot be given (C114_csv_options_refuted); an event recorder observes the parameter if there is also a recorder by the name (C114_observed_refuted); entries are not always named as arguments (C114_argument_names_refuted); the short name of TablesRecorder2 is not found (C114_short_type_refuted), and the second look-up finds only types no class is called by (C114_odd_type_refuted). Not modelled: what constructors refuse by the values of arguments (areas of the classes)."
  },
  {
   "property": "C115",
   "status": "partial",
   "theorems": [
    "C115_collected",
    "C115_all_nodes",
    "C115_unknown",
    "C115_prepared",
    "C115_recorded",
    "C115_everything",
    "C115_nothing_else",
    "C115_earlier",
    "C115_two_letters_refuted",
    "C115_node_itself_refuted",
    "C115_slashes_refuted",
    "C115_time_refuted",
    "C115_twice_refuted",
    "C115_root"
   ],
   "note": "Refuted: a name of two letters is taken for a path and a name (C115_two_letters_refuted); nodes themselves are refused without a path (C115_node_itself_refuted); two parameters may get the same place by the replacement of slashes (C115_slashes_refuted); a node by the name of the table of times lets the run fail (C115_time_refuted); of two places for the same thing only the last is written (C115_twice_refuted, C115_earlier in general)."
  },
  {
   "property": "C116",
   "status": "partial",
   "theorems": [
    "C116_platypus",
    "C116_platypus_places",
    "C116_pygmo",
    "C116_same",
    "C116_pygmo_none",
    "C116_pygmo_refuted",
    "C116_given",
    "C116_given_missing",
    "C116_order",
    "C116_present",
    "C116_no_wrapper",
    "C116_cache",
    "C116_cache_given"
   ],
   "note": "Proved for both wrappers, for the generator and for the cache. Refuted (C116_pygmo_refuted): pygmo's wrapper compares only the sums of the lengths of the bounds, so parameters with too many lower and others with too many upper bounds are not refused and bounds are paired wrongly. A given candidate that fails is tried again at each call and those after it are never reached (C116_order)."
  },
  {
   "property": "C117",
   "status": "proved",
   "theorems": [
    "C117_no_nan",
    "C117_refused",
    "C117_scenarios",
    "C117_constant",
    "C117_numbers",
    "C117_unsafe",
    "C117_unsafe_passes"
   ],
   "note": "Proved. C117_unsafe_passes shows what the unchecked calls let through. Errors within GLPK (long jump) are not modelled."
  },
  {
   "property": "C118",
   "status": "proved",
   "theorems": [
    "C118_transparent",
    "C118_entries",
    "C118_times",
    "C118_reset",
    "C118_dump",
    "C118_multi"
   ],
   "note": "Proved: profiling changes neither calls nor exceptions (unless the profile is written to a file and is empty), the entries of setup and reset, their times, the file of one and of several models. The memory counter is not modelled. Refusal to write an empty profile (KeyError from set_index) is part of C118_dump."
  },
  {
   "property": "C119",
   "status": "partial",
   "theorems": [
    "C119_saved",
    "C119_accounts",
    "C119_not_saved",
    "C119_switched",
    "C119_late_recorder_refuted"
   ],
   "note": "Proved for every timestep after a setup with saving on; nodes' flows are sums of saved flows where the node commits everything that passes through it (C119_accounts). Refuted: a recorder with routes_flows created after a run switches saving on while the array has one row only, so the next run raises in its first solve (C119_switched, C119_late_recorder_refuted)."
  },
  {
   "property": "C120",
   "status": "partial",
   "theorems": [
    "C120_times",
    "C120_parts",
    "C120_speed_partial",
    "C120_speed_refuted",
    "C120_unset"
   ],
   "note": "Counts and times are proved for every run. The speed leaves one timestep out (it multiplies the index of the last timestep by the number of scenarios), so a run of one timestep has speed 0: C120_speed_refuted; what it is instead: C120_speed_partial."
  },
  {
   "property": "C121",
   "status": "partial",
   "theorems": [
    "C121_daily_data",
    "C121_period_data",
    "C121_period_data_daily",
    "C121_whole_periods_refuted",
    "C121_weighed_refuted"
   ],
   "note": "Proved for any division of days into consecutive non-empty periods: daily data to calendar periods (value and exact success condition), calendar periods to days (value and exact success condition), and to timesteps of several days by equality with C99's model on daily data. Refuted in two respects: months covered only partly by the data are accepted, and months have equal weight in yearly means. Missing: frequencies of several calendar periods (e.g. two months), sub-daily ticks."
  },
  {
   "property": "C122",
   "status": "partial",
   "theorems": [
    "C122_iteration",
    "C122_passes",
    "C122_cost_error",
    "C122_structure_error",
    "C122_parts_refuted"
   ],
   "note": "Passing, each error and the warning are characterised exactly. Refuted: virtual storages that are part of another node are not looked at."
  },
  {
   "property": "C123",
   "status": "partial",
   "theorems": [
    "C123_daily",
    "C123_weekly_refuted",
    "C123_in_model"
   ],
   "note": "Proved for timesteps of at most a day, for nodes that comply and for nodes of a network (C123_in_model). Refuted for longer timesteps: the rest is offered as the flow of every day."
  },
  {
   "property": "C124",
   "status": "partial",
   "theorems": [
    "C124_aggregator",
    "C124_used",
    "C124_refused",
    "C124_set",
    "C124_read_back",
    "C124_read_back_refuted",
    "C124_set_refused",
    "C124_set_refused_refuted"
   ],
   "note": "Proved for all keyword dictionaries. Two parts of the statement are false: of a function given by a dictionary only the name is read back, so that a percentile is lost when `func` is copied (C124_read_back_refuted), and a refused assignment clears the callable of a custom aggregator (C124_set_refused_refuted). What the functions compute is C89, which keywords a class takes is C114."
  },
  {
   "property": "C125",
   "status": "partial",
   "theorems": [
    "C125_called",
    "C125_distinct",
    "C125_created",
    "C125_names",
    "C125_taken",
    "C125_unnamed",
    "C125_parameters_refuted",
    "C125_on_nothing_refuted"
   ],
   "note": "Proved for all sequences, up to the names of what the recorders are on. The last sentence is false for different things of one name: two parameters without names (C125_parameters_refuted); and two unnamed recorders on nothing, such as aggregated ones, always clash (C125_on_nothing_refuted)."
  },
  {
   "property": "C126",
   "status": "proved",
   "theorems": [
    "C126_spellings",
    "C126_read_back",
    "C126_optimised",
    "C126_not_made"
   ],
   "note": "Proved for all texts and recorders. Both wrappers compute the objectives in the same way; the constraints are C79."
  },
  {
   "property": "C127",
   "status": "partial",
   "theorems": [
    "C127_ratio",
    "C127_hyperbola",
    "C127_exponential",
    "C127_cheaper",
    "C127_on_track",
    "C127_used",
    "C127_negative_refuted",
    "C127_nothing_refuted"
   ],
   "note": "The statement is proved for positive amounts, values and k. Outside them it fails, with witnesses: with nothing left the hyperbola is minus infinity for a negative value and NaN for the value 0, not the documented infinity, as the quotient of numpy numbers never raises ZeroDivisionError; and a licence of nothing gives NaN in both. C127_used gives the ratio in every timestep of a year from what has been used in it, for timesteps of any length, as long as the licence lasts."
  },
  {
   "property": "C128",
   "status": "partial",
   "theorems": [
    "C128_open",
    "C128_finished",
    "C128_runs",
    "C128_handed_over",
    "C128_refused",
    "C128_again_refuted"
   ],
   "note": "Proved for all sequences but for the last sentence: set up once and then run any number of times nothing is refused (C128_runs), but a recorder that is set up again before finish() is refused its own file (C128_again_refuted). Relies on PyTables' rule of which modes can be open together, assumed as stated in Store_model. What is written to the file, and its metadata, are not part of this model."
  },
  {
   "property": "C129",
   "status": "partial",
   "theorems": [
    "C129_attributes",
    "C129_text",
    "C129_classes",
    "C129_ancestors",
    "C129_lists_refuted",
    "C129_two_bases_refuted"
   ],
   "note": "Proved but for two parts: the elements of a list are run together, so that different lists read the same (C129_lists_refuted); and of a class with several bases that are nodes only the ancestors of the last are followed (C129_two_bases_refuted), while with at most one all ancestors are there (C129_ancestors). The attributes are taken as inspect.getmembers yields them."
  }
 ]
}