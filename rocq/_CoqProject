-Q theories Verif
theories/Base.v
theories/Calendar_spec.v
theories/Calendar_model.v
theories/Calendar_proofs.v
theories/Calendar_props.v
theories/Timestepper_model.v
theories/Timestepper_spec.v
theories/Timestepper_proofs.v
theories/Timestepper_props.v
theories/Scenario_model.v
theories/Scenario_spec.v
theories/Scenario_proofs.v
theories/Scenario_props.v
theories/Paths.v
theories/Graph_model.v
theories/Graph_spec.v
theories/Graph_proofs.v
theories/Graph_props.v
theories/Sorting.v
theories/Routes_model.v
theories/Routes_spec.v
theories/Routes_proofs.v
theories/Routes_props.v
theories/LP_model.v
theories/Sys_model.v
theories/RouteLP_model.v
theories/RouteLP_spec.v
theories/RouteLP_proofs.v
theories/RouteLP_flow.v
theories/LP_check.v
theories/RouteLP_props.v
theories/Storage_model.v
theories/Sim_model.v
theories/Storage_spec.v
theories/Storage_proofs.v
theories/Storage_props.v
theories/Ring.v
theories/Virtual_model.v
theories/Virtual_spec.v
theories/Virtual_proofs.v
theories/Virtual_props.v
theories/Periodic_model.v
theories/Periodic_spec.v
theories/Periodic_proofs.v
theories/Periodic_props.v
theories/Buffers_model.v
theories/Buffers_proofs.v
theories/Buffers_props.v
theories/ControlCurves_model.v
theories/ControlCurves_spec.v
theories/ControlCurves_proofs.v
theories/ControlCurves_props.v
theories/Aggregate_model.v
theories/Aggregate_spec.v
theories/Aggregate_proofs.v
theories/Aggregate_props.v
theories/Profiles_model.v
theories/Profiles_proofs.v
theories/Profiles_props.v
theories/Licences_model.v
theories/Licences_spec.v
theories/Licences_proofs.v
theories/Licences_props.v
theories/Thresholds_model.v
theories/Thresholds_spec.v
theories/Thresholds_proofs.v
theories/Thresholds_props.v
theories/Physics_model.v
theories/Physics_proofs.v
theories/Physics_props.v
theories/Recorders_model.v
theories/Recorders_spec.v
theories/Recorders_proofs.v
theories/Recorders_props.v
theories/Events_model.v
theories/Events_spec.v
theories/Events_proofs.v
theories/Events_props.v
theories/Bisect_model.v
theories/Bisect_proofs.v
theories/Bisect_props.v
theories/Constraints_model.v
theories/Constraints_spec.v
theories/Constraints_proofs.v
theories/Constraints_props.v
theories/Optimisation_model.v
theories/Optimisation_spec.v
theories/Optimisation_proofs.v
theories/Optimisation_props.v
theories/Names_model.v
theories/Names_spec.v
theories/Names_proofs.v
theories/Names_props.v
theories/Hash_model.v
theories/Hash_proofs.v
theories/Hash_props.v
theories/Run_model.v
theories/Run_spec.v
theories/Run_proofs.v
theories/Run_props.v
theories/Documents_model.v
theories/Documents_proofs.v
theories/Documents_props.v
theories/Includes_model.v
theories/Includes_spec.v
theories/Includes_proofs.v
theories/Includes_props.v
theories/Loading_model.v
theories/Loading_spec.v
theories/Loading_proofs.v
theories/Loading_complete.v
theories/Loading_props.v
theories/ScenarioParams_model.v
theories/ScenarioParams_spec.v
theories/ScenarioParams_proofs.v
theories/ScenarioParams_props.v
theories/Connect_model.v
theories/Connect_spec.v
theories/Connect_proofs.v
theories/Connect_props.v
theories/Nodes_model.v
theories/Nodes_spec.v
theories/Nodes_proofs.v
theories/Nodes_volumes.v
theories/Nodes_rerun.v
theories/Nodes_components.v
theories/Nodes_props.v
theories/Nodes_volumes_props.v
theories/EdgeLP_model.v
theories/EdgeLP_spec.v
theories/EdgeLP_meets.v
theories/EdgeLP_proofs.v
theories/EdgeLP_decomp.v
theories/EdgeLP_posed.v
theories/EdgeLP_limits.v
theories/EdgeLP_check.v
theories/EdgeLP_props.v
theories/Loss_model.v
theories/Loss_spec.v
theories/Loss_proofs.v
theories/Loss_props.v
theories/Piecewise_model.v
theories/Piecewise_spec.v
theories/Piecewise_proofs.v
theories/LP_optimal.v
theories/Piecewise_props.v
theories/FixedOnce_model.v
theories/FixedOnce_spec.v
theories/FixedOnce_proofs.v
theories/FixedOnce_props.v
theories/Pygmo_model.v
theories/Pygmo_spec.v
theories/Pygmo_proofs.v
theories/Pygmo_props.v
theories/Break_model.v
theories/Break_spec.v
theories/Break_proofs.v
theories/Break_props.v
theories/Delay_model.v
theories/Delay_proofs.v
theories/Delay_props.v
theories/LpSolve_model.v
theories/LpSolve_spec.v
theories/LpSolve_proofs.v
theories/LpSolve_same.v
theories/LpSolve_props.v
theories/Split_model.v
theories/Split_spec.v
theories/Split_proofs.v
theories/Split_props.v
theories/River_model.v
theories/River_spec.v
theories/River_proofs.v
theories/River_props.v
theories/Exchange_model.v
theories/Exchange_spec.v
theories/Exchange_proofs.v
theories/Exchange_props.v
theories/EventStats_model.v
theories/EventStats_spec.v
theories/EventStats_proofs.v
theories/EventStats_props.v
theories/Series_model.v
theories/Series_spec.v
theories/Series_proofs.v
theories/Series_props.v
theories/DefaultNames_model.v
theories/DefaultNames_props.v
theories/Direction_model.v
theories/Direction_props.v
theories/Score_model.v
theories/Score_props.v
theories/Scaled_model.v
theories/Scaled_props.v
theories/Store_model.v
theories/Store_props.v
theories/Schematic_model.v
theories/Schematic_props.v
theories/AggKeys_model.v
theories/AggKeys_spec.v
theories/AggKeys_props.v
theories/Aggregator_model.v
theories/Aggregator_spec.v
theories/Aggregator_proofs.v
theories/Aggregator_props.v
theories/Calibration_model.v
theories/Calibration_proofs.v
theories/Calibration_props.v
theories/Interp_model.v
theories/Interp_spec.v
theories/Interp_proofs.v
theories/Interp_props.v
theories/Polynomial_model.v
theories/Polynomial_spec.v
theories/Polynomial_proofs.v
theories/Polynomial_props.v
theories/Activation_model.v
theories/Activation_props.v
theories/ThresholdRec_model.v
theories/ThresholdRec_props.v
theories/Weighted_model.v
theories/Weighted_proofs.v
theories/Weighted_props.v
theories/Eval_model.v
theories/Eval_spec.v
theories/Eval_proofs.v
theories/Eval_props.v
theories/Rbf_model.v
theories/Rbf_spec.v
theories/Rbf_proofs.v
theories/Rbf_props.v
theories/Harmonic_model.v
theories/Harmonic_props.v
theories/Resample_model.v
theories/Resample_spec.v
theories/Resample_proofs.v
theories/Resample_props.v
theories/Tables_model.v
theories/Tables_proofs.v
theories/Tables_props.v
theories/Results_model.v
theories/Results_proofs.v
theories/Results_props.v
theories/Report_model.v
theories/Report_props.v
theories/Memory_model.v
theories/Memory_props.v
theories/Options_model.v
theories/Options_props.v
theories/Forget_model.v
theories/Forget_props.v
theories/Attributes_model.v
theories/Attributes_props.v
theories/Drawing_model.v
theories/Drawing_props.v
theories/Kde_model.v
theories/Kde_props.v
theories/DataLoad_model.v
theories/DataLoad_proofs.v
theories/DataLoad_props.v
theories/NodeLoad_model.v
theories/NodeLoad_proofs.v
theories/NodeLoad_props.v
theories/NodeArgs_model.v
theories/NodeArgs_spec.v
theories/NodeArgs_proofs.v
theories/NodeArgs_props.v
theories/Frames_model.v
theories/Frames_spec.v
theories/Frames_proofs.v
theories/Frames_props.v
theories/Rewire_model.v
theories/Rewire_spec.v
theories/Rewire_proofs.v
theories/Rewire_props.v
theories/ParamLoad_model.v
theories/ParamLoad_spec.v
theories/ParamLoad_proofs.v
theories/ParamLoad_classes.v
theories/ParamLoad_props.v
theories/RecLoad_model.v
theories/RecLoad_spec.v
theories/RecLoad_proofs.v
theories/RecLoad_classes.v
theories/RecLoad_props.v
theories/TableItems_model.v
theories/TableItems_spec.v
theories/TableItems_proofs.v
theories/TableItems_props.v
theories/Search_model.v
theories/Search_spec.v
theories/Search_proofs.v
theories/Search_props.v
theories/Nan_model.v
theories/Nan_spec.v
theories/Nan_props.v
theories/Profile_model.v
theories/Profile_spec.v
theories/Profile_props.v
theories/Saved_model.v
theories/Saved_props.v
theories/Timing_model.v
theories/Timing_props.v
theories/Months_model.v
theories/Months_spec.v
theories/Months_props.v
theories/Check_model.v
theories/Check_spec.v
theories/Check_props.v
theories/Licensed_props.v
