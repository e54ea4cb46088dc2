(** Model of the documents of recorders: the class methods `load` of the recorders and the calls of the constructors they end with
    (/repo/pywr/recorders/_recorders.pyx, _hydropower.pyx, _tables_recorders.pyx, recorders.py, events.py, kde.py) and the choice of the class
    in load_recorder (_recorders.pyx:2211-2255).
    Simplifications:
    - what a reference or an inner document of a parameter or recorder gives, the nodes and scenarios of the model, its path, and what is read from a file
      or table are arbitrary functions (areas Loading, ParamLoad and DataLoad say what they are);
    - arguments that are numbers and texts of their own accord are passed on unchecked, except where it is said; neither is the order modelled in which
      things fail; `int(...)` of a text is refused here;
    - the names in "nodes" and "parameters" of a TablesRecorder are in TableItems_model.v;
    - the classes that are not registered have no documents: those of calibration.py, _thresholds.pyx and progress.py, AssertionRecorder,
      NumpyArrayAbstractStorageRecorder, BaseConstantNodeRecorder and BaseConstantParameterRecorder. *)
From Coq Require Import Strings.Ascii Strings.String.
From Verif Require Import Base Documents_model DataLoad_model ParamLoad_model.
Local Open Scope string_scope.
Local Open Scope nat_scope.
Local Open Scope list_scope.

(** * Classes *)

Inductive class :=
| Aggregated | OfNode | OfStorage | OfParameter | OfIndex
| ArrayNode | ArrayDeficit | ArraySupplied | ArrayCurtailment | ArrayCost | FlowDuration | SeasonalDuration | DurationDeviation
| ArrayStorage | ArrayNormalised | StorageDuration | ArrayLevel | ArrayArea
| ArrayParameter | ArrayDaily | ArrayIndex | RollingWindow | RollingMean
| TotalDeficit | TotalFlow | MeanFlow | DeficitFrequency | ConstantStorage | MinimumVolume | MinimumThreshold
| CountIndex | AnnualCountThreshold | AnnualTotal | AnnualCountIndex | TotalParameter | MeanParameter
| Hydropower | HydroEnergy | Csv | Tables | Tables2 | Event | EventDuration | EventStatistic | Kde | NormalisedKde.

(** The names the classes are registered by (`register()`, `recorder_registry[cls.__name__.lower()]`, 352-354). *)
Definition registry : dict class :=
  [("aggregatedrecorder", Aggregated); ("noderecorder", OfNode); ("storagerecorder", OfStorage); ("parameterrecorder", OfParameter);
   ("indexparameterrecorder", OfIndex); ("numpyarraynoderecorder", ArrayNode); ("numpyarraynodedeficitrecorder", ArrayDeficit);
   ("numpyarraynodesuppliedratiorecorder", ArraySupplied); ("numpyarraynodecurtailmentratiorecorder", ArrayCurtailment);
   ("numpyarraynodecostrecorder", ArrayCost); ("flowdurationcurverecorder", FlowDuration); ("seasonalflowdurationcurverecorder", SeasonalDuration);
   ("flowdurationcurvedeviationrecorder", DurationDeviation); ("numpyarraystoragerecorder", ArrayStorage);
   ("numpyarraynormalisedstoragerecorder", ArrayNormalised); ("storagedurationcurverecorder", StorageDuration); ("numpyarraylevelrecorder", ArrayLevel);
   ("numpyarrayarearecorder", ArrayArea); ("numpyarrayparameterrecorder", ArrayParameter); ("numpyarraydailyprofileparameterrecorder", ArrayDaily);
   ("numpyarrayindexparameterrecorder", ArrayIndex); ("rollingwindowparameterrecorder", RollingWindow); ("rollingmeanflownoderecorder", RollingMean);
   ("totaldeficitnoderecorder", TotalDeficit); ("totalflownoderecorder", TotalFlow); ("meanflownoderecorder", MeanFlow);
   ("deficitfrequencynoderecorder", DeficitFrequency); ("baseconstantstoragerecorder", ConstantStorage);
   ("minimumvolumestoragerecorder", MinimumVolume); ("minimumthresholdvolumestoragerecorder", MinimumThreshold);
   ("timestepcountindexparameterrecorder", CountIndex); ("annualcountindexthresholdrecorder", AnnualCountThreshold);
   ("annualtotalflowrecorder", AnnualTotal); ("annualcountindexparameterrecorder", AnnualCountIndex); ("totalparameterrecorder", TotalParameter);
   ("meanparameterrecorder", MeanParameter); ("hydropowerrecorder", Hydropower); ("totalhydroenergyrecorder", HydroEnergy); ("csvrecorder", Csv);
   ("tablesrecorder", Tables); ("tablesrecorder2", Tables2); ("eventrecorder", Event); ("eventdurationrecorder", EventDuration);
   ("eventstatisticrecorder", EventStatistic); ("gaussiankdestoragerecorder", Kde); ("normalisedgaussiankdestoragerecorder", NormalisedKde)].

(** `name.replace("recorder", "")`: the occurrences from the left; [skip] letters of one are left. *)
Fixpoint without (word : string) (skip : nat) (s : string) : string :=
  match s with
  | EmptyString => EmptyString
  | String c s' => match skip with
                   | S n => without word n s'
                   | 0 => if prefix word s then without word (String.length word - 1) s' else String c (without word 0 s')
                   end
  end.
(** 2236-2250 *)
Definition class_of (typ : string) : option class :=
  let key := lower typ in
  match get key registry with
  | Some c => Some c
  | None => get (if ends_with "recorder" key then without "recorder" 0 key else (key ++ "recorder")%string) registry
  end.

(** ** Signatures: the arguments of the constructors after the model, in order; those of the keywords that are taken from `kwargs` come last. *)

(** Recorder.__init__ (218) and Component.__init__ (_component.pyx:85): the end of every signature. *)
Definition base : list formal :=
  plain ["agg_func"; "ignore_nan"; "is_objective"; "epsilon"; "name"; "constraint_lower_bounds"; "constraint_upper_bounds"; "comment"; "tags"].
(** NodeRecorder 459: AbstractNode, of which AbstractStorage is a subclass; NumpyArrayNodeRecorder 599-602 *)
Definition on_node : list formal := [must "node" TAny].
Definition array_rest : list formal := plain ["temporal_agg_func"; "factor"].
(** StorageRecorder 480; NumpyArrayAbstractStorageRecorder 1107-1109 *)
Definition on_storage : list formal := [must "node" TStore].
(** ParameterRecorder 511, IndexParameterRecorder 548: a parameter, as its name or its parents are asked for *)
Definition on_parameter : list formal := [must "param" TComp].
Definition on_index : list formal := [must "param" TIndex].
Definition turbine_rest : list formal :=
  may "water_elevation_parameter" TPar :: plain ["turbine_elevation"; "efficiency"; "density"; "flow_unit_conversion"; "energy_unit_conversion"].
Definition tables_rest : list formal :=
  must "h5file" TAny :: plain ["nodes"; "parameters"; "where"; "time"; "routes_flows"; "routes"; "scenarios"; "filter_kwds"; "mode"; "metadata"; "create_directories"; "title"].
Definition kde_rest : list formal := plain ["resample_freq"; "resample_func"; "use_reflection"; "num_pdf"].
Definition formals (c : class) : list formal :=
  match c with
  | Aggregated => [must "recorders" TAny; may "recorder_agg_func" TAny] ++ base (* 382-384 *)
  | OfNode | TotalDeficit (* 1740 *) | DeficitFrequency (* 1805 *) => on_node ++ base
  | OfStorage | ConstantStorage (* 1825 *) | MinimumVolume (* 1843 *) => on_storage ++ base
  | OfParameter => on_parameter ++ base
  | OfIndex => on_index ++ base
  | ArrayNode | ArrayDeficit | ArraySupplied | ArrayCurtailment | ArrayCost => on_node ++ array_rest ++ base (* 599-603 *)
  | FlowDuration => on_node ++ [must "percentiles" TAny; may "fdc_agg_func" TAny] ++ array_rest ++ base (* 832-845 *)
  | SeasonalDuration => on_node ++ [must "percentiles" TAny; must "months" TAny; may "fdc_agg_func" TAny] ++ array_rest ++ base (* 897 *)
  | DurationDeviation => on_node ++ [must "percentiles" TAny; may "lower_target_fdc" TAny; may "upper_target_fdc" TAny; may "scenario" TScenNone;
                                     may "fdc_agg_func" TAny] ++ array_rest ++ base (* 948 *)
  | ArrayStorage => on_storage ++ plain ["temporal_agg_func"; "proportional"] ++ base (* 1170-1173 *)
  | ArrayNormalised => on_storage ++ [must "parameter" TPar; may "temporal_agg_func" TAny] ++ base (* 1207-1211 *)
  | StorageDuration => on_storage ++ [must "percentiles" TAny] ++ plain ["sdc_agg_func"; "temporal_agg_func"; "proportional"] ++ base (* 1263-1275 *)
  | ArrayLevel | ArrayArea => on_storage ++ plain ["temporal_agg_func"] ++ base
  | ArrayParameter (* 1378 *) | ArrayDaily (* 1449 *) => on_parameter ++ plain ["temporal_agg_func"] ++ base
  | ArrayIndex => on_index ++ plain ["temporal_agg_func"] ++ base (* 1512 *)
  | RollingWindow => on_parameter ++ [must "window" TAny; may "temporal_agg_func" TAny] ++ base (* 1558-1569 *)
  | RollingMean => on_node ++ plain ["timesteps"; "days"; "name"] (* 1644: those that `load` passes *)
  | TotalFlow (* 1764 *) | MeanFlow (* 1785 *) => on_node ++ plain ["factor"] ++ base
  | MinimumThreshold => on_storage ++ [must "threshold" TAny] ++ base (* 1861 *)
  | CountIndex => [must "parameter" TIndex; must "threshold" TAny] ++ base (* 1891 *)
  | AnnualCountIndex => on_index ++ [must "threshold" TAny] ++ base (* 2155 *)
  | AnnualCountThreshold => [must "parameters" TAny; must "name" TText; must "threshold" TAny]
      ++ plain ["exclude_months"; "include_from_month"; "include_from_day"; "include_to_month"; "include_to_day"; "temporal_agg_func"]
      ++ plain ["agg_func"; "ignore_nan"; "is_objective"; "epsilon"; "constraint_lower_bounds"; "constraint_upper_bounds"; "comment"; "tags"] (* 1948-1956 *)
  | AnnualTotal => [must "name" TText; must "nodes" TAny] ++ plain ["temporal_agg_func"; "factors"]
      ++ plain ["agg_func"; "ignore_nan"; "is_objective"; "epsilon"; "constraint_lower_bounds"; "constraint_upper_bounds"; "comment"; "tags"] (* 2076-2079 *)
  | TotalParameter => on_parameter ++ plain ["factor"; "integrate"] ++ base (* 2295-2298 *)
  | MeanParameter => on_parameter ++ plain ["factor"] ++ base (* 2334 *)
  | Hydropower => on_node ++ turbine_rest ++ array_rest ++ base (* _hydropower.pyx:106-108 *)
  | HydroEnergy => on_node ++ turbine_rest ++ base (* 211-213 *)
  | Csv => must "csvfile" TAny :: plain ["scenario_index"; "nodes"; "complib"; "complevel"] ++ base (* recorders.py:135-145; "csv_kwargs" is not removed for the base *)
  | Tables => tables_rest ++ plain ["use_legacy_attribute_naming"] ++ base (* recorders.py:251-319 *)
  | Tables2 => tables_rest ++ plain ["buffer_size"; "buffer_timesteps"] ++ base (* _tables_recorders.pyx:37-115 *)
  | Event => [must "threshold" TObserved; may "minimum_event_length" TAny; may "tracked_parameter" TCompNone; may "event_agg_func" TAny] ++ base (* events.py:58-77 *)
  | EventDuration => [must "event_recorder" TAny; may "recorder_agg_func" TAny] ++ base (* 232-239 *)
  | EventStatistic => [must "event_recorder" TAny; may "event_agg_func" TAny; may "recorder_agg_func" TAny] ++ base (* 308-317 *)
  | Kde => on_storage ++ [must "target_volume_pc" TAny] ++ kde_rest ++ plain ["temporal_agg_func"] ++ base (* kde.py:37-44; "proportional" is given *)
  | NormalisedKde => on_storage ++ [must "parameter" TPar] ++ kde_rest ++ plain ["temporal_agg_func"] ++ base (* 136-142 *)
  end.

(** ** The call `cls(model, ...)`, as in ParamLoad_model.v, with what the constructors refuse because of several arguments *)
Definition is_text (o : option obj) : bool := match o with Some (ORaw (JString _)) => true | _ => false end.
Definition given_arg (n : string) (b : bindings) : bool := match get n b with Some _ => true | None => false end.
Definition nonzero (o : option obj) : bool := match o with Some (ORaw (JNumber q)) => negb (qeqb q 0) | _ => false end.
Definition extra (c : class) (b : bindings) : bool :=
  match c with
  | Aggregated => is_text (if given_arg "recorder_agg_func" b then get "recorder_agg_func" b else get "agg_func" b) (* 384-393; nothing callable is in a document *)
  | FlowDuration | SeasonalDuration => negb (given_arg "fdc_agg_func" b && given_arg "temporal_agg_func" b) (* 835-843 *)
  | DurationDeviation => negb (given_arg "fdc_agg_func" b && given_arg "temporal_agg_func" b)
                         && (some_object (get "lower_target_fdc" b) || some_object (get "upper_target_fdc" b)) (* 951-952 *)
  | StorageDuration => negb (given_arg "sdc_agg_func" b && given_arg "temporal_agg_func" b) (* 1265-1273 *)
  | RollingMean => nonzero (get "timesteps" b) || nonzero (get "days" b) (* 1651-1652 *)
  | Event => match get "minimum_event_length" b with None => true | Some (ORaw (JNumber q)) => qleb 1 q | Some _ => false end (* events.py:65-66 *)
  | _ => true
  end.
Definition call_with (c : class) (given : list (string * obj)) : option bindings :=
  if nodupb (map fst given) && forallb (fun n => existsb (String.eqb n) (map f_name (formals c))) (map fst given) then
    match bound (formals c) given with Some b => if extra c b then Some b else None | None => None end
  else None.

(** * The methods `load` *)

Local Notation "x <- m ;; k" := (bind m (fun x => k)) (at level 61, m at next level, right associativity).
(** `cls(model, *pos, **kw, **data)`, `cls(model, *pos, **kw)` *)
Definition call (c : class) (pos : list obj) (kw : list (string * obj)) : M bindings :=
  fun d => option_map (fun b => (b, d)) (call_with c (combine (map f_name (formals c)) pos ++ kw ++ map (fun kv => (fst kv, raw (snd kv))) d)).
Definition call_only (c : class) (pos : list obj) (kw : list (string * obj)) : M bindings :=
  fun d => option_map (fun b => (b, d)) (call_with c (combine (map f_name (formals c)) pos ++ kw)).

Section World.
(** What a reference to a parameter gives, what a dictionary gives; whether the loading of a dictionary as a parameter ends with a KeyError; what a reference to
    and a dictionary of a recorder give; the nodes and scenarios of the model; its path; what load_parameter_values reads from a file or table and leaves. *)
Variable named : string -> option obj.
Variable made : dict json -> option obj.
Variable missing : dict json -> bool.
Variable rec_named : string -> option nat.
Variable rec_made : dict json -> option nat.
Variable node : string -> option sort.
Variable scenario : string -> bool.
Variable path : option string.
Variable file : dict json -> option (array * dict json).

(** load_recorder, 2211-2255: `data['type']` fails for what is no text and no dictionary *)
Definition load_recorder (j : json) : option obj :=
  match j with
  | JString s => option_map ORec (rec_named s)
  | JDict d => option_map ORec (rec_made d)
  | _ => None
  end.
Definition load_recorders (j : json) : option obj :=
  match items j with Some l => option_map OList (all load_recorder l) | None => None end.
Local Notation par k := (par named made k).
Local Notation pars k := (pars named made k).
Local Notation nod k := (nod node k).

(** Recorder.load, 340-348: `data["node"] = model.nodes[node_name]` is an argument by its name *)
Definition load_base (c : class) : M bindings :=
  h <- has "node" ;;
  if h then (n <- nod "node" ;; call c [] [("node", n)]) else call c [] [].
(** AggregatedRecorder.load, 448-453 *)
Definition load_aggregated : M bindings :=
  rs <- (j <- req "recorders" ;; lift (load_recorders j)) ;; call Aggregated [rs] [].
(** ParameterRecorder.load, 528-542: the node is looked up and not used *)
Definition load_of_parameter (c : class) : M bindings :=
  _ <- (h <- has "node" ;; if h then nod "node" else ret ONone) ;;
  p <- par "parameter" ;; call c [p] [].
(** IndexParameterRecorder.load, 565-569 *)
Definition load_of_index (c : class) : M bindings := p <- par "parameter" ;; call c [p] [].
(** FlowDurationCurveDeviationRecorder.load, 1084-1101: the scenario is looked up and not used *)
Definition load_target (percentiles : json) (o : option json) : option obj :=
  match o with
  | None => Some ONone
  | Some (JDict d) => option_map fst (values file (put "indexes" percentiles d))
  | Some j => Some (raw j)
  end.
Definition load_deviation : M bindings :=
  n <- nod "node" ;;
  p <- req "percentiles" ;;
  _ <- opt_scenario scenario ;;
  u <- (j <- opt "upper_target_fdc" ;; lift (load_target p j)) ;;
  l <- (j <- opt "lower_target_fdc" ;; lift (load_target p j)) ;;
  call DurationDeviation [n; raw p] [("lower_target_fdc", l); ("upper_target_fdc", u)].
(** NumpyArrayNormalisedStorageRecorder.load, 1234-1239 *)
Definition load_normalised (c : class) : M bindings :=
  n <- nod "node" ;; p <- par "parameter" ;; call c [] [("node", n); ("parameter", p)].
(** `int(...)` *)
Definition to_int (j : json) : option obj :=
  match j with JNumber q => Some (ORaw (JNumber (inject_Z (Z.quot (Qnum q) (Z.pos (Qden q)))))) | _ => None end.
(** RollingWindowParameterRecorder.load, 1618-1623 *)
Definition load_window : M bindings :=
  p <- par "parameter" ;; w <- (j <- req "window" ;; lift (to_int j)) ;; call RollingWindow [p; w] [].
(** RollingMeanFlowNodeRecorder.load, 1706-1718: the rest of the document is not used *)
Definition load_rolling_mean : M bindings :=
  nm <- opt "name" ;;
  n <- nod "node" ;;
  t <- (h <- has "timesteps" ;; if h then (j <- req "timesteps" ;; lift (to_int j)) else ret ONone) ;;
  s <- (h <- has "days" ;; if h then (j <- req "days" ;; lift (to_int j)) else ret ONone) ;;
  call_only RollingMean [n] [("timesteps", t); ("days", s); ("name", or_none nm)].
(** AnnualCountIndexThresholdRecorder.load, 2051-2055; AnnualTotalFlowRecorder.load, 2146-2149 *)
Definition load_annual_count : M bindings := ps <- pars "parameters" ;; call AnnualCountThreshold [] [("parameters", ps)].
Definition load_annual_total : M bindings := ns <- (j <- req "nodes" ;; lift (find_nodes node j)) ;; call AnnualTotal [] [("nodes", ns)].
(** HydropowerRecorder.load, _hydropower.pyx:154-163; TotalHydroEnergyRecorder.load, 261-270 *)
Definition load_turbine (c : class) : M bindings :=
  n <- nod "node" ;;
  w <- optional "water_elevation_parameter" (par "water_elevation_parameter") ;;
  call c [n] [("water_elevation_parameter", w)].
(** CSVRecorder.load, recorders.py:155-162; TablesRecorder.load, 382-389; TablesRecorder2.load, _tables_recorders.pyx:180-187 *)
Definition to_path (j : json) : option obj := match j with JString u => Some (ORaw (JString (resolve path u))) | _ => None end.
Definition load_file (c : class) : M bindings := u <- (j <- req "url" ;; lift (to_path j)) ;; call c [u] [].
(** EventRecorder.load, events.py:191-203: `except KeyError` *)
Definition load_threshold (j : json) : option obj :=
  match j with
  | JString s => match named s with Some o => Some o | None => load_recorder j end
  | JDict d => match made d with Some o => Some o | None => if missing d then load_recorder j else None end
  | _ => load_parameter named made j
  end.
Definition falsy (j : json) : bool :=
  match j with
  | JNull => true
  | JNumber q => qeqb q 0
  | JString s => String.eqb s ""
  | JList l => match l with [] => true | _ => false end
  | JDict d => match d with [] => true | _ => false end
  end.
Definition load_tracked (o : option json) : option obj :=
  match o with None => Some ONone | Some j => if falsy j then Some (raw j) else load_parameter named made j end.
Definition load_event : M bindings :=
  t <- (j <- req "threshold" ;; lift (load_threshold j)) ;;
  p <- (j <- opt "tracked_parameter" ;; lift (load_tracked j)) ;;
  call Event [t] [("tracked_parameter", p)].
(** EventDurationRecorder.load, 270-273; EventStatisticRecorder.load, 355-358 *)
Definition load_of_events (c : class) : M bindings :=
  r <- (j <- req "event_recorder" ;; lift (load_recorder j)) ;; call c [r] [].

Definition load_rest (c : class) : M bindings :=
  match c with
  | OfNode | OfStorage | ArrayNode | ArrayDeficit | ArraySupplied | ArrayCurtailment | ArrayCost | FlowDuration | SeasonalDuration | ArrayStorage
  | StorageDuration | ArrayLevel | ArrayArea | TotalDeficit | TotalFlow | MeanFlow | DeficitFrequency | ConstantStorage | MinimumVolume | MinimumThreshold
  | Kde => load_base c
  | Aggregated => load_aggregated
  | OfParameter | ArrayParameter | ArrayDaily | TotalParameter | MeanParameter => load_of_parameter c
  | OfIndex | ArrayIndex | CountIndex | AnnualCountIndex => load_of_index c
  | DurationDeviation => load_deviation
  | ArrayNormalised | NormalisedKde => load_normalised c
  | RollingWindow => load_window
  | RollingMean => load_rolling_mean
  | AnnualCountThreshold => load_annual_count
  | AnnualTotal => load_annual_total
  | Hydropower | HydroEnergy => load_turbine c
  | Csv | Tables | Tables2 => load_file c
  | Event => load_event
  | EventDuration | EventStatistic => load_of_events c
  end.
(** `cls.load(model, data)` *)
Definition load (c : class) (d : dict json) : option bindings := option_map fst (load_rest c d).
(** load_recorder for a dictionary, 2235-2253 *)
Definition load_entry (d : dict json) : option (class * bindings) :=
  match get "type" d with
  | Some (JString typ) =>
      match class_of typ with
      | None => None
      | Some c => option_map (pair c) (load c (pop "type" d))
      end
  | _ => None
  end.
End World.
