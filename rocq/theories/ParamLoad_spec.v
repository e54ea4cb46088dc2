(** What the documents of parameters mean: for each class a table of the entries its documents may have, and the relation between a document and the
    arguments of the class.  Independent of the methods `load` and of the signatures of the constructors. *)
From Coq Require Import Strings.Ascii Strings.String.
From Verif Require Import Base Documents_model DataLoad_model ParamLoad_model.
Local Open Scope string_scope.
Local Open Scope nat_scope.
Local Open Scope list_scope.

(** Kinds of entries. *)
Inductive kind :=
| KRaw        (* taken as it stands *)
| KNumber     (* a number *)
| KArray      (* anything numpy makes an array of *)
| KValues     (* numbers, or lists of numbers of the same shape *)
| KData       (* a list of numbers or a dictionary that says where the numbers are *)
| KNode | KFlowNode | KStorage | KNodes
| KScenario | KScenarioNull | KRecorder
| KPar        (* a parameter, or null *)
| KParNum     (* a parameter or a number *)
| KParOnly    (* a parameter *)
| KParIndex   (* an index parameter *)
| KParLoose   (* a parameter; numbers and null are not refused *)
| KCurve      (* a parameter or a number; a list of one *)
| KPars       (* parameters *)
| KParsWrap   (* parameters or numbers, which stand for constant parameters *)
| KParsLoose  (* parameters; numbers and null are not refused *)
| KParsConst. (* the same, numbers stand for constant parameters *)

(** What happens to an argument whose entry is missing. *)
Inductive need := Required | Default (o : obj) | Left.
(** An argument of the class, the entries it may come from (the first that is there) and what they are. *)
Record field := Field { a_name : string; a_keys : list (string * kind); a_need : need }.

Definition entry (k : string) (kd : kind) : field := Field k [(k, kd)] Required.
Definition entry_or (k : string) (kd : kind) (o : obj) : field := Field k [(k, kd)] (Default o).
Definition needs (ks : list string) : list field := map (fun k => Field k [(k, KRaw)] Required) ks.
Definition lets (ks : list string) : list field := map (fun k => Field k [(k, KRaw)] Left) ks.
Definition common : list field := lets ["name"; "comment"; "tags"; "is_variable"].
(** The comment of a document of these classes is dropped. *)
Definition of_values (own : list field) (more : list string) : list field :=
  own ++ [entry "values" KValues; entry_or "name" KRaw ONone; Field "comment" [] (Default ONone)] ++ lets (more ++ ["tags"; "is_variable"]).
Definition curves : field := Field "control_curves" [("control_curve", KCurve); ("control_curves", KParsWrap)] (Default (OList [])).
Definition of_threshold (own : list field) (more : list string) : list field :=
  own ++ [entry "threshold" KParNum; entry_or "values" KRaw ONone; entry_or "predicate" KRaw ONone] ++ lets ("ratchet" :: more) ++ common.

Definition table (c : class) : option (list field) :=
  match c with
  | Basic | Index | BaseCurve | OfFunction | TimestepLicense => None (* no document *)
  | Constant => Some (Field "value" [("value", KRaw); ("values", KValues)] Required :: lets ["lower_bounds"; "upper_bounds"; "scale"; "offset"] ++ common)
  | ArrayIndexed | DailyProfile | WeeklyProfile => Some (of_values [] [])
  | MonthlyProfile => Some (of_values [] ["lower_bounds"; "upper_bounds"; "interp_day"])
  | ArrayIndexedScenario | ConstantScenario | ScenarioMonthly | ScenarioWeekly | ScenarioDaily | ConstantScenarioIndex =>
      Some (of_values [entry "scenario" KScenario] [])
  | TablesArray => Some ([Field "h5file" [("url", KRaw)] Required; entry "node" KRaw; entry_or "where" KRaw (ORaw (JString "/"));
                          entry_or "scenario" KScenarioNull ONone] ++ lets ["timestep_offset"] ++ common)
  | MonthlyFactors => Some ([entry "scenario" KScenario; entry "values" KData; entry "factors" KData] ++ common)
  | UniformDrawdown => Some (lets ["reset_day"; "reset_month"; "residual_days"] ++ common)
  | RbfProfile => Some (needs ["days_of_year"; "values"] ++ lets ["lower_bounds"; "upper_bounds"; "rbf_kwargs"; "variable_days_of_year_range";
                          "variable_days_lower_bounds"; "variable_days_upper_bounds"; "min_value"; "max_value"] ++ common)
  | IndexedArray => Some ([entry "index_parameter" KParIndex; Field "params" [("params", KParsWrap); ("parameters", KParsWrap)] Required] ++ common)
  | AnnualHarmonic => Some (needs ["mean"; "amplitudes"; "phases"] ++ lets ["mean_lower_bounds"; "mean_upper_bounds"; "amplitude_lower_bounds";
                              "amplitude_upper_bounds"; "phase_lower_bounds"; "phase_upper_bounds"] ++ common)
  | Aggregated | AggregatedIndex => Some ([entry "parameters" KParsConst; entry_or "agg_func" KRaw ONone] ++ common)
  | Division => Some ([entry "numerator" KPar; entry "denominator" KPar] ++ common)
  | Negative => Some ([entry "parameter" KPar] ++ common)
  | Max | NegativeMax | Min | NegativeMin => Some ([entry "parameter" KPar] ++ lets ["threshold"] ++ common)
  | Offset => Some ([entry "parameter" KPar] ++ lets ["offset"; "lower_bounds"; "upper_bounds"] ++ common)
  | Deficit => Some ([entry "node" KFlowNode] ++ common)
  | Flow => Some ([entry "node" KFlowNode] ++ lets ["initial_value"] ++ common)
  | Storage => Some ([entry "storage_node" KStorage] ++ lets ["use_proportional_volume"] ++ common)
  | PiecewiseIntegral => Some ([entry "parameter" KPar] ++ needs ["x"; "y"] ++ common)
  | FlowDelay | RollingMean => Some ([entry "node" KNode] ++ lets ["timesteps"; "days"; "initial_flow"] ++ common)
  | DiscountFactor => Some (needs ["rate"; "base_year"] ++ common)
  | CurveIndex => Some ([entry "storage_node" KStorage; entry "control_curves" KParsWrap] ++ common)
  | CurveInterpolated => Some ([entry "storage_node" KStorage; curves; entry_or "values" KValues ONone; entry_or "parameters" KPars ONone] ++ common)
  | CurvePiecewise => Some ([entry "storage_node" KStorage; curves; entry "values" KValues] ++ lets ["minimum"; "maximum"] ++ common)
  | Curve => Some ([entry "storage_node" KStorage; curves; entry_or "values" KValues ONone; entry_or "parameters" KPars ONone]
                   ++ lets ["variable_indices"; "upper_bounds"; "lower_bounds"] ++ common)
  | WeightedAverage => Some ([entry "storages" KNodes; entry "profiles" KPars] ++ common)
  | StorageThreshold => Some (of_threshold [Field "storage" [("storage_node", KStorage)] Required] [])
  | NodeThreshold => Some (of_threshold [entry "node" KNode] [])
  | ParameterThreshold => Some (of_threshold [Field "param" [("parameter", KPar)] Required] [])
  | RecorderThreshold => Some (of_threshold [entry "recorder" KRecorder] ["initial_value"])
  | CurrentYear | CurrentDay => Some (of_threshold [] [])
  | MultipleThreshold => Some ([entry "node" KNode; entry "thresholds" KParsWrap] ++ lets ["use_max_flow"] ++ common)
  | MultipleThresholdParameter => Some ([entry "parameter" KPar; entry "thresholds" KParsWrap] ++ lets ["use_max_flow"] ++ common)
  | Hydropower => Some ([entry "target" KPar; entry_or "water_elevation_parameter" KPar ONone; entry_or "max_flow" KPar ONone; entry_or "min_flow" KPar ONone]
                        ++ lets ["turbine_elevation"; "efficiency"; "density"; "min_head"; "flow_unit_conversion"; "energy_unit_conversion"] ++ common)
  | Polynomial1D => Some (needs ["coefficients"] ++ [entry_or "node" KNode ONone; entry_or "storage_node" KStorage ONone; entry_or "parameter" KPar ONone]
                          ++ lets ["use_proportional_volume"; "offset"; "scale"] ++ common)
  | Polynomial2D => Some (needs ["coefficients"] ++ [entry "storage_node" KStorage; entry "parameter" KPar]
                          ++ lets ["use_proportional_volume"; "storage_offset"; "storage_scale"; "parameter_offset"; "parameter_scale"] ++ common)
  | BinaryStep => Some (lets ["value"; "lower_bounds"; "upper_bounds"; "output"] ++ common)
  | Rectifier => Some (lets ["value"; "lower_bounds"; "upper_bounds"; "min_output"; "max_output"] ++ common)
  | Logistic => Some (lets ["value"; "lower_bounds"; "upper_bounds"; "max_output"; "growth_rate"] ++ common)
  | ScaledProfile => Some ([entry "scale" KNumber; entry "profile" KParOnly] ++ common)
  | Interpolated => Some ([entry "parameter" KParLoose; entry "x" KArray; entry "y" KArray; entry_or "interp_kwargs" KRaw ONone] ++ common)
  | InterpolatedVolume => Some ([entry "node" KNode; entry "volumes" KData; entry "values" KData; entry_or "interp_kwargs" KRaw ONone] ++ common)
  | InterpolatedFlow => Some ([entry "node" KNode; entry "flows" KArray; entry "values" KArray; entry_or "interp_kwargs" KRaw ONone] ++ common)
  | InterpolatedQuadrature => Some ([entry "upper_parameter" KParLoose; entry "x" KArray; entry "y" KArray; entry_or "lower_parameter" KParLoose ONone;
                                     entry_or "interp_kwargs" KRaw ONone] ++ common)
  | ScenarioWrapper => Some ([entry "scenario" KScenario; entry "parameters" KParsLoose] ++ common)
  | StorageLicense | AnnualLicense => Some ([entry "node" KNode; entry "amount" KRaw] ++ common)
  | AnnualExponential => Some ([entry "node" KNode; entry "amount" KRaw] ++ needs ["max_value"] ++ lets ["k"] ++ common)
  | AnnualHyperbola => Some ([entry "node" KNode; entry "amount" KRaw] ++ needs ["value"] ++ common)
  | OtherParameter | OtherIndex => Some (needs ["other_model"; "parameter"] ++ common)
  | OtherFlow | OtherStorage => Some (needs ["other_model"; "node"] ++ common)
  end.

(** Entries that are accepted and have no effect: the comment and the address of a document with values, a scenario that is null, and the sums a file of
    tables is checked with. *)
Definition array_class (c : class) : bool :=
  match c with
  | ArrayIndexed | DailyProfile | WeeklyProfile | MonthlyProfile
  | ArrayIndexedScenario | ConstantScenario | ScenarioMonthly | ScenarioWeekly | ScenarioDaily | ConstantScenarioIndex => true
  | _ => false
  end.
Definition scenario_class (c : class) : bool :=
  match c with ArrayIndexedScenario | ConstantScenario | ScenarioMonthly | ScenarioWeekly | ScenarioDaily | ConstantScenarioIndex => true | _ => false end.
Definition without_effect (c : class) (k : string) (j : json) : Prop :=
  (array_class c = true /\ (k = "url" \/ k = "comment"))
  \/ (array_class c = true /\ scenario_class c = false /\ k = "scenario" /\ j = JNull)
  \/ (c = TablesArray /\ k = "checksum").

Section World.
Variable named : string -> option obj.
Variable made : dict json -> option obj.
Variable recorder : json -> option obj.
Variable node : string -> option sort.
Variable scenario : string -> bool.
Variable file : dict json -> option (array * dict json).

(** What an entry for a parameter refers to. *)
Inductive refers : json -> obj -> Prop :=
| by_name s o : named s = Some o -> refers (JString s) o
| by_document d o : made d = Some o -> refers (JDict d) o
| by_number q : refers (JNumber q) (ONum q)
| by_null : refers JNull ONone.
Inductive a_parameter : obj -> Prop :=
| a_par n ix : a_parameter (OPar n ix)
| a_const q : a_parameter (OConst q).
Inductive stands_for : obj -> obj -> Prop :=
| itself o : a_parameter o -> stands_for o o
| constant q : stands_for (ONum q) (OConst q).
Definition constant_for (o o' : obj) : Prop := (exists q, o = ONum q /\ o' = OConst q) \/ ((forall q, o <> ONum q) /\ o' = o).
(** The elements of a list, the letters of a text, the keys of a dictionary. *)
Inductive elements : json -> list json -> Prop :=
| of_list l : elements (JList l) l
| of_text s : elements (JString s) (letters s)
| of_dictionary d : elements (JDict d) (map (fun kv => JString (fst kv)) d).
Definition each (P : json -> obj -> Prop) (j : json) (o : obj) : Prop := exists l os, elements j l /\ Forall2 P l os /\ o = OList os.
Definition a_node (j : json) (o : obj) : Prop := exists s k, j = JString s /\ node s = Some k /\ o = ONode s k.
Definition a_scenario (j : json) (o : obj) : Prop := exists s, j = JString s /\ scenario s = true /\ o = OScen s.
Definition numbers (j : json) (o : obj) : Prop := exists a, to_array j = Some a /\ o = OVal a.

Definition means (kd : kind) (j : json) (o : obj) : Prop :=
  match kd with
  | KRaw => j = JNull /\ o = ONone \/ j <> JNull /\ o = ORaw j
  | KNumber => exists q, j = JNumber q /\ o = ORaw j
  | KArray => o = OArr j
  | KValues => numbers j o
  | KData =>
      (exists l, j = JList l /\ numbers j o)
      \/ (exists d v, j = JDict d /\ get "values" d = Some v /\ numbers v o)
      \/ (exists d a rest, j = JDict d /\ get "values" d = None /\ (get "url" d <> None \/ get "table" d <> None) /\ file d = Some (a, rest) /\ o = OVal a)
  | KNode => a_node j o
  | KFlowNode => exists s, j = JString s /\ node s = Some Flowing /\ o = ONode s Flowing
  | KStorage => exists s, j = JString s /\ node s = Some Storing /\ o = ONode s Storing
  | KNodes => each a_node j o
  | KScenario => a_scenario j o
  | KScenarioNull => a_scenario j o \/ j = JNull /\ o = ONone
  | KRecorder => recorder j = Some o /\ ((exists n, o = ORec n) \/ o = ONone)
  | KPar => refers j o /\ (a_parameter o \/ o = ONone)
  | KParNum => refers j o /\ (a_parameter o \/ exists q, o = ONum q)
  | KParOnly => refers j o /\ a_parameter o
  | KParIndex => refers j o /\ exists n, o = OPar n true
  | KParLoose => refers j o
  | KCurve => exists o' o'', refers j o' /\ stands_for o' o'' /\ o = OList [o'']
  | KPars => each (fun j o => refers j o /\ a_parameter o) j o
  | KParsWrap => each (fun j o => exists o', refers j o' /\ stands_for o' o) j o
  | KParsLoose => each refers j o
  | KParsConst => each (fun j o => exists o', refers j o' /\ constant_for o' o) j o
  end.

(** [comes_from d f k kd j]: argument [f] comes from the entry [k]: [j], which is the first of its entries that is there. *)
Definition comes_from (d : dict json) (f : field) (k : string) (kd : kind) (j : json) : Prop :=
  exists before after, a_keys f = before ++ (k, kd) :: after /\ (forall k' kd', In (k', kd') before -> get k' d = None) /\ get k d = Some j.
Definition not_given (d : dict json) (f : field) : Prop := forall k kd, In (k, kd) (a_keys f) -> get k d = None.

Definition argument (d : dict json) (f : field) (b : string -> option obj) : Prop :=
  (exists k kd j o, comes_from d f k kd j /\ means kd j o /\ b (a_name f) = Some o)
  \/ (not_given d f /\ match a_need f with Required => False | Default o => b (a_name f) = Some o | Left => b (a_name f) = None end).

(** Restrictions that concern more than one entry. *)
Definition together (c : class) (d : dict json) (b : string -> option obj) : Prop :=
  match c with
  | Curve => get "values" d = None \/ get "parameters" d = None
  | CurveInterpolated => get "values" d = None /\ get "parameters" d <> None \/ get "values" d <> None /\ get "parameters" d = None
  | Polynomial1D => forall m n, In m ["node"; "storage_node"; "parameter"] -> In n ["node"; "storage_node"; "parameter"] -> m <> n ->
                    b m = Some ONone \/ b n = Some ONone
  | _ => True
  end.

(** The document [d] is one of class [c] and gives it the arguments [b] ([None]: the default of the constructor). *)
Definition document_of (c : class) (d : dict json) (b : string -> option obj) : Prop :=
  exists fs, table c = Some fs
    /\ (forall f, In f fs -> argument d f b)
    /\ (forall k j, get k d = Some j -> (exists f kd, In f fs /\ comes_from d f k kd j) \/ without_effect c k j)
    /\ (forall n, b n <> None -> exists f, In f fs /\ a_name f = n)
    /\ together c d b.
End World.

(** Documents whose numbers, if they are wanted, are in the document itself. *)
Definition reads_values (c : class) : bool :=
  array_class c || match c with Constant | CurveInterpolated | CurvePiecewise => true | _ => false end.
Definition in_itself (c : class) (d : dict json) : Prop :=
  reads_values c = true -> get "values" d <> None \/ (get "url" d = None /\ get "table" d = None).
