(** Model of the documents of parameters: the class methods `load` of the parameters and the calls of the constructors they end with
    (/repo/pywr/parameters/_parameters.pyx, _control_curves.pyx, _thresholds.pyx, _hydropower.pyx, _polynomial.pyx,
    _activation_functions.pyx, parameters.py, licenses.py, multi_model_parameters.py), get_parameter_from_registry and load_parameter
    (_parameters.pyx:2276-2345).
    Simplifications:
    - what a reference or an inner document of a parameter or recorder gives, the nodes and scenarios of the model, and what is read from a file or table
      are arbitrary functions (areas Loading, NodeLoad and DataLoad say what they are);
    - the numbers and texts that are arguments of their own accord (TAny) are passed on unchecked; lengths and values of arguments
      that constructors refuse are not modelled here (they are in the areas of the classes), neither is the order in which things fail;
    - `float(...)` of a text is refused here;
    - DataFrameParameter is in DataLoad_model.v. *)
From Coq Require Import Strings.Ascii Strings.String.
From Verif Require Import Base Documents_model DataLoad_model.
Local Open Scope string_scope.
Local Open Scope nat_scope.
Local Open Scope list_scope.

(** * Objects *)

(** A node is a Node, an AbstractStorage or another AbstractNode. *)
Inductive sort := Flowing | Storing | Other.
Inductive obj :=
| ONone                          (* None *)
| ORaw (j : json)                (* what stands in the document *)
| ONum (q : Q)                   (* a number where load_parameter was asked for a parameter *)
| OPar (n : nat) (ix : bool)     (* a parameter; is it an IndexParameter? *)
| OConst (q : Q)                 (* a ConstantParameter made of a number *)
| ORec (n : nat)                 (* a recorder *)
| ONode (s : string) (k : sort)
| OScen (s : string)
| OVal (a : array)               (* numbers, `np.array(..., np.float64)` *)
| OArr (j : json)                (* `np.array(...)` *)
| OList (l : list obj).
(** `None` in a document is null. *)
Definition raw (j : json) : obj := match j with JNull => ONone | _ => ORaw j end.

Fixpoint all {A B} (f : A -> option B) (l : list A) : option (list B) :=
  match l with
  | [] => Some []
  | x :: l => match f x, all f l with Some y, Some r => Some (y :: r) | _, _ => None end
  end.

(** What the constructors require of their arguments. *)
Inductive ptype :=
| TAny
| TPar      (* assigned to an attribute `cdef Parameter`: a parameter or None, otherwise TypeError *)
| TIndex    (* `assert isinstance(index_parameter, IndexParameter)` *)
| TComp     (* `profile.parents.add(self)`: AttributeError for numbers and None *)
| TComps    (* the same for each of a list; or None *)
| TWrap     (* a list; numbers become ConstantParameter, others must be parameters *)
| TParNum   (* a parameter or assigned to a C double *)
| TRec      (* `Recorder recorder`: None is accepted *)
| TScen     (* `Scenario scenario`, of which attributes are read at once *)
| TScenNone (* `cdef public Scenario scenario` *)
| TNode     (* `cdef public Node node` *)
| TStore    (* AbstractStorage *)
| TStoreNone
(* and those of recorders (RecLoad_model.v): *)
| TCompNone (* `if x is not None: x.parents.add(self)` *)
| TObserved (* `x.parents.add(self)` of a parameter or recorder *)
| TText.    (* `str name`: a text or None *)
Definition comp (o : obj) : option obj := match o with OPar _ _ | OConst _ => Some o | _ => None end.
Definition wrapped (o : obj) : option obj := match o with ONum q => Some (OConst q) | _ => comp o end.
Definition fit (t : ptype) (o : obj) : option obj :=
  match t, o with
  | TAny, _ => Some o
  | TPar, OPar _ _ | TPar, OConst _ | TPar, ONone => Some o
  | TIndex, OPar _ true => Some o
  | TComp, _ => comp o
  | TComps, ONone => Some o
  | TComps, OList l => option_map OList (all comp l)
  | TWrap, OList l => option_map OList (all wrapped l)
  | TParNum, OPar _ _ | TParNum, OConst _ | TParNum, ONum _ => Some o
  | TRec, ORec _ | TRec, ONone => Some o
  | TScen, OScen _ => Some o
  | TScenNone, OScen _ | TScenNone, ONone => Some o
  | TNode, ONode _ Flowing => Some o
  | TStore, ONode _ Storing => Some o
  | TStoreNone, ONode _ Storing | TStoreNone, ONone => Some o
  | TCompNone, ONone => Some o
  | TCompNone, _ => comp o
  | TObserved, ORec _ => Some o
  | TObserved, _ => comp o
  | TText, ORaw (JString _) | TText, ONone => Some o
  | _, _ => None
  end.

(** * Classes *)

Inductive class :=
| Basic | Index | Constant | ArrayIndexed | ArrayIndexedScenario | TablesArray | ConstantScenario | MonthlyFactors | DailyProfile | WeeklyProfile
| MonthlyProfile | ScenarioMonthly | ScenarioWeekly | ScenarioDaily | UniformDrawdown | RbfProfile | ConstantScenarioIndex | IndexedArray
| AnnualHarmonic | Aggregated | AggregatedIndex | Division | Negative | Max | NegativeMax | Min | NegativeMin | Offset | Deficit | Flow | Storage
| PiecewiseIntegral | FlowDelay | DiscountFactor | RollingMean
| BaseCurve | CurveInterpolated | CurvePiecewise | CurveIndex | Curve | WeightedAverage
| StorageThreshold | NodeThreshold | MultipleThreshold | MultipleThresholdParameter | ParameterThreshold | RecorderThreshold | CurrentYear | CurrentDay
| Hydropower | Polynomial1D | Polynomial2D | BinaryStep | Rectifier | Logistic
| OfFunction | ScaledProfile | Interpolated | InterpolatedVolume | InterpolatedFlow | InterpolatedQuadrature | ScenarioWrapper
| TimestepLicense | StorageLicense | AnnualLicense | AnnualExponential | AnnualHyperbola
| OtherParameter | OtherIndex | OtherFlow | OtherStorage.

(** The names the classes are registered by (`register()`, `parameter_registry[cls.__name__.lower()]`). *)
Definition registry : dict class :=
  [("parameter", Basic); ("constantparameter", Constant); ("arrayindexedparameter", ArrayIndexed);
   ("arrayindexedscenarioparameter", ArrayIndexedScenario); ("tablesarrayparameter", TablesArray); ("constantscenarioparameter", ConstantScenario);
   ("arrayindexedscenariomonthlyfactorsparameter", MonthlyFactors); ("dailyprofileparameter", DailyProfile); ("weeklyprofileparameter", WeeklyProfile);
   ("monthlyprofileparameter", MonthlyProfile); ("scenariomonthlyprofileparameter", ScenarioMonthly); ("scenarioweeklyprofileparameter", ScenarioWeekly);
   ("scenariodailyprofileparameter", ScenarioDaily); ("uniformdrawdownprofileparameter", UniformDrawdown); ("rbfprofileparameter", RbfProfile);
   ("indexparameter", Index); ("constantscenarioindexparameter", ConstantScenarioIndex); ("indexedarrayparameter", IndexedArray);
   ("annualharmonicseriesparameter", AnnualHarmonic); ("aggregatedparameter", Aggregated); ("aggregatedindexparameter", AggregatedIndex);
   ("divisionparameter", Division); ("negativeparameter", Negative); ("maxparameter", Max); ("negativemaxparameter", NegativeMax);
   ("minparameter", Min); ("negativeminparameter", NegativeMin); ("offsetparameter", Offset); ("deficitparameter", Deficit);
   ("flowparameter", Flow); ("storageparameter", Storage); ("piecewiseintegralparameter", PiecewiseIntegral); ("flowdelayparameter", FlowDelay);
   ("discountfactorparameter", DiscountFactor); ("rollingmeanflownodeparameter", RollingMean);
   ("basecontrolcurveparameter", BaseCurve); ("controlcurveinterpolatedparameter", CurveInterpolated);
   ("controlcurvepiecewiseinterpolatedparameter", CurvePiecewise); ("controlcurveindexparameter", CurveIndex); ("controlcurveparameter", Curve);
   ("weightedaverageprofileparameter", WeightedAverage); ("storagethresholdparameter", StorageThreshold); ("nodethresholdparameter", NodeThreshold);
   ("multiplethresholdindexparameter", MultipleThreshold); ("multiplethresholdparameterindexparameter", MultipleThresholdParameter);
   ("parameterthresholdparameter", ParameterThreshold); ("recorderthresholdparameter", RecorderThreshold);
   ("currentyearthresholdparameter", CurrentYear); ("currentordinaldaythresholdparameter", CurrentDay); ("hydropowertargetparameter", Hydropower);
   ("polynomial1dparameter", Polynomial1D); ("polynomial2dstorageparameter", Polynomial2D); ("binarystepparameter", BinaryStep);
   ("rectifierparameter", Rectifier); ("logisticparameter", Logistic); ("functionparameter", OfFunction); ("scaledprofileparameter", ScaledProfile);
   ("interpolatedparameter", Interpolated); ("interpolatedvolumeparameter", InterpolatedVolume); ("interpolatedflowparameter", InterpolatedFlow);
   ("interpolatedquadratureparameter", InterpolatedQuadrature); ("scenariowrapperparameter", ScenarioWrapper); ("timesteplicense", TimestepLicense);
   ("storagelicense", StorageLicense); ("annuallicense", AnnualLicense); ("annualexponentiallicense", AnnualExponential);
   ("annualhyperbolalicense", AnnualHyperbola); ("othermodelparametervalueparameter", OtherParameter);
   ("othermodelindexparametervalueindexparameter", OtherIndex); ("othermodelnodeflowparameter", OtherFlow);
   ("othermodelnodestorageparameter", OtherStorage)].
(** get_parameter_from_registry, _parameters.pyx:2276-2289; the result of `key.replace` is not used. *)
Definition class_of (typ : string) : option class :=
  let key := lower typ in
  match get key registry with
  | Some c => Some c
  | None => if ends_with "parameter" key then get key registry else get (key ++ "parameter")%string registry
  end.

(** ** Signatures: the arguments of the constructors after the model, in order; those of the keywords that are taken from `kwargs` come last. *)
Record formal := Formal { f_name : string; f_required : bool; f_type : ptype }.
Definition must (n : string) (t : ptype) : formal := Formal n true t.
Definition may (n : string) (t : ptype) : formal := Formal n false t.
Definition plain (ns : list string) : list formal := map (fun n => may n TAny) ns.
(** Parameter.__init__ (43) and Component.__init__ (_component.pyx:85): the end of every signature. *)
Definition base : list formal := plain ["name"; "comment"; "tags"; "is_variable"].
Definition one_array : list formal := [must "values" TAny].
Definition scenario_array : list formal := [must "scenario" TScen; must "values" TAny].
(** AbstractThresholdParameter.__init__, _thresholds.pyx:48 *)
Definition threshold_rest : list formal := must "threshold" TParNum :: plain ["values"; "predicate"; "ratchet"].
Definition own_formals (c : class) : list formal :=
  match c with
  | Basic | Index => []
  | Constant => must "value" TAny :: plain ["lower_bounds"; "upper_bounds"; "scale"; "offset"] (* _parameters.pyx:147 *)
  | ArrayIndexed (* 287 *) | DailyProfile (* 627 *) | WeeklyProfile (* 648 *) => one_array
  | ArrayIndexedScenario (* 307 *) | ConstantScenario (* 520 *) | ScenarioMonthly (* 810 *) | ScenarioWeekly (* 849 *)
  | ScenarioDaily (* 887 *) | ConstantScenarioIndex (* 1233 *) => scenario_array
  | TablesArray => [must "h5file" TAny; must "node" TAny; may "where" TAny; may "scenario" TScenNone; may "timestep_offset" TAny] (* 339 *)
  | MonthlyFactors => [must "scenario" TScen; must "values" TAny; must "factors" TAny] (* 553 *)
  | MonthlyProfile => one_array ++ plain ["lower_bounds"; "upper_bounds"; "interp_day"] (* 697 *)
  | UniformDrawdown => plain ["reset_day"; "reset_month"; "residual_days"] (* 932 *)
  | RbfProfile => [must "days_of_year" TAny; must "values" TAny] ++ plain ["lower_bounds"; "upper_bounds"; "rbf_kwargs"; "variable_days_of_year_range";
                    "variable_days_lower_bounds"; "variable_days_upper_bounds"; "min_value"; "max_value"] (* 1031-1033 *)
  | IndexedArray => [must "index_parameter" TIndex; must "params" TWrap] (* 1279-1289 *)
  | AnnualHarmonic => [must "mean" TAny; must "amplitudes" TAny; must "phases" TAny] ++ plain ["mean_lower_bounds"; "mean_upper_bounds";
                       "amplitude_lower_bounds"; "amplitude_upper_bounds"; "phase_lower_bounds"; "phase_upper_bounds"] (* 1337-1350 *)
  | Aggregated (* 1454 *) | AggregatedIndex (* 1574 *) => [must "parameters" TAny; may "agg_func" TAny]
  | Division => [must "numerator" TPar; must "denominator" TPar] (* 1698; _parameters.pxd:174-176 *)
  | Negative => [must "parameter" TPar] (* 1750; _parameters.pxd:180 *)
  | Max | NegativeMax (* 1782 *) | Min | NegativeMin (* 1827 *) => [must "parameter" TPar; may "threshold" TAny]
  | Offset => must "parameter" TPar :: plain ["offset"; "lower_bounds"; "upper_bounds"] (* 1875 *)
  | Deficit => [must "node" TNode] (* 1930 *)
  | Flow => [must "node" TNode; may "initial_value" TAny] (* 1976 *)
  | Storage => [must "storage_node" TStore; may "use_proportional_volume" TAny] (* 2028 *)
  | PiecewiseIntegral => [must "parameter" TPar; must "x" TAny; must "y" TAny] (* 2062 *)
  | FlowDelay (* 2123-2127 *) | RollingMean (* 2209 *) => must "node" TAny :: plain ["timesteps"; "days"; "initial_flow"]
  | DiscountFactor => [must "rate" TAny; must "base_year" TAny] (* 2176 *)
  | BaseCurve (* _control_curves.pyx:31 *) | CurveIndex (* 317 *) => [must "storage_node" TStore; must "control_curves" TWrap]
  | CurveInterpolated => [must "storage_node" TStore; must "control_curves" TWrap; may "values" TAny; may "parameters" TComps] (* 141-161 *)
  | CurvePiecewise => [must "storage_node" TStore; must "control_curves" TWrap; must "values" TAny; may "minimum" TAny; may "maximum" TAny] (* 257 *)
  | Curve => [must "storage_node" TStore; must "control_curves" TWrap; may "values" TAny; may "parameters" TComps]
             ++ plain ["variable_indices"; "upper_bounds"; "lower_bounds"] (* 419-439 *)
  | WeightedAverage => [must "storages" TAny; must "profiles" TComps] (* 572-577 *)
  | StorageThreshold => must "storage" TStore :: threshold_rest (* _thresholds.pyx:142 *)
  | NodeThreshold => must "node" TAny :: threshold_rest (* 167 *)
  | MultipleThreshold => [must "node" TAny; must "thresholds" TWrap; may "use_max_flow" TAny] (* 198 *)
  | MultipleThresholdParameter => [must "parameter" TPar; must "thresholds" TWrap; may "use_max_flow" TAny] (* 250 *)
  | ParameterThreshold => must "param" TPar :: threshold_rest (* 302 *)
  | RecorderThreshold => must "recorder" TRec :: threshold_rest ++ plain ["initial_value"] (* 329 *)
  | CurrentYear | CurrentDay => threshold_rest (* 362, 377 *)
  | Hydropower => [must "target" TPar; may "water_elevation_parameter" TPar; may "max_flow" TPar; may "min_flow" TPar]
                  ++ plain ["turbine_elevation"; "efficiency"; "density"; "min_head"; "flow_unit_conversion"; "energy_unit_conversion"]
                  (* _hydropower.pyx:118-120 *)
  | Polynomial1D => [must "coefficients" TAny; may "node" TAny; may "storage_node" TStoreNone; may "parameter" TPar]
                    ++ plain ["use_proportional_volume"; "offset"; "scale"] (* _polynomial.pyx:36-43 *)
  | Polynomial2D => [must "coefficients" TAny; must "storage_node" TStore; must "parameter" TPar]
                    ++ plain ["use_proportional_volume"; "storage_offset"; "storage_scale"; "parameter_offset"; "parameter_scale"] (* 134-142 *)
  | BinaryStep => plain ["value"; "lower_bounds"; "upper_bounds"; "output"] (* _activation_functions.pyx:19 *)
  | Rectifier => plain ["value"; "lower_bounds"; "upper_bounds"; "min_output"; "max_output"] (* 71 *)
  | Logistic => plain ["value"; "lower_bounds"; "upper_bounds"; "max_output"; "growth_rate"] (* 123 *)
  | OfFunction => [must "parent" TAny; must "func" TAny] (* parameters.py:90 *)
  | ScaledProfile => [must "scale" TAny; must "profile" TComp] (* 103-108 *)
  | Interpolated => [must "parameter" TAny; must "x" TAny; must "y" TAny; may "interp_kwargs" TAny] (* 171 *)
  | InterpolatedVolume => [must "node" TAny; must "volumes" TAny; must "values" TAny; may "interp_kwargs" TAny] (* 212 *)
  | InterpolatedFlow => [must "node" TAny; must "flows" TAny; must "values" TAny; may "interp_kwargs" TAny] (* 262 *)
  | InterpolatedQuadrature => [must "upper_parameter" TAny; must "x" TAny; must "y" TAny; may "lower_parameter" TAny; may "interp_kwargs" TAny] (* 307-316 *)
  | ScenarioWrapper => [must "scenario" TScen; must "parameters" TAny] (* 378 *)
  | TimestepLicense (* licenses.py:39 *) | StorageLicense (* 67 *) | AnnualLicense (* 120 *) => [must "node" TAny; must "amount" TAny]
  | AnnualExponential => [must "node" TAny; must "amount" TAny; must "max_value" TAny; may "k" TAny] (* 165 *)
  | AnnualHyperbola => [must "node" TAny; must "amount" TAny; must "value" TAny] (* 205 *)
  | OtherParameter | OtherIndex => [must "other_model" TAny; must "parameter" TAny] (* multi_model_parameters.py:7, 35 *)
  | OtherFlow | OtherStorage => [must "other_model" TAny; must "node" TAny] (* 63, 91 *)
  end.
Definition formals (c : class) : list formal := own_formals c ++ base.

(** ** The call `cls(model, *pos, **kw, **rest)`: TypeError for an argument given twice, an unknown one and a missing one.
    The result: the objects the arguments get; those with their default are not in it. *)
Fixpoint nodupb (l : list string) : bool :=
  match l with [] => true | x :: l => negb (existsb (String.eqb x) l) && nodupb l end.
Definition bindings := list (string * obj).
Fixpoint bound (fs : list formal) (given : list (string * obj)) : option bindings :=
  match fs with
  | [] => Some []
  | f :: fs => match get (f_name f) given with
               | Some o => match fit (f_type f) o, bound fs given with Some o', Some b => Some ((f_name f, o') :: b) | _, _ => None end
               | None => if f_required f then None else bound fs given
               end
  end.
(** Polynomial1DParameter.__init__, _polynomial.pyx:45-52: at most one of three *)
Definition some_object (o : option obj) : bool := match o with None | Some ONone => false | Some _ => true end.
Definition extra (c : class) (b : bindings) : bool :=
  match c with
  | Polynomial1D => countb (fun n => some_object (get n b)) ["node"; "storage_node"; "parameter"] <=? 1
  | _ => true
  end.
Definition call_with (c : class) (given : list (string * obj)) : option bindings :=
  if nodupb (map fst given) && forallb (fun n => existsb (String.eqb n) (map f_name (formals c))) (map fst given) then
    match bound (formals c) given with Some b => if extra c b then Some b else None | None => None end
  else None.

(** * The methods `load` *)

(** A method takes entries from the document (`data.pop`) and goes on with what is left; [None] is an exception. *)
Definition M (A : Type) := dict json -> option (A * dict json).
Definition ret {A} (x : A) : M A := fun d => Some (x, d).
Definition bind {A B} (m : M A) (k : A -> M B) : M B := fun d => match m d with Some (x, d') => k x d' | None => None end.
Local Notation "x <- m ;; k" := (bind m (fun x => k)) (at level 61, m at next level, right associativity).
Definition lift {A} (o : option A) : M A := fun d => option_map (fun x => (x, d)) o.
(** `data.pop(k)`, `data.pop(k, None)`, `k in data` *)
Definition req (k : string) : M json := fun d => match get k d with Some j => Some (j, pop k d) | None => None end.
Definition opt (k : string) : M (option json) := fun d => Some (get k d, pop k d).
Definition has (k : string) : M bool := fun d => Some (present k d, d).
Definition or_none (o : option json) : obj := match o with Some j => raw j | None => ONone end.
(** `cls(model, *pos, **kw, **data)` *)
Definition call (c : class) (pos : list obj) (kw : list (string * obj)) : M bindings :=
  fun d => option_map (fun b => (b, d)) (call_with c (combine (map f_name (formals c)) pos ++ kw ++ map (fun kv => (fst kv, raw (snd kv))) d)).

Section World.
(** What a reference to a parameter gives, what a dictionary gives (a parameter, or a number if it has no type), what a reference to or a dictionary of a
    recorder gives; the nodes and scenarios of the model; what load_parameter_values reads from a file or table and leaves. *)
Variable named : string -> option obj.
Variable made : dict json -> option obj.
Variable recorder : json -> option obj.
Variable node : string -> option sort.
Variable scenario : string -> bool.
Variable file : dict json -> option (array * dict json).

(** load_parameter, 2292-2345 *)
Definition load_parameter (j : json) : option obj :=
  match j with
  | JString s => named s
  | JNumber q => Some (ONum q)
  | JNull => Some ONone
  | JDict d => made d
  | JList _ => None
  end.
(** `for x in data`: the characters of a text, the keys of a dictionary. *)
Fixpoint letters (s : string) : list json := match s with EmptyString => [] | String c s => JString (String c EmptyString) :: letters s end.
Definition items (j : json) : option (list json) :=
  match j with
  | JList l => Some l
  | JString s => Some (letters s)
  | JDict d => Some (map (fun kv => JString (fst kv)) d)
  | JNumber _ | JNull => None
  end.
Definition load_list (j : json) : option obj :=
  match items j with Some l => option_map OList (all load_parameter l) | None => None end.
(** wrap_const, 1433-1436 *)
Definition wrap_const (o : obj) : obj := match o with ONum q => OConst q | _ => o end.
Definition load_wrapped (j : json) : option obj :=
  match items j with Some l => option_map (fun l => OList (map wrap_const l)) (all load_parameter l) | None => None end.
(** `model.nodes[...]`, `model.scenarios[...]` *)
Definition find_node (j : json) : option obj := match j with JString s => option_map (ONode s) (node s) | _ => None end.
Definition find_nodes (j : json) : option obj :=
  match items j with Some l => option_map OList (all find_node l) | None => None end.
Definition find_scenario (j : json) : option obj := match j with JString s => if scenario s then Some (OScen s) else None | _ => None end.
(** load_parameter_values, 2349-2385 (load_parameter_values of DataLoad_model.v) *)
Definition values : M obj := fun d =>
  match get "values" d with
  | Some j => option_map (fun a => (OVal a, pop "values" d)) (to_array j)
  | None => if present "url" d || present "table" d then option_map (fun r => (OVal (fst r), snd r)) (file d) else None
  end.
(** `isinstance(x, list)`: an array of it; `isinstance(x, dict)`: load_parameter_values; otherwise TypeError. *)
Definition load_data (j : json) : option obj :=
  match j with
  | JList _ => option_map OVal (to_array j)
  | JDict d => option_map fst (values d)
  | _ => None
  end.

(** `load_parameter(model, data.pop(k))` and so on *)
Definition par (k : string) : M obj := j <- req k ;; lift (load_parameter j).
Definition pars (k : string) : M obj := j <- req k ;; lift (load_list j).
Definition nod (k : string) : M obj := j <- req k ;; lift (find_node j).
(** `x = None; if k in data: x = ...(data.pop(k))` *)
Definition optional (k : string) (m : M obj) : M obj := h <- has k ;; if h then m else ret ONone.
(** `scenario = data.pop("scenario", None); if scenario is not None: scenario = model.scenarios[scenario]` *)
Definition opt_scenario : M obj :=
  s <- opt "scenario" ;;
  match s with None | Some JNull => ret ONone | Some j => lift (find_scenario j) end.

(** Parameter.load, 125-142 *)
Definition load_base (c : class) : M bindings :=
  s <- opt_scenario ;;
  v <- values ;;
  _ <- opt "values" ;;
  _ <- opt "url" ;;
  n <- opt "name" ;;
  _ <- opt "comment" ;;
  match s with
  | ONone => call c [] [("values", v); ("name", or_none n); ("comment", ONone)]
  | _ => call c [] [("scenario", s); ("values", v); ("name", or_none n); ("comment", ONone)]
  end.
(** ConstantParameter.load, 181-187 *)
Definition load_constant : M bindings :=
  h <- has "value" ;;
  v <- (if h then (j <- req "value" ;; ret (raw j)) else values) ;;
  call Constant [v] [].
(** TablesArrayParameter.load, 495-511; the path of the file and the check of its sum are left out *)
Definition load_tables_array : M bindings :=
  s <- opt_scenario ;;
  u <- req "url" ;;
  n <- req "node" ;;
  w <- opt "where" ;;
  _ <- opt "checksum" ;;
  call TablesArray [raw u; raw n] [("where", match w with Some j => raw j | None => ORaw (JString "/") end); ("scenario", s)].
(** ArrayIndexedScenarioMonthlyFactorsParameter.load, 591-610 *)
Definition load_monthly_factors : M bindings :=
  s <- opt_scenario ;;
  v <- (j <- req "values" ;; lift (load_data j)) ;;
  f <- (j <- req "factors" ;; lift (load_data j)) ;;
  call MonthlyFactors [s; v; f] [].
(** UniformDrawdownProfileParameter 980, RbfProfileParameter 1181, DiscountFactorParameter 2185, _activation_functions.pyx:52, 105, 155,
    multi_model_parameters.py:25, 53, 81, 109: `return cls(model, **data)` *)
Definition load_plain (c : class) : M bindings := call c [] [].
(** IndexedArrayParameter.load, 1304-1311 *)
Definition load_indexed_array : M bindings :=
  i <- par "index_parameter" ;;
  h <- has "params" ;;
  ps <- (if h then pars "params" else pars "parameters") ;;
  call IndexedArray [i; ps] [].
(** AnnualHarmonicSeriesParameter.load, 1358-1363 *)
Definition load_harmonic : M bindings :=
  m <- req "mean" ;; a <- req "amplitudes" ;; p <- req "phases" ;;
  call AnnualHarmonic [raw m; raw a; raw p] [].
(** AggregatedParameter.load, 1462-1470; AggregatedIndexParameter.load, 1582-1590 *)
Definition load_aggregated (c : class) : M bindings :=
  ps <- (j <- req "parameters" ;; lift (load_wrapped j)) ;;
  f <- opt "agg_func" ;;
  call c [] [("parameters", ps); ("agg_func", or_none f)].
(** DivisionParameter.load, 1735-1738 *)
Definition load_division : M bindings :=
  n <- par "numerator" ;; m <- par "denominator" ;; call Division [n; m] [].
(** NegativeParameter.load 1763, MaxParameter.load 1796, MinParameter.load 1841, OffsetParameter.load 1904, PiecewiseIntegralParameter.load 2099 *)
Definition load_of_parameter (c : class) : M bindings := p <- par "parameter" ;; call c [p] [].
(** DeficitParameter.load 1952, FlowParameter.load 2005 *)
Definition load_of_node (c : class) : M bindings := n <- nod "node" ;; call c [] [("node", n)].
(** StorageParameter.load 2040 *)
Definition load_storage : M bindings := n <- nod "storage_node" ;; call Storage [] [("storage_node", n)].
(** FlowDelayParameter.load 2158, RollingMeanFlowNodeParameter.load 2269 *)
Definition load_past_flow (c : class) : M bindings := n <- nod "node" ;; call c [n] [].

(** BaseControlCurveParameter._load_control_curves, _control_curves.pyx:77-86, and _load_storage_node, 89-92 *)
Definition control_curves : M obj :=
  h <- has "control_curve" ;;
  if h then (p <- par "control_curve" ;; ret (OList [p]))
  else (h' <- has "control_curves" ;; if h' then pars "control_curves" else ret (OList [])).
Definition storage_node : M obj := nod "storage_node".
(** ControlCurveInterpolatedParameter.load, 217-226 *)
Definition load_curve_interpolated : M bindings :=
  cs <- control_curves ;;
  s <- storage_node ;;
  h <- has "parameters" ;;
  if h then (ps <- pars "parameters" ;; call CurveInterpolated [s; cs] [("values", ONone); ("parameters", ps)])
  else (v <- values ;; call CurveInterpolated [s; cs] [("values", v); ("parameters", ONone)]).
(** ControlCurvePiecewiseInterpolatedParameter.load, 300-304 *)
Definition load_curve_piecewise : M bindings :=
  cs <- control_curves ;; s <- storage_node ;; v <- values ;; call CurvePiecewise [s; cs] [("values", v)].
(** ControlCurveIndexParameter.load, 367-370 *)
Definition load_curve_index : M bindings :=
  s <- nod "storage_node" ;; cs <- pars "control_curves" ;; call CurveIndex [s; cs] [].
(** ControlCurveParameter.load, 484-499 *)
Definition load_curve : M bindings :=
  cs <- control_curves ;;
  s <- storage_node ;;
  h <- has "values" ;;
  if h then (v <- values ;; call Curve [s; cs] [("values", v); ("parameters", ONone)])
  else (h' <- has "parameters" ;;
        if h' then (ps <- pars "parameters" ;; call Curve [s; cs] [("values", ONone); ("parameters", ps)])
        else call Curve [s; cs] [("values", ONone); ("parameters", ONone)]).
(** WeightedAverageProfileParameter.load, 617-620 *)
Definition load_weighted_average : M bindings :=
  ss <- (j <- req "storages" ;; lift (find_nodes j)) ;; ps <- pars "profiles" ;; call WeightedAverage [ss; ps] [].

(** StorageThresholdParameter.load, _thresholds.pyx:150-155; NodeThresholdParameter.load, 181-186; ParameterThresholdParameter.load, 311-316;
    RecorderThresholdParameter.load, 352-358; CurrentYearThresholdParameter.load, 369-373; CurrentOrdinalDayThresholdParameter.load, 384-388 *)
Definition load_threshold (c : class) (subject : M (list obj)) : M bindings :=
  o <- subject ;;
  t <- par "threshold" ;;
  v <- opt "values" ;;
  p <- opt "predicate" ;;
  call c (o ++ [t]) [("values", or_none v); ("predicate", or_none p)].
Definition single (m : M obj) : M (list obj) := o <- m ;; ret [o].
(** MultipleThresholdIndexParameter.load, 235-238; MultipleThresholdParameterIndexParameter.load, 287-290 *)
Definition load_multiple (c : class) (subject : M obj) : M bindings :=
  o <- subject ;; ts <- pars "thresholds" ;; call c [o; ts] [].

(** HydropowerTargetParameter.load, _hydropower.pyx:208-227 *)
Definition load_hydropower : M bindings :=
  t <- par "target" ;;
  w <- optional "water_elevation_parameter" (par "water_elevation_parameter") ;;
  x <- optional "max_flow" (par "max_flow") ;;
  n <- optional "min_flow" (par "min_flow") ;;
  call Hydropower [t] [("water_elevation_parameter", w); ("max_flow", x); ("min_flow", n)].
(** Polynomial1DParameter.load, _polynomial.pyx:87-100; Polynomial2DStorageParameter.load, 170-175 *)
Definition load_polynomial1 : M bindings :=
  n <- optional "node" (nod "node") ;;
  s <- optional "storage_node" (nod "storage_node") ;;
  p <- optional "parameter" (par "parameter") ;;
  c <- req "coefficients" ;;
  call Polynomial1D [raw c] [("node", n); ("storage_node", s); ("parameter", p)].
Definition load_polynomial2 : M bindings :=
  s <- nod "storage_node" ;; p <- par "parameter" ;; c <- req "coefficients" ;; call Polynomial2D [raw c; s; p] [].

(** ScaledProfileParameter.load, parameters.py:111-114 *)
Definition to_number (j : json) : option obj := match j with JNumber q => Some (ORaw (JNumber q)) | _ => None end.
Definition load_scaled : M bindings :=
  s <- (j <- req "scale" ;; lift (to_number j)) ;; p <- par "profile" ;; call ScaledProfile [s; p] [].
(** InterpolatedParameter.load, 184-189 *)
Definition load_interpolated : M bindings :=
  p <- par "parameter" ;; x <- req "x" ;; y <- req "y" ;; i <- opt "interp_kwargs" ;;
  call Interpolated [p; OArr x; OArr y] [("interp_kwargs", or_none i)].
(** InterpolatedVolumeParameter.load, 222-239 *)
Definition load_interpolated_volume : M bindings :=
  n <- nod "node" ;;
  x <- (j <- req "volumes" ;; lift (load_data j)) ;;
  y <- (j <- req "values" ;; lift (load_data j)) ;;
  i <- opt "interp_kwargs" ;;
  call InterpolatedVolume [n; x; y] [("interp_kwargs", or_none i)].
(** InterpolatedFlowParameter.load, 270-275 *)
Definition load_interpolated_flow : M bindings :=
  n <- nod "node" ;; x <- req "flows" ;; y <- req "values" ;; i <- opt "interp_kwargs" ;;
  call InterpolatedFlow [n; OArr x; OArr y] [("interp_kwargs", or_none i)].
(** InterpolatedQuadratureParameter.load, 339-353 *)
Definition load_quadrature : M bindings :=
  u <- par "upper_parameter" ;;
  l <- (j <- opt "lower_parameter" ;; lift (load_parameter (match j with Some j => j | None => JNull end))) ;;
  x <- req "x" ;; y <- req "y" ;; i <- opt "interp_kwargs" ;;
  call InterpolatedQuadrature [u; OArr x; OArr y] [("lower_parameter", l); ("interp_kwargs", or_none i)].
(** ScenarioWrapperParameter.load, 408-412 *)
Definition load_wrapper : M bindings :=
  s <- (j <- req "scenario" ;; lift (find_scenario j)) ;; ps <- pars "parameters" ;; call ScenarioWrapper [s; ps] [].
(** StorageLicense.load, licenses.py:98-101 *)
Definition load_licence (c : class) : M bindings :=
  n <- nod "node" ;; a <- req "amount" ;; call c [n] [("amount", raw a)].

Definition load_rest (c : class) : M bindings :=
  match c with
  | Basic | Index | ArrayIndexed | ArrayIndexedScenario | ConstantScenario | DailyProfile | WeeklyProfile | MonthlyProfile
  | ScenarioMonthly | ScenarioWeekly | ScenarioDaily | ConstantScenarioIndex | BaseCurve | OfFunction | TimestepLicense => load_base c
  | Constant => load_constant
  | TablesArray => load_tables_array
  | MonthlyFactors => load_monthly_factors
  | UniformDrawdown | RbfProfile | DiscountFactor | BinaryStep | Rectifier | Logistic | OtherParameter | OtherIndex | OtherFlow | OtherStorage =>
      load_plain c
  | IndexedArray => load_indexed_array
  | AnnualHarmonic => load_harmonic
  | Aggregated | AggregatedIndex => load_aggregated c
  | Division => load_division
  | Negative | Max | NegativeMax | Min | NegativeMin | Offset | PiecewiseIntegral => load_of_parameter c
  | Deficit | Flow => load_of_node c
  | Storage => load_storage
  | FlowDelay | RollingMean => load_past_flow c
  | CurveInterpolated => load_curve_interpolated
  | CurvePiecewise => load_curve_piecewise
  | CurveIndex => load_curve_index
  | Curve => load_curve
  | WeightedAverage => load_weighted_average
  | StorageThreshold => load_threshold c (single (nod "storage_node"))
  | NodeThreshold => load_threshold c (single (nod "node"))
  | ParameterThreshold => load_threshold c (single (par "parameter"))
  | RecorderThreshold => load_threshold c (single (j <- req "recorder" ;; lift (recorder j)))
  | CurrentYear | CurrentDay => load_threshold c (ret [])
  | MultipleThreshold => load_multiple c (nod "node")
  | MultipleThresholdParameter => load_multiple c (par "parameter")
  | Hydropower => load_hydropower
  | Polynomial1D => load_polynomial1
  | Polynomial2D => load_polynomial2
  | ScaledProfile => load_scaled
  | Interpolated => load_interpolated
  | InterpolatedVolume => load_interpolated_volume
  | InterpolatedFlow => load_interpolated_flow
  | InterpolatedQuadrature => load_quadrature
  | ScenarioWrapper => load_wrapper
  | StorageLicense | AnnualLicense | AnnualExponential | AnnualHyperbola => load_licence c
  end.
(** `cls.load(model, data)` *)
Definition load (c : class) (d : dict json) : option bindings := option_map fst (load_rest c d).

(** load_parameter for a dictionary with "type", 2315-2344: the tags and the name are set on the new parameter (a name that is null is not). *)
Record loaded := Loaded { l_class : class; l_args : bindings; l_name : option json; l_tags : option json }.
Definition load_entry (d : dict json) : option loaded :=
  match get "type" d with
  | Some (JString typ) =>
      match class_of typ with
      | None => None
      | Some c => match load c (pop_all ["tags"; "type"; "name"] d) with
                  | None => None
                  | Some b => Some (Loaded c b (given "name" d) (given "tags" d))
                  end
      end
  | _ => None
  end.
End World.
