(** What the documents of recorders mean: for each class a table of the entries its documents may have, and the relation between a document and the
    arguments of the class.  Independent of the methods `load` and of the signatures of the constructors; the words for what an entry refers to
    are those of ParamLoad_spec.v. *)
From Coq Require Import Strings.Ascii Strings.String.
From Verif Require Import Base Documents_model DataLoad_model ParamLoad_model ParamLoad_spec RecLoad_model.
Local Open Scope string_scope.
Local Open Scope nat_scope.
Local Open Scope list_scope.

(** Kinds of entries. *)
Inductive kind :=
| KRaw        (* taken as it stands *)
| KText       (* a text, or null *)
| KInt        (* a number, of which the whole part is taken *)
| KPath       (* a file *)
| KNode | KStorage | KNodes | KScenarioNull
| KRecorder | KRecorders
| KPar        (* a parameter, or null *)
| KParOnly    (* a parameter *)
| KParIndex   (* an index parameter *)
| KParsLoose  (* parameters; numbers and null are not refused *)
| KObserved   (* a parameter, or else a recorder *)
| KTracked    (* a parameter, or null *)
| KTarget.    (* taken as it stands, unless it says where the numbers are, for the percentiles of the document *)

Inductive need := Required | Default (o : obj) | Left.
Record field := Field { a_name : string; a_keys : list (string * kind); a_need : need }.
Definition entry (k : string) (kd : kind) : field := Field k [(k, kd)] Required.
Definition entry_or (k : string) (kd : kind) (o : obj) : field := Field k [(k, kd)] (Default o).
Definition needs (ks : list string) : list field := map (fun k => entry k KRaw) ks.
Definition lets (ks : list string) : list field := map (fun k => Field k [(k, KRaw)] Left) ks.

Definition objective : list field :=
  lets ["agg_func"; "ignore_nan"; "is_objective"; "epsilon"; "constraint_lower_bounds"; "constraint_upper_bounds"; "comment"; "tags"].
Definition common : list field := lets ["name"] ++ objective.
Definition of_parameter : field := Field "param" [("parameter", KParOnly)] Required.
Definition of_index : field := Field "param" [("parameter", KParIndex)] Required.
Definition of_file : field := Field "h5file" [("url", KPath)] Required.
Definition in_tables : list string :=
  ["nodes"; "parameters"; "where"; "time"; "routes_flows"; "routes"; "scenarios"; "filter_kwds"; "mode"; "metadata"; "create_directories"; "title"].
Definition turbine : list field :=
  [entry "node" KNode; entry_or "water_elevation_parameter" KPar ONone]
  ++ lets ["turbine_elevation"; "efficiency"; "density"; "flow_unit_conversion"; "energy_unit_conversion"].

Definition table (c : class) : list field :=
  match c with
  | Aggregated => [entry "recorders" KRecorders] ++ lets ["recorder_agg_func"] ++ common
  | OfNode | TotalDeficit | DeficitFrequency => [entry "node" KNode] ++ common
  | OfStorage | ConstantStorage | MinimumVolume => [entry "node" KStorage] ++ common
  | OfParameter => [of_parameter] ++ common
  | OfIndex => [of_index] ++ common
  | ArrayNode | ArrayDeficit | ArraySupplied | ArrayCurtailment | ArrayCost => [entry "node" KNode] ++ lets ["temporal_agg_func"; "factor"] ++ common
  | FlowDuration => [entry "node" KNode] ++ needs ["percentiles"] ++ lets ["fdc_agg_func"; "temporal_agg_func"; "factor"] ++ common
  | SeasonalDuration => [entry "node" KNode] ++ needs ["percentiles"; "months"] ++ lets ["fdc_agg_func"; "temporal_agg_func"; "factor"] ++ common
  | DurationDeviation => [entry "node" KNode] ++ needs ["percentiles"] ++ [entry_or "lower_target_fdc" KTarget ONone; entry_or "upper_target_fdc" KTarget ONone]
                         ++ lets ["fdc_agg_func"; "temporal_agg_func"; "factor"] ++ common
  | ArrayStorage => [entry "node" KStorage] ++ lets ["temporal_agg_func"; "proportional"] ++ common
  | ArrayNormalised => [entry "node" KStorage; entry "parameter" KPar] ++ lets ["temporal_agg_func"] ++ common
  | StorageDuration => [entry "node" KStorage] ++ needs ["percentiles"] ++ lets ["sdc_agg_func"; "temporal_agg_func"; "proportional"] ++ common
  | ArrayLevel | ArrayArea => [entry "node" KStorage] ++ lets ["temporal_agg_func"] ++ common
  | ArrayParameter | ArrayDaily => [of_parameter] ++ lets ["temporal_agg_func"] ++ common
  | ArrayIndex => [of_index] ++ lets ["temporal_agg_func"] ++ common
  | RollingWindow => [of_parameter; entry "window" KInt] ++ lets ["temporal_agg_func"] ++ common
  | RollingMean => [entry "node" KNode; entry_or "timesteps" KInt ONone; entry_or "days" KInt ONone; entry_or "name" KRaw ONone]
  | TotalFlow | MeanFlow => [entry "node" KNode] ++ lets ["factor"] ++ common
  | MinimumThreshold => [entry "node" KStorage] ++ needs ["threshold"] ++ common
  | CountIndex => [entry "parameter" KParIndex] ++ needs ["threshold"] ++ common
  | AnnualCountIndex => [of_index] ++ needs ["threshold"] ++ common
  | AnnualCountThreshold => [entry "parameters" KParsLoose; entry "name" KText] ++ needs ["threshold"]
      ++ lets ["exclude_months"; "include_from_month"; "include_from_day"; "include_to_month"; "include_to_day"; "temporal_agg_func"] ++ objective
  | AnnualTotal => [entry "nodes" KNodes; entry "name" KText] ++ lets ["temporal_agg_func"; "factors"] ++ objective
  | TotalParameter => [of_parameter] ++ lets ["factor"; "integrate"] ++ common
  | MeanParameter => [of_parameter] ++ lets ["factor"] ++ common
  | Hydropower => turbine ++ lets ["temporal_agg_func"; "factor"] ++ common
  | HydroEnergy => turbine ++ common
  | Csv => [Field "csvfile" [("url", KPath)] Required] ++ lets ["scenario_index"; "nodes"; "complib"; "complevel"] ++ common
  | Tables => [of_file] ++ lets (in_tables ++ ["use_legacy_attribute_naming"]) ++ common
  | Tables2 => [of_file] ++ lets (in_tables ++ ["buffer_size"; "buffer_timesteps"]) ++ common
  | Event => [entry "threshold" KObserved; entry_or "tracked_parameter" KTracked ONone] ++ lets ["minimum_event_length"; "event_agg_func"] ++ common
  | EventDuration => [entry "event_recorder" KRecorder] ++ lets ["recorder_agg_func"] ++ common
  | EventStatistic => [entry "event_recorder" KRecorder] ++ lets ["event_agg_func"; "recorder_agg_func"] ++ common
  | Kde => [entry "node" KStorage] ++ needs ["target_volume_pc"] ++ lets ["resample_freq"; "resample_func"; "use_reflection"; "num_pdf"; "temporal_agg_func"] ++ common
  | NormalisedKde => [entry "node" KStorage; entry "parameter" KPar]
      ++ lets ["resample_freq"; "resample_func"; "use_reflection"; "num_pdf"; "temporal_agg_func"] ++ common
  end.

(** Entries that must make sense and are no arguments. *)
Definition checked (c : class) : list (string * kind) :=
  match c with
  | OfParameter | ArrayParameter | ArrayDaily | TotalParameter | MeanParameter => [("node", KNode)]
  | DurationDeviation => [("scenario", KScenarioNull)]
  | _ => []
  end.
(** Entries that are no arguments and are not refused. *)
Definition without_effect (c : class) (k : string) : Prop :=
  In k (map fst (checked c)) \/ (c = RollingMean /\ ~ In k ["node"; "timesteps"; "days"; "name"]).

Section World.
Variable named : string -> option obj.
Variable made : dict json -> option obj.
Variable missing : dict json -> bool.
Variable rec_named : string -> option nat.
Variable rec_made : dict json -> option nat.
Variable node : string -> option sort.
Variable scenario : string -> bool.
Variable path : option string.
Variable file : dict json -> option (array * dict json).
Local Notation refers := (refers named made).
Local Notation a_node := (a_node node).

Inductive a_recorder : json -> obj -> Prop :=
| recorder_by_name s n : rec_named s = Some n -> a_recorder (JString s) (ORec n)
| recorder_by_document d n : rec_made d = Some n -> a_recorder (JDict d) (ORec n).
(** The whole part of a number: the whole number next to it on the side of zero. *)
Definition whole_part (q : Q) (z : Z) : Prop :=
  (0 <= q -> inject_Z z <= q /\ q < inject_Z z + 1)%Q /\ (q <= 0 -> inject_Z z - 1 < q /\ q <= inject_Z z)%Q.
(** A file with a relative name is beside the model. *)
Inductive located : string -> string -> Prop :=
| absolute u : (exists s, u = String "/" s) -> located u u
| nowhere u : path = None -> located u u
| beside u p : path = Some p -> ~ (exists s, u = String "/" s) -> p <> "" -> (forall s, p <> (s ++ "/")%string) -> located u (p ++ "/" ++ u)%string
| inside u p : path = Some p -> ~ (exists s, u = String "/" s) -> p = "" \/ (exists s, p = (s ++ "/")%string) -> located u (p ++ u)%string.
Definition as_it_stands (j : json) (o : obj) : Prop := j = JNull /\ o = ONone \/ j <> JNull /\ o = ORaw j.

(** [means d kd j o]: in the document [d] the entry [j] of kind [kd] stands for [o]. *)
Definition means (d : dict json) (kd : kind) (j : json) (o : obj) : Prop :=
  match kd with
  | KRaw => as_it_stands j o
  | KText => j = JNull /\ o = ONone \/ exists s, j = JString s /\ o = ORaw j
  | KInt => exists q z, j = JNumber q /\ whole_part q z /\ o = ORaw (JNumber (inject_Z z))
  | KPath => exists u f, j = JString u /\ located u f /\ o = ORaw (JString f)
  | KNode => a_node j o
  | KStorage => exists s, j = JString s /\ node s = Some Storing /\ o = ONode s Storing
  | KNodes => each a_node j o
  | KScenarioNull => a_scenario scenario j o \/ j = JNull /\ o = ONone
  | KRecorder => a_recorder j o
  | KRecorders => each a_recorder j o
  | KPar => refers j o /\ (a_parameter o \/ o = ONone)
  | KParOnly => refers j o /\ a_parameter o
  | KParIndex => refers j o /\ exists n, o = OPar n true
  | KParsLoose => each refers j o
  | KObserved =>
      (refers j o /\ a_parameter o)
      \/ (exists s n, j = JString s /\ named s = None /\ rec_named s = Some n /\ o = ORec n)
      \/ (exists s n, j = JString s /\ named s = Some (ORec n) /\ o = ORec n)
      \/ (exists e n, j = JDict e /\ made e = None /\ missing e = true /\ rec_made e = Some n /\ o = ORec n)
      \/ (exists e n, j = JDict e /\ made e = Some (ORec n) /\ o = ORec n)
  | KTracked => refers j o /\ (a_parameter o \/ o = ONone) /\ j <> JString "" /\ j <> JDict []
  | KTarget =>
      ((forall e, j <> JDict e) /\ as_it_stands j o)
      \/ (exists e v, j = JDict e /\ get "values" e = Some v /\ numbers v o)
      \/ (exists e p a rest, j = JDict e /\ get "values" e = None /\ (get "url" e <> None \/ get "table" e <> None) /\ get "percentiles" d = Some p
            /\ file (put "indexes" p e) = Some (a, rest) /\ o = OVal a)
  end.

Definition comes_from (d : dict json) (f : field) (k : string) (kd : kind) (j : json) : Prop :=
  exists before after, a_keys f = before ++ (k, kd) :: after /\ (forall k' kd', In (k', kd') before -> get k' d = None) /\ get k d = Some j.
Definition not_given (d : dict json) (f : field) : Prop := forall k kd, In (k, kd) (a_keys f) -> get k d = None.
Definition argument (d : dict json) (f : field) (b : string -> option obj) : Prop :=
  (exists k kd j o, comes_from d f k kd j /\ means d kd j o /\ b (a_name f) = Some o)
  \/ (not_given d f /\ match a_need f with Required => False | Default o => b (a_name f) = Some o | Left => b (a_name f) = None end).

(** Restrictions that concern more than one entry or the value of one. *)
Definition not_both (m n : string) (d : dict json) : Prop := get m d = None \/ get n d = None.
Definition together (c : class) (d : dict json) : Prop :=
  match c with
  | Aggregated => exists s, get "recorder_agg_func" d = Some (JString s) \/ (get "recorder_agg_func" d = None /\ get "agg_func" d = Some (JString s))
  | FlowDuration | SeasonalDuration => not_both "fdc_agg_func" "temporal_agg_func" d
  | DurationDeviation => not_both "fdc_agg_func" "temporal_agg_func" d
      /\ exists k j, In k ["lower_target_fdc"; "upper_target_fdc"] /\ get k d = Some j /\ j <> JNull
  | StorageDuration => not_both "sdc_agg_func" "temporal_agg_func" d
  | RollingMean => exists k q, In k ["timesteps"; "days"] /\ get k d = Some (JNumber q) /\ (1 <= q \/ q <= -(1))%Q
  | Event => get "minimum_event_length" d = None \/ exists q, get "minimum_event_length" d = Some (JNumber q) /\ (1 <= q)%Q
  | _ => True
  end.

(** The document [d] is one of class [c] and gives it the arguments [b] ([None]: the default of the constructor). *)
Definition document_of (c : class) (d : dict json) (b : string -> option obj) : Prop :=
  (forall f, In f (table c) -> argument d f b)
  /\ (forall k kd j, In (k, kd) (checked c) -> get k d = Some j -> exists o, means d kd j o)
  /\ (forall k j, get k d = Some j -> (exists f kd, In f (table c) /\ comes_from d f k kd j) \/ without_effect c k)
  /\ (forall n, b n <> None -> exists f, In f (table c) /\ a_name f = n)
  /\ together c d.
End World.
