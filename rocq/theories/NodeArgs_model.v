(** Attributes of nodes from the arguments of constructors and from documents: /repo/pywr/nodes.py:43-91 (Loadable), 214-244 (Node), 346-393 (Storage), 456-481 (VirtualStorage), 793-867 (PiecewiseLink),
    934-989 (MultiSplitLink), 1063-1069 (AggregatedNode), 1107-1155 (BreakLink), 1263-1347 (LossLink), /repo/pywr/domains/river.py:24-96 (Catchment, Reservoir), 131-150 (RiverSplit), 194-237
    (RiverSplitWithGauge), 253-293 (RiverGauge); the setters of /repo/pywr/_core.pyx:549-709, 845-905, 1082-1290.

    A node is the log of what was assigned to it and to its sub-nodes.  Keyword arguments that cannot fail and are not numbers (name, comment, position, colour, tags, slot names...) are left out, and so are
    the lists of nodes, `factors` of splits and `nsteps`, which is an argument of the class here. *)
From Verif Require Import Base LP_model.
Local Open Scope nat_scope.
Local Open Scope list_scope.

(** Names of attributes and keyword arguments. *)
Inductive key :=
| KCost | KMinFlow | KMaxFlow | KConversion | KFlow | KLoss | KMinVolume | KMaxVolume | KLevel | KArea | KInitial | KInitialPc
| KCosts | KMaxFlows | KMrf | KMrfCost | KControl | KAbove | KFactors | KUnknown.
Definition key_eq_dec (a b : key) : {a = b} + {a <> b}.
Proof. decide equality. Defined.
Definition key_eqb (a b : key) : bool := if key_eq_dec a b then true else false.

(** What can be given or assigned: None, a number, a parameter, the parameter a reservoir makes of its control curve (the curve, the costs above and below), anything else (text, a dictionary). *)
Inductive value := VNone | VNum (x : ext) | VPar (p : nat) | VCurve (curve above below : value) | VOther.
Inductive arg := One (v : value) | Many (l : list value).
Definition num (q : Q) : arg := One (VNum (Fin q)).
Definition kwargs := list (key * arg).

Fixpoint lookup {A} (k : key) (l : list (key * A)) : option A :=
  match l with [] => None | (k', a) :: l => if key_eqb k' k then Some a else lookup k l end.
(** `kwargs.pop(k, default)` *)
Definition pick (kw : kwargs) (k : key) (default : arg) : arg := match lookup k kw with Some a => a | None => default end.

(** The classes.  Simple: Node, Input, Output, Link, River, DelayNode. *)
Inductive class :=
| Simple | Break | Loss | Catchment | Store | Reservoir | Virtual
| Piecewise (nsteps : nat) | MultiSplit (nsteps extra : nat) | RiverSplit (nsteps extra : nat) | SplitGauge (extra : nat) | Gauge
| Aggregated.

(** Attributes proper, of the node (0) or of one of its sub-nodes: the link of a BreakLink and the net link of a LossLink are 1, sublink [i] of a PiecewiseLink is [i + 1]. *)
Inductive field := Cost | MinFlow | MaxFlow | Conversion | LossFactor | MinVolume | MaxVolume | Level | Area | Initial | InitialPc | AggMin | AggMax.
Definition slot : Type := nat * field.
Definition slot_eq_dec (a b : slot) : {a = b} + {a <> b}.
Proof. decide equality; [decide equality|apply Nat.eq_dec]. Defined.
Definition writes := list (slot * value).
(** What an attribute is in the end: the last value assigned. *)
Definition read (s : slot) (w : writes) : option value :=
  fold_left (fun acc p => if slot_eq_dec (fst p) s then Some (snd p) else acc) w None.

(** The setters; [None] is an exception.  `loss_factor` is an ordinary attribute. *)
Definition accept (f : field) (v : value) : option value :=
  match f, v with
  | LossFactor, _ => Some v
  | (MinFlow | Level | Area), VNone => Some (VNum (Fin 0))
  | (MaxFlow | AggMax), VNone => Some (VNum PInf)
  | AggMin, VNone => Some (VNum NInf)
  | (Initial | InitialPc), VNone => Some VNone                              (* NaN *)
  | _, VNone => None                                                        (* float(None) *)
  | _, VNum x => Some (VNum x)
  | (Conversion | Initial | InitialPc), _ => None
  | _, VOther => None
  | _, _ => Some v
  end.

Definition one (part : nat) (f : field) (a : arg) : option writes :=
  match a with One v => option_map (fun v => [((part, f), v)]) (accept f v) | Many _ => None end.
Fixpoint many (part : nat) (f : field) (l : list value) : option writes :=
  match l with
  | [] => Some []
  | v :: l => match accept f v, many (S part) f l with Some v, Some w => Some (((part, f), v) :: w) | _, _ => None end
  end.

Definition sublinks (c : class) : nat :=
  match c with Piecewise n => n | MultiSplit n x | RiverSplit n x => n + x | SplitGauge x => 2 + x | Gauge => 2 | _ => 0 end.
(** 840-857: the list must have the length of the sublinks. *)
Definition per_sublink (c : class) (f : field) (a : arg) : option writes :=
  match a with Many l => if List.length l =? sublinks c then many 1 f l else None | One _ => None end.

Definition flow_part (c : class) : nat := match c with Break | Loss => 1 | _ => 0 end.
Definition cost_part (c : class) : nat := match c with Break | Loss => 1 | Gauge | SplitGauge _ => 2 | _ => 0 end.

(** `node.key = a` *)
Definition assign (c : class) (k : key) (a : arg) : option writes :=
  match k with
  | KCost => one (cost_part c) Cost a
  | KMinFlow => one (flow_part c) (match c with Aggregated => AggMin | _ => MinFlow end) a
  | KMaxFlow => one (flow_part c) (match c with Aggregated => AggMax | _ => MaxFlow end) a
  | KConversion => one 0 Conversion a
  | KFlow => match one 0 MinFlow a, one 0 MaxFlow a with Some u, Some w => Some (u ++ w) | _, _ => None end       (* river.py:49-54 *)
  | KLoss => one 0 LossFactor a
  | KMinVolume => one 0 MinVolume a
  | KMaxVolume => one 0 MaxVolume a
  | KLevel => one 0 Level a
  | KArea => one 0 Area a
  | KInitial => one 0 Initial a
  | KInitialPc => one 0 InitialPc a
  | KCosts => per_sublink c Cost a
  | KMaxFlows => per_sublink c MaxFlow a
  | KMrf => one 1 MaxFlow a
  | KMrfCost => one 1 Cost a
  | KFactors => Some []                                                     (* not modelled *)
  | KControl | KAbove | KUnknown => None
  end.
Fixpoint assign_all (c : class) (l : list (key * arg)) : option writes :=
  match l with
  | [] => Some []
  | (k, a) :: l => match assign c k a, assign_all c l with Some u, Some w => Some (u ++ w) | _, _ => None end
  end.

(** * Constructors: the attributes they assign, in order *)

(** `if min_flow is None: min_flow = 0.0` *)
Definition or_zero (a : arg) : arg := match a with One VNone => num 0 | a => a end.

(** Node, 225-244 *)
Definition node_args (kw : kwargs) : list (key * arg) :=
  [(KMinFlow, or_zero (pick kw KMinFlow (num 0))); (KMaxFlow, pick kw KMaxFlow (One (VNum PInf)));
   (KCost, pick kw KCost (num 0)); (KConversion, pick kw KConversion (num 1))].
(** Storage, 347-382 *)
Definition storage_args (kw : kwargs) : list (key * arg) :=
  [(KMinVolume, or_zero (pick kw KMinVolume (num 0))); (KMaxVolume, pick kw KMaxVolume (num 0));
   (KInitial, pick kw KInitial (One VNone)); (KInitialPc, pick kw KInitialPc (One VNone));
   (KCost, pick kw KCost (num 0)); (KLevel, pick kw KLevel (One VNone)); (KArea, pick kw KArea (One VNone))].
(** VirtualStorage, 456-475 *)
Definition virtual_args (kw : kwargs) : list (key * arg) :=
  [(KMinVolume, or_zero (pick kw KMinVolume (num 0))); (KMaxVolume, pick kw KMaxVolume (num 0));
   (KInitial, pick kw KInitial (One VNone)); (KInitialPc, pick kw KInitialPc (One VNone)); (KCost, pick kw KCost (num 0))].
(** `if costs is not None: self.costs = costs` *)
Definition optional (k : key) (a : arg) : list (key * arg) := match a with One VNone => [] | a => [(k, a)] end.
(** `costs + [0.0] * extra_slots` *)
Definition pad (extra : nat) (v : value) (a : arg) : arg :=
  match a with One VNone => One VNone | One _ => One VOther | Many l => Many (l ++ repeat v extra) end.
Definition the (a : arg) : value := match a with One v => v | Many _ => VOther end.
Definition without (k : key) (kw : kwargs) : kwargs := filter (fun p => negb (key_eqb (fst p) k)) kw.

(** PiecewiseLink, 793-828, with the lists it was given *)
Definition piecewise_args (kw : kwargs) (costs max_flows : arg) : list (key * arg) := node_args kw ++ optional KCosts costs ++ optional KMaxFlows max_flows.

(** Reservoir, river.py:67-96.  [None] is ValueError (cost is a parameter), or a control curve that is no number.
    Simplification: the two costs have to be numbers (null becomes NaN in the parameter). *)
Definition reservoir_cost (kw : kwargs) : option arg :=
  match pick kw KAbove (One VNone) with
  | One VNone => Some (pick kw KCost (num 0))
  | One (VNum a) =>
      let curve := match pick kw KControl (One VNone) with
                   | One VNone => Some (VNum (Fin 1))
                   | One (VNum x) => Some (VNum x)
                   | One (VPar p) => Some (VPar p)
                   | One (VCurve x y z) => Some (VCurve x y z)
                   | _ => None
                   end in
      match curve, pick kw KCost (num 0) with
      | Some cv, One (VNum b) => Some (One (VCurve cv (VNum a) (VNum b)))
      | _, _ => None
      end
  | _ => None
  end.

Definition steps (c : class) (kw : kwargs) : option (list (key * arg)) :=
  match c with
  | Simple | Break => Some (node_args kw)
  | Loss => Some ((KLoss, pick kw KLoss (num 0)) :: node_args kw)                                          (* 1282-1285 *)
  | Catchment => Some (node_args (without KFlow kw) ++ [(KFlow, pick kw KFlow (num 0))])                    (* river.py:40-44 *)
  | Store => Some (storage_args kw)
  | Reservoir => match reservoir_cost kw with Some a => Some (storage_args ((KCost, a) :: without KCost kw)) | None => None end
  | Virtual => Some (virtual_args kw)
  | Piecewise n => Some (piecewise_args kw (pick kw KCosts (One VNone)) (pick kw KMaxFlows (One VNone)))
  | MultiSplit n x =>                                                                                      (* 936-974 *)
      Some (piecewise_args kw (pad x (VNum (Fin 0)) (pick kw KCosts (One VNone))) (pad x VNone (pick kw KMaxFlows (One VNone))))
  | RiverSplit n x =>                                                                                      (* river.py:131-150 *)
      Some (piecewise_args kw (pad x (VNum (Fin 0)) (pick kw KCosts (Many [VNum (Fin 0)]))) (pad x VNone (pick kw KMaxFlows (Many [VNone]))))
  | SplitGauge x =>                                                                                        (* river.py:194-202 *)
      Some (piecewise_args (without KCost kw)
              (pad x (VNum (Fin 0)) (Many [the (pick kw KMrfCost (num 0)); the (pick kw KCost (num 0))])) (pad x VNone (Many [the (pick kw KMrf (num 0)); VNone])))
  | Gauge =>                                                                                               (* river.py:253-270 *)
      Some (piecewise_args (without KCost kw)
              (Many [the (pick kw KMrfCost (num 0)); the (pick kw KCost (num 0))]) (Many [the (pick kw KMrf (num 0)); VNone]))
  | Aggregated => Some []
  end.

(** The keyword arguments there are; any other reaches AbstractNode.__init__ and is refused (_core.pyx:359-361).  RiverGauge ignores `costs` and `max_flows`, RiverSplitWithGauge passes its own. *)
Definition keywords (c : class) : list key :=
  let node := [KMinFlow; KMaxFlow; KCost; KConversion] in
  match c with
  | Simple | Break => node
  | Loss => KLoss :: node
  | Catchment => KFlow :: node
  | Store => [KMinVolume; KMaxVolume; KInitial; KInitialPc; KCost; KLevel; KArea]
  | Reservoir => [KMinVolume; KMaxVolume; KInitial; KInitialPc; KCost; KLevel; KArea; KControl; KAbove]
  | Virtual => [KMinVolume; KMaxVolume; KInitial; KInitialPc; KCost; KFactors]
  | Piecewise _ => node ++ [KCosts; KMaxFlows]
  | MultiSplit _ _ | RiverSplit _ _ => node ++ [KCosts; KMaxFlows; KFactors]
  | SplitGauge _ => node ++ [KMrf; KMrfCost; KFactors]
  | Gauge => node ++ [KMrf; KMrfCost; KCosts; KMaxFlows]
  | Aggregated => []
  end.
Definition mem (k : key) (l : list key) : bool := existsb (key_eqb k) l.

(** `cls(model, name, **kw)` *)
Definition construct (c : class) (kw : kwargs) : option writes :=
  if forallb (fun p => mem (fst p) (keywords c)) kw then match steps c kw with Some l => assign_all c l | None => None end else None.

(** * Documents *)

(** A value in a document: null, a number, a reference to a parameter (its name, or its data), lists of these. *)
Inductive atom := ANull | ANum (x : ext) | ARef (n : nat).
Inductive datum := DOne (a : atom) | DMany (l : list atom).
Definition document := list (key * datum).

(** __parameter_attributes__ *)
Definition parameters (c : class) : list key :=
  match c with
  | Simple | Break => [KCost; KMinFlow; KMaxFlow]                           (* 214 *)
  | Loss => [KLoss; KMaxFlow; KMinFlow; KCost]                              (* 1263 *)
  | Catchment => [KCost; KFlow]                                             (* river.py:27 *)
  | Store | Reservoir => [KCost; KMinVolume; KMaxVolume; KLevel; KArea]     (* 344 *)
  | Virtual => [KMinVolume; KMaxVolume]                                     (* 456 *)
  | Piecewise _ | MultiSplit _ _ | RiverSplit _ _ => [KCosts; KMaxFlows]    (* 793 *)
  | SplitGauge _ | Gauge => [KCost; KMrfCost; KMrf]                         (* river.py:192, 250 *)
  | Aggregated => [KFactors; KMinFlow; KMaxFlow]                            (* 1063 *)
  end.

(** load_parameter (_parameters.pyx:2292-2346): [env n] is the parameter a reference stands for, if it can be loaded. *)
Definition load_atom (env : nat -> option nat) (a : atom) : option value :=
  match a with ANull => Some VNone | ANum x => Some (VNum x) | ARef n => option_map VPar (env n) end.
Fixpoint load_atoms (env : nat -> option nat) (l : list atom) : option (list value) :=
  match l with
  | [] => Some []
  | a :: l => match load_atom env a, load_atoms env l with Some v, Some vs => Some (v :: vs) | _, _ => None end
  end.
Definition load_datum (env : nat -> option nat) (d : datum) : option arg :=
  match d with DOne a => option_map One (load_atom env a) | DMany l => option_map Many (load_atoms env l) end.
Fixpoint load_data (env : nat -> option nat) (doc : document) : option kwargs :=
  match doc with
  | [] => Some []
  | (k, d) :: doc => match load_datum env d, load_data env doc with Some a, Some kw => Some ((k, a) :: kw) | _, _ => None end
  end.

(** Everything else is passed on as it is; text and dictionaries are no numbers. *)
Definition raw_atom (a : atom) : value := match a with ANull => VNone | ANum x => VNum x | ARef _ => VOther end.
Definition raw_datum (d : datum) : arg := match d with DOne a => One (raw_atom a) | DMany l => Many (map raw_atom l) end.

(** __parameter_value_attributes__, 66-70: a number, or something load_parameter_values can read (not modelled); it does not take None. *)
Definition value_ok (c : class) (p : key * datum) : bool :=
  match c, p with (Store | Reservoir), (KInitial, DOne ANull) => false | _, _ => true end.

(** pre_load, 54-77 *)
Definition deferred (c : class) (doc : document) : document := filter (fun p => mem (fst p) (parameters c)) doc.
Definition immediate (c : class) (doc : document) : kwargs :=
  map (fun p => (fst p, raw_datum (snd p))) (filter (fun p => negb (mem (fst p) (parameters c))) doc).
Definition pre_load (c : class) (doc : document) : option writes :=
  if forallb (value_ok c) doc then construct c (immediate c doc) else None.
(** pre_load and finalise_load, 79-91 *)
Definition load (env : nat -> option nat) (c : class) (doc : document) : option writes :=
  match pre_load c doc, load_data env (deferred c doc) with
  | Some w, Some kw => match assign_all c kw with Some u => Some (w ++ u) | None => None end
  | _, _ => None
  end.
