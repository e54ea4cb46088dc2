(** What the attributes of nodes should be: what was given for them, or a default. *)
From Verif Require Import Base LP_model NodeArgs_model.
Local Open Scope nat_scope.
Local Open Scope list_scope.

Definition zero := VNum (Fin 0).
Definition infinite := VNum PInf.
(** The value given for [k]. *)
Definition given (kw : kwargs) (k : key) (default : value) : value := match lookup k kw with Some (One v) => v | Some (Many _) => VOther | None => default end.
(** null stands for no limit, and for nothing where that is a number. *)
Definition shown (f : field) (v : value) : value :=
  match v with
  | VNone => match f with MinFlow | Level | Area | MinVolume => zero | MaxFlow | AggMax => infinite | AggMin => VNum NInf | _ => VNone end
  | v => v
  end.

(** The argument an attribute comes from, and its default. *)
Definition source (c : class) (s : slot) : option (key * value) :=
  match c, s with
  | (Simple | Piecewise _ | MultiSplit _ _ | RiverSplit _ _ | Catchment), (0, Cost) | (Break | Loss), (1, Cost) => Some (KCost, zero)
  | (Simple | Piecewise _ | MultiSplit _ _ | RiverSplit _ _ | SplitGauge _ | Gauge), (0, MinFlow) | (Break | Loss), (1, MinFlow) => Some (KMinFlow, zero)
  | (Simple | Piecewise _ | MultiSplit _ _ | RiverSplit _ _ | SplitGauge _ | Gauge), (0, MaxFlow) | (Break | Loss), (1, MaxFlow) => Some (KMaxFlow, infinite)
  | (Simple | Piecewise _ | MultiSplit _ _ | RiverSplit _ _ | SplitGauge _ | Gauge | Break | Loss | Catchment), (0, Conversion) => Some (KConversion, VNum (Fin 1))
  | Loss, (0, LossFactor) => Some (KLoss, zero)
  | Catchment, (0, (MinFlow | MaxFlow)) => Some (KFlow, zero)
  | (Store | Virtual), (0, Cost) => Some (KCost, zero)
  | (Store | Reservoir | Virtual), (0, MinVolume) => Some (KMinVolume, zero)
  | (Store | Reservoir | Virtual), (0, MaxVolume) => Some (KMaxVolume, zero)
  | (Store | Reservoir | Virtual), (0, Initial) => Some (KInitial, VNone)
  | (Store | Reservoir | Virtual), (0, InitialPc) => Some (KInitialPc, VNone)
  | (Store | Reservoir), (0, Level) => Some (KLevel, VNone)
  | (Store | Reservoir), (0, Area) => Some (KArea, VNone)
  | (SplitGauge _ | Gauge), (1, Cost) => Some (KMrfCost, zero)
  | (SplitGauge _ | Gauge), (2, Cost) => Some (KCost, zero)
  | (SplitGauge _ | Gauge), (1, MaxFlow) => Some (KMrf, zero)
  | _, _ => None
  end.

(** Sublink [i] of [n], and of [x] more that cost nothing and have no limit: the lists, if there are. *)
Definition step (n x : nat) (lists : option arg) (rest : value) (f : field) (i : nat) : option value :=
  match lists with
  | Some (Many l) => if i <? n then Some (shown f (nth i l rest)) else if i <? n + x then Some (shown f rest) else None
  | _ => None
  end.
Definition or_else (a : option arg) (d : arg) : option arg := match a with None => Some d | _ => a end.

Definition expected (c : class) (kw : kwargs) (s : slot) : option value :=
  match source c s with
  | Some (k, d) => Some (shown (snd s) (given kw k d))
  | None =>
      match c, s with
      | Reservoir, (0, Cost) =>
          match given kw KAbove VNone with
          | VNone => Some (given kw KCost zero)
          | above => Some (VCurve (match given kw KControl VNone with VNone => VNum (Fin 1) | v => v end) above (given kw KCost zero))
          end
      | Piecewise n, (S i, Cost) => step n 0 (lookup KCosts kw) zero Cost i
      | Piecewise n, (S i, MaxFlow) => step n 0 (lookup KMaxFlows kw) VNone MaxFlow i
      | MultiSplit n x, (S i, Cost) => step n x (lookup KCosts kw) zero Cost i
      | MultiSplit n x, (S i, MaxFlow) => step n x (lookup KMaxFlows kw) VNone MaxFlow i
      | RiverSplit n x, (S i, Cost) => step n x (or_else (lookup KCosts kw) (Many [zero])) zero Cost i
      | RiverSplit n x, (S i, MaxFlow) => step n x (or_else (lookup KMaxFlows kw) (Many [VNone])) VNone MaxFlow i
      | SplitGauge x, (S i, Cost) => if i <? 2 + x then Some zero else None
      | SplitGauge x, (S i, MaxFlow) => if i <? 2 + x then Some infinite else None
      | Gauge, (2, MaxFlow) => Some infinite
      | _, _ => None
      end
  end.

(** The arguments there are: those an attribute comes from, those of reservoirs and splits, and two that have no effect: the limits of a
    catchment, which its flow overrides, and the lists of a gauge. *)
Definition an_argument (c : class) (k : key) : Prop :=
  (exists s d, source c s = Some (k, d))
  \/ In k match c with
          | Reservoir => [KCost; KControl; KAbove]
          | Piecewise _ | Gauge => [KCosts; KMaxFlows]
          | MultiSplit _ _ | RiverSplit _ _ => [KCosts; KMaxFlows; KFactors]
          | SplitGauge _ | Virtual => [KFactors]
          | Catchment => [KMinFlow; KMaxFlow]
          | _ => []
          end.

(** Documents that mean what they say: every entry has a value of its own, parameters are referred to where they can be, null only stands where it is understood, and
    the cost of a reservoir with a control curve and the lists of a split are left out. *)
Definition plain_atom (a : atom) : bool := match a with ARef _ => false | _ => true end.
Definition plain (d : datum) : bool := match d with DOne a => plain_atom a | DMany l => forallb plain_atom l end.
Definition has (k : key) (doc : document) : Prop := In k (map fst doc).
Record direct (c : class) (doc : document) : Prop := {
  d_keys : NoDup (map fst doc);
  d_plain : forall k d, In (k, d) doc -> mem k (parameters c) = false -> plain d = true;
  d_null : forall k, In k [KMinVolume; KCosts; KMaxFlows; KInitial] -> ~ In (k, DOne ANull) doc;
  d_class : match c with
            | Aggregated => False
            | Reservoir => has KCost doc -> ~ has KAbove doc
            | MultiSplit _ _ | RiverSplit _ _ => ~ has KCosts doc /\ ~ has KMaxFlows doc
            | _ => True
            end }.
