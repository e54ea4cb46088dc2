(** Catchment, Reservoir and RiverGauge (domains/river.py): which attributes their constructors and properties set. *)
From Verif Require Import Base LP_model ControlCurves_model.
Local Open Scope nat_scope.
Local Open Scope list_scope.

(** What can be assigned to min_flow, max_flow or cost: None, a number, or a Parameter (by its number). *)
Inductive value (A : Type) := VNone | VNum (a : A) | VPar (k : nat).
Arguments VNone {A}. Arguments VNum {A}. Arguments VPar {A}.

(** Node._min_flow, _min_flow_param, _max_flow, _max_flow_param. *)
Record flows := Flows { min_num : ext; min_par : option nat; max_num : ext; max_par : option nat }.

(** The setters of min_flow and max_flow, _core.pyx:588-597 and 636-645. *)
Definition set_min (f : flows) (v : value ext) : flows :=
  match v with
  | VNone => Flows (Fin 0%Q) None (max_num f) (max_par f)
  | VPar k => Flows (min_num f) (Some k) (max_num f) (max_par f)
  | VNum q => Flows q None (max_num f) (max_par f)
  end.
Definition set_max (f : flows) (v : value ext) : flows :=
  match v with
  | VNone => Flows (min_num f) (min_par f) PInf None
  | VPar k => Flows (min_num f) (min_par f) (max_num f) (Some k)
  | VNum q => Flows (min_num f) (min_par f) q None
  end.

(** get_min_flow and get_max_flow, 613-618 and 673-678; [par] gives the values of the Parameters now. *)
Definition get_min (par : nat -> ext) (f : flows) : ext := match min_par f with None => min_num f | Some k => par k end.
Definition get_max (par : nat -> ext) (f : flows) : ext := match max_par f with None => max_num f | Some k => par k end.

(** Node.__cinit__, _core.pyx:514-520, then Node.__init__, nodes.py:219-233 (the keywords min_flow and max_flow; absent: None here). *)
Definition new_flows : flows := Flows (Fin 0%Q) None PInf None.
Definition node_init (mn mx : option (value ext)) : flows :=
  let mn := match mn with None => VNum (Fin 0%Q) | Some VNone => VNum (Fin 0%Q) | Some v => v end in
  let mx := match mx with None => VNum PInf | Some v => v end in
  set_max (set_min new_flows mn) mx.

(** Catchment.__setattr__, river.py:50-55. *)
Inductive assignment := AMin (v : value ext) | AMax (v : value ext) | AFlow (v : value ext).
Definition assign (f : flows) (a : assignment) : flows :=
  match a with
  | AMin v => set_min f v
  | AMax v => set_max f v
  | AFlow v => set_max (set_min f v) v
  end.

(** Catchment.__init__, 27-44, with the keywords min_flow, max_flow and flow, and a program of assignments after it. *)
Definition catchment (mn mx flow : option (value ext)) (prog : list assignment) : flows :=
  fold_left assign prog (assign (node_init mn mx) (AFlow (match flow with None => VNum (Fin 0%Q) | Some v => v end))).

(** Reservoir.__init__, 67-98: the cost that the Storage gets.  A control curve is a number or a Parameter, a Parameter stands for a
    curve position by its number. *)
Inductive storage_cost := CPlain (v : value Q) | CCurve (curve : value Q) (values : list Q).
Definition reservoir (control_curve : option (value Q)) (above : option Q) (cost : option (value Q)) : option storage_cost :=
  let cost := match cost with None => VNum 0%Q | Some v => v end in
  match above with
  | Some ab =>
      let curve := match control_curve with None | Some VNone => VNum 1%Q | Some c => c end in
      match cost with
      | VPar _ => None                                    (* ValueError *)
      | VNone => None                                     (* [values] is an array of floats: TypeError *)
      | VNum c => Some (CCurve curve [ab; c])             (* ControlCurveParameter(model, self, curve, [above, cost]) *)
      end
  | None => Some (CPlain cost)
  end.
Definition number (par : nat -> Q) (v : value Q) : Q := match v with VNone => 0%Q | VNum q => q | VPar k => par k end.
(** Its value when the storage is filled to the fraction [pc]: Storage.get_cost, ControlCurveParameter.value (ControlCurves_model). *)
Definition cost_now (par : nat -> Q) (pc : Q) (c : storage_cost) : Q :=
  match c with
  | CPlain v => number par v
  | CCurve curve values => curve_value values pc [number par curve]
  end.

(** The attributes max_flow and cost of the sublinks of a RiverGauge. *)
Record sublink := Sublink { sl_max : value ext; sl_cost : value Q }.
Fixpoint update {A} (i : nat) (f : A -> A) (l : list A) : list A :=
  match l, i with
  | [], _ => []
  | a :: r, O => f a :: r
  | a :: r, S j => a :: update j f r
  end.
(** The properties mrf, mrf_cost and cost, river.py:269-300. *)
Inductive gauge_assignment := GMrf (v : value ext) | GMrfCost (v : value Q) | GCost (v : value Q).
Definition gauge_assign (l : list sublink) (a : gauge_assignment) : list sublink :=
  match a with
  | GMrf v => update 0 (fun s => Sublink v (sl_cost s)) l
  | GMrfCost v => update 0 (fun s => Sublink (sl_max s) v) l
  | GCost v => update 1 (fun s => Sublink (sl_max s) v) l
  end.
(** The properties costs and max_flows of PiecewiseLink, nodes.py:841-872 (lists of the right length). *)
Definition set_costs (l : list sublink) (vs : list (value Q)) : list sublink :=
  map (fun sv => Sublink (sl_max (fst sv)) (snd sv)) (combine l vs).
Definition set_max_flows (l : list sublink) (vs : list (value ext)) : list sublink :=
  map (fun sv => Sublink (snd sv) (sl_cost (fst sv))) (combine l vs).
Definition or_else {A} (d : A) (o : option A) : A := match o with None => d | Some a => a end.
(** RiverGauge.__init__, river.py:251-267, and PiecewiseLink.__init__, nodes.py:794-833: two sublinks; Node.__init__ assigns the default
    cost through the property of the gauge; then the lists of costs and maximum flows. *)
Definition gauge (mrf : option (value ext)) (mrf_cost cost : option (value Q)) (prog : list gauge_assignment) : list sublink :=
  let fresh := repeat (Sublink (VNum PInf) (VNum 0%Q)) 2 in
  let l := gauge_assign fresh (GCost (VNum 0%Q)) in
  let l := set_costs l [or_else (VNum 0%Q) mrf_cost; or_else (VNum 0%Q) cost] in
  let l := set_max_flows l [or_else (VNum (Fin 0%Q)) mrf; VNone] in
  fold_left gauge_assign prog l.
(** The maximum flow of a sublink now: its own setter and getter. *)
Definition sub_max (par : nat -> ext) (s : sublink) : ext := get_max par (set_max new_flows (sl_max s)).
