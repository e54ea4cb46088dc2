(** Attributes of nodes that are a number or a parameter, /repo/pywr/_core.pyx:500-709 (AbstractNode, Node), 749-756, 829-905 (AggregatedNode), 953-1004 (StorageInput,
    StorageOutput), 1046-1108, 1170-1266 (Storage); /repo/pywr/nodes.py:834-838 (PiecewiseLink).

    A parameter is given by its values in the current timestep, one for each scenario combination; [get_value(si)] is the entry of
    si.global_id and [get_all_values()] all of them (/repo/pywr/parameters/_parameters.pyx:77-83). *)
From Verif Require Import Base LP_model.
Local Open Scope nat_scope.
Local Open Scope list_scope.

Definition parameter := list ext.
Definition get_value (p : parameter) (s : nat) : ext := nth s p (Fin 0).

(** `_x` and `_x_param` *)
Record attr := Attr { a_const : ext; a_param : option parameter }.
(** What can be assigned: None, a number, a parameter, or something else. *)
Inductive assigned := ANone | ANumber (x : ext) | AParam (p : parameter) | AOther.

(** The setters.  [default]: what None stands for, if it is accepted; otherwise the number cannot be converted, which raises after the parameter has been dropped (cost, 549-554, 1082-1087;
    min_volume, 1170-1176; max_volume, 1195-1201).  The result and whether an exception was raised. *)
Definition set_attr (default : option ext) (a : attr) (v : assigned) : attr * bool :=
  match v, default with
  | ANone, Some d => (Attr d None, false)
  | ANone, None => (Attr (a_const a) None, true)
  | ANumber x, _ => (Attr x None, false)
  | AParam p, _ => (Attr (a_const a) (Some p), false)
  | AOther, _ => (Attr (a_const a) None, true)
  end.

(** `get_x(si)`, `get_all_x()` for [ncomb] combinations: `np.empty`, then filled with the constant or copied. *)
Definition get_attr (a : attr) (s : nat) : ext := match a_param a with None => a_const a | Some p => get_value p s end.
Definition get_all_attr (ncomb : nat) (a : attr) : list ext := match a_param a with None => repeat (a_const a) ncomb | Some p => p end.

(** The attribute as Python sees it. *)
Definition read_attr (a : attr) : assigned := match a_param a with None => ANumber (a_const a) | Some p => AParam p end.

(** Attributes of the classes, with the value new nodes have and what None stands for.  `level` and `area` of a new storage are 0. *)
Inductive field := NodeCost | NodeMinFlow | NodeMaxFlow | AggMinFlow | AggMaxFlow | StorageCost | MinVolume | MaxVolume | Level | Area.
Definition initial_value (f : field) : ext := match f with NodeMaxFlow | AggMaxFlow => PInf | _ => Fin 0 end.
Definition none_value (f : field) : option ext :=
  match f with
  | NodeMinFlow | Level | Area => Some (Fin 0)
  | AggMinFlow => Some NInf
  | NodeMaxFlow | AggMaxFlow => Some PInf
  | NodeCost | StorageCost | MinVolume | MaxVolume => None
  end.

(** Nodes as far as cost and bounds of flow go. *)
Inductive anode :=
| Other                                           (* AbstractNode: no cost *)
| Simple (cost min_flow max_flow : attr)
| Aggregated (min_flow max_flow : attr)
| IntoNetwork (storage_cost : attr)               (* StorageInput: minus the storage's cost *)
| IntoStore (storage_cost : attr)                 (* StorageOutput *)
| Piecewise (cost min_flow max_flow : attr) (sublinks : list (attr * attr)).   (* each sublink's min_flow and max_flow *)

Definition eneg (e : ext) : ext := match e with NInf => PInf | Fin q => Fin (- q) | PInf => NInf end.
(** Addition of doubles; [None] is NaN. *)
Definition eadd (a b : option ext) : option ext :=
  match a, b with
  | Some (Fin x), Some (Fin y) => Some (Fin (x + y))
  | Some NInf, Some PInf | Some PInf, Some NInf => None
  | Some NInf, Some _ | Some _, Some NInf => Some NInf
  | Some PInf, Some _ | Some _, Some PInf => Some PInf
  | _, _ => None
  end.
Definition esum (l : list ext) : option ext := fold_left (fun acc x => eadd acc (Some x)) l (Some (Fin 0)).

Definition get_cost (n : anode) (s : nat) : option ext :=
  match n with
  | Other | Aggregated _ _ => Some (Fin 0)
  | Simple c _ _ | Piecewise c _ _ _ | IntoStore c => Some (get_attr c s)
  | IntoNetwork c => Some (eneg (get_attr c s))
  end.
Definition get_all_cost (ncomb : nat) (n : anode) : list (option ext) :=
  match n with
  | Other | Aggregated _ _ => repeat (Some (Fin 0)) ncomb
  | Simple c _ _ | Piecewise c _ _ _ | IntoStore c => map Some (get_all_attr ncomb c)
  | IntoNetwork c => map (fun x => Some (eneg x)) (get_all_attr ncomb c)
  end.

(** Bounds of flow, for nodes that have them. *)
Definition get_min_flow (n : anode) (s : nat) : option ext :=
  match n with
  | Simple _ a _ | Aggregated a _ => Some (get_attr a s)
  | Piecewise _ _ _ subs => esum (map (fun sl => get_attr (fst sl) s) subs)
  | _ => Some (Fin 0)
  end.
Definition get_max_flow (n : anode) (s : nat) : option ext :=
  match n with
  | Simple _ _ a | Aggregated _ a => Some (get_attr a s)
  | Piecewise _ _ _ subs => esum (map (fun sl => get_attr (snd sl) s) subs)
  | _ => Some PInf
  end.
Definition get_all_min_flow (ncomb : nat) (n : anode) : list (option ext) :=
  match n with
  | Simple _ a _ | Aggregated a _ | Piecewise _ a _ _ => map Some (get_all_attr ncomb a)
  | _ => repeat (Some (Fin 0)) ncomb
  end.
Definition get_all_max_flow (ncomb : nat) (n : anode) : list (option ext) :=
  match n with
  | Simple _ _ a | Aggregated _ a | Piecewise _ _ a _ => map Some (get_all_attr ncomb a)
  | _ => repeat (Some PInf) ncomb
  end.

(** has_fixed_flows, get_fixed_min_flow, get_fixed_max_flow (597-601, 648-651, 660-664); [None] is NaN. *)
Definition is_fixed (a : attr) : bool := match a_param a with None => true | _ => false end.
Definition get_fixed (min_flow max_flow a : attr) : option ext := if is_fixed max_flow && is_fixed min_flow then Some (a_const a) else None.
