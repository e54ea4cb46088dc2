(** Values that the models of a MultiModel take from each other: /repo/pywr/parameters/multi_model_parameters.py, ShadowStorage and ShadowNode
    (/repo/pywr/_core.pyx:1539-1596), in the order of calls of MultiModel._step (/repo/pywr/model.py:223-233).

    Simplifications: what a model computes of its own is given by three functions, of anything that is there to be computed from in that model;
    nodes are those without a parent (these are the ones that [reset] reaches); a model does not refer to itself (the theorems say so). *)
From Verif Require Import Base.
Local Open Scope nat_scope.
Local Open Scope list_scope.
Local Open Scope Q_scope.

(** The arrays of a model, one row for each node or parameter, one entry in it for each scenario combination: _flow, _prev_flow and _volume
    of the nodes, __values of the parameters ([None]: memory that was never written, [np.empty]), and what else its components remember. *)
Record state := State { flow : list (list Q); prev : list (list Q); vol : list (list Q); pars : list (list (option Q)); mem : list Q }.
Definition no_state : state := State [] [] [] [] [].

(** Shadow nodes follow a node of another model. *)
Inductive node := Own | ShadowNode (j n : nat) | ShadowStorage (j n : nat).
(** Parameters that take the value of a parameter, the flow of a node or the volume of a storage of another model. *)
Inductive param := Calc | OtherValue (j q : nat) | OtherFlow (j n : nat) | OtherVolume (j n : nat).

Record model := Model {
  nodes : list node; params : list param; scenarios : nat;
  first_volumes : list (list Q); first_mem : list Q;
  (* the values of the parameters, given those of the parameters that refer to other models *)
  calc : nat -> list (list Q) -> list (list Q) -> list (list Q) -> list Q -> list (list (option Q)) -> list (list (option Q));
  (* the flows that the solver commits: from previous flows, volumes, memory, parameters *)
  solve : nat -> list (list Q) -> list (list Q) -> list Q -> list (list (option Q)) -> list (list Q);
  (* the volumes and the memory after the timestep *)
  update : nat -> list (list Q) -> list (list Q) -> list Q -> list (list (option Q)) -> list (list Q) * list Q }.

Definition world := list state.
Definition at_model (w : world) (k : nat) : state := nth k w no_state.
Fixpoint put (k : nat) (s : state) (w : world) : world :=
  match w, k with
  | [], _ => []
  | _ :: r, O => s :: r
  | a :: r, S j => a :: put j s r
  end.

(** Entry by entry over two lists; [own] numbers the rows. *)
Definition rows {A} (m : model) (f : nat -> node -> list A) : list (list A) := map (fun i => f i (nth i (nodes m) Own)) (seq 0 (length (nodes m))).

(** Model.before, first part (_model.pyx:833-835): AbstractNode.before (_core.pyx:475-479) and the two shadows (1574-1580, 1592-1596). *)
Definition before_nodes (m : model) (w : world) (s : state) : state :=
  State (rows m (fun i nd => match nd with Own => repeat 0 (scenarios m) | ShadowNode j n | ShadowStorage j n => nth n (flow (at_model w j)) [] end))
        (rows m (fun i nd => match nd with Own => nth i (prev s) [] | ShadowNode j n | ShadowStorage j n => nth n (prev (at_model w j)) [] end))
        (rows m (fun i nd => match nd with ShadowStorage j n => nth n (vol (at_model w j)) [] | _ => nth i (vol s) [] end))
        (pars s) (mem s).

(** value of OtherModelParameterValueParameter 21-22, OtherModelNodeFlowParameter 79-80, OtherModelNodeStorageParameter 107-108, for all
    combinations (Parameter.calc_values, _parameters.pyx:71-76). *)
Definition refs (m : model) (w : world) : list (list (option Q)) :=
  map (fun p =>
    match p with
    | Calc => []
    | OtherValue j q => map (fun g => nth g (nth q (pars (at_model w j)) []) None) (seq 0 (scenarios m))
    | OtherFlow j n => map (fun g => nth_error (nth n (flow (at_model w j)) []) g) (seq 0 (scenarios m))
    | OtherVolume j n => map (fun g => nth_error (nth n (vol (at_model w j)) []) g) (seq 0 (scenarios m))
    end) (params m).
Definition choose (p : param) (mine theirs : list (option Q)) : list (option Q) := match p with Calc => mine | _ => theirs end.
Definition before (m : model) (t : nat) (w : world) (s : state) : state :=
  let s := before_nodes m w s in
  let r := refs m w in
  let c := calc m t (flow s) (prev s) (vol s) (mem s) r in
  State (flow s) (prev s) (vol s) (map (fun i => choose (nth i (params m) Calc) (nth i c []) (nth i r [])) (seq 0 (length (params m)))) (mem s).

(** Model.solve: the flows of the model's own nodes are committed. *)
Definition solved (m : model) (t : nat) (s : state) : state :=
  let f := solve m t (prev s) (vol s) (mem s) (pars s) in
  State (rows m (fun i nd => match nd with Own => nth i f [] | _ => nth i (flow s) [] end)) (prev s) (vol s) (pars s) (mem s).

(** Model.after (_model.pyx:851-860): AbstractNode.after (_core.pyx:491-492), Storage.after of its own storages, the components. *)
Definition after (m : model) (t : nat) (s : state) : state :=
  let vm := update m t (flow s) (vol s) (mem s) (pars s) in
  State (flow s) (flow s) (rows m (fun i nd => match nd with ShadowStorage _ _ => nth i (vol s) [] | _ => nth i (fst vm) [] end)) (pars s) (snd vm).

(** MultiModel._step, model.py:223-233, and the loop of MultiModel.run. *)
Definition step_model (ms : list model) (t : nat) (w : world) (k : nat) : world :=
  match nth_error ms k with
  | Some m => put k (after m t (solved m t (before m t w (at_model w k)))) w
  | None => w
  end.
Definition step (ms : list model) (w : world) (t : nat) : world := fold_left (step_model ms t) (seq 0 (length ms)) w.
Definition run (ms : list model) (T : nat) (w : world) : world := fold_left (step ms) (seq 0 T) w.

(** setup (AbstractNode.setup and reset, 461-473; Parameter.setup, _parameters.pyx:58-65) and reset; a shadow storage keeps its volume. *)
Definition zeros (m : model) : list (list Q) := repeat (repeat 0 (scenarios m)) (length (nodes m)).
Definition setup_model (m : model) : state :=
  State (zeros m) (zeros m) (rows m (fun i nd => match nd with ShadowStorage _ _ => repeat 0 (scenarios m) | _ => nth i (first_volumes m) [] end))
        (repeat (repeat None (scenarios m)) (length (params m))) (first_mem m).
Definition reset_model (m : model) (s : state) : state :=
  State (zeros m) (zeros m) (rows m (fun i nd => match nd with ShadowStorage _ _ => nth i (vol s) [] | _ => nth i (first_volumes m) [] end)) (pars s) (first_mem m).
Definition setup (ms : list model) : world := map setup_model ms.
Definition reset (ms : list model) (w : world) : world := map (fun ks => reset_model (fst ks) (snd ks)) (combine ms w).
