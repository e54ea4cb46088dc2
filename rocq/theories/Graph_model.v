(** The component graph of a model: /repo/pywr/_component.pyx (GraphInterface, Component.__init__)
    and /repo/pywr/_model.pyx (flatten_component_tree, find_orphaned_parameters, and the parts of
    setup/run/before that use the flattened tree).

    Components are identified by positive numbers; [ROOT] stands for the string ROOT_NODE
    (_component.pyx:7).  A component of another model is never used as an item here. *)
From Verif Require Import Base Paths.

Definition ROOT : nat := 0.

(** networkx.DiGraph [component_graph] (_model.pyx:112-113).  [cg_count] components exist, with the
    numbers 1..cg_count in order of creation; edges in order of insertion.  A DiGraph holds an edge at
    most once and iterates successors in order of insertion. *)
Record cgraph := { cg_count : nat; cg_edges : list (nat * nat) }.

Definition components (g : cgraph) : list nat := seq 1 (cg_count g).
Definition cnodes (g : cgraph) : list nat := ROOT :: components g.

Definition edge_eqb (e f : nat * nat) : bool := Nat.eqb (fst e) (fst f) && Nat.eqb (snd e) (snd f).
Definition has_edge (g : cgraph) (a b : nat) : bool := existsb (edge_eqb (a, b)) (cg_edges g).
Definition successors (g : cgraph) (a : nat) : list nat :=
  map snd (filter (fun e => Nat.eqb (fst e) a) (cg_edges g)).
Definition predecessors (g : cgraph) (b : nat) : list nat :=
  map fst (filter (fun e => Nat.eqb (snd e) b) (cg_edges g)).

Definition add_edge (g : cgraph) (a b : nat) : cgraph :=
  if has_edge g a b then g
  else {| cg_count := cg_count g; cg_edges := cg_edges g ++ [(a, b)] |}.

(** remove_edge raises NetworkXError when the edge is missing and then changes nothing; the
    exception itself does not matter here, so the graph is returned unchanged. *)
Definition remove_edge (g : cgraph) (a b : nat) : cgraph :=
  {| cg_count := cg_count g; cg_edges := filter (fun e => negb (edge_eqb (a, b) e)) (cg_edges g) |}.

(** What can be handed to children.add / parents.add: a Component or anything else (a list, a
    number, a node); the code ignores the latter (_component.pyx:19-20, 27-28). *)
Inductive item := IComp (c : nat) | IOther.

Inductive gop :=
| New                                (* Component.__init__, _component.pyx:84-91 *)
| ChildrenAdd (obj : nat) (it : item)
| ParentsAdd (obj : nat) (it : item)
| ChildrenRemove (obj : nat) (it : item)
| ParentsRemove (obj : nat) (it : item)
| ChildrenClear (obj : nat)
| ParentsClear (obj : nat).

Definition exists_c (g : cgraph) (c : nat) : bool := Nat.leb 1 c && Nat.leb c (cg_count g).

(** _component.pyx:18-39 and 84-91.  Operations on components that do not exist cannot be written in
    Python; they leave the graph alone. *)
Definition gstep (g : cgraph) (o : gop) : cgraph :=
  match o with
  | New =>
      let c := S (cg_count g) in
      add_edge {| cg_count := c; cg_edges := cg_edges g |} ROOT c
  | ChildrenAdd obj (IComp c) =>
      if exists_c g obj && exists_c g c then add_edge g c obj else g
  | ParentsAdd obj (IComp c) =>
      if exists_c g obj && exists_c g c then add_edge g obj c else g
  | ChildrenRemove obj (IComp c) =>
      if exists_c g obj && exists_c g c then remove_edge g c obj else g
  | ParentsRemove obj (IComp c) =>
      if exists_c g obj && exists_c g c then remove_edge g obj c else g
  | ChildrenAdd _ IOther | ParentsAdd _ IOther | ChildrenRemove _ IOther | ParentsRemove _ IOther => g
  | ChildrenClear obj =>
      (* _members of children: predecessors other than ROOT (line 44) *)
      if exists_c g obj
      then fold_left (fun h n => remove_edge h n obj)
                     (filter (fun n => negb (Nat.eqb n ROOT)) (predecessors g obj)) g
      else g
  | ParentsClear obj =>
      if exists_c g obj
      then fold_left (fun h n => remove_edge h obj n) (successors g obj) g
      else g
  end.

Definition gempty : cgraph := {| cg_count := 0; cg_edges := [] |}.
Definition grun (ops : list gop) : cgraph := fold_left gstep ops gempty.

(** ** flatten_component_tree, _model.pyx:883-904 *)

(** `len(list(nx.simple_cycles(G))) != 0` (lines 890-892) or a self-loop (lines 894-895): some node has
    an edge to itself or a successor from which a simple path leads back.  The number of cycles that is
    printed in the message is not modelled. *)
Definition has_cycle (g : cgraph) : bool :=
  existsb (fun n =>
    existsb (fun v => Nat.eqb v n ||
                      match sp (successors g) n (length (cnodes g)) [v] v with [] => false | _ => true end)
            (successors g n)) (cnodes g).

(** nx.dfs_postorder_nodes with the finished nodes consed in front, i.e. already reversed (line 903).
    networkx keeps one set `visited`; it is the union of the finished nodes [out] and of the nodes on
    the stack [stk].  [fuel] bounds the depth of the stack. *)
Fixpoint dfs (succ : nat -> list nat) (fuel : nat) (stk : list nat) (n : nat) (out : list nat)
  : list nat :=
  match fuel with
  | O => out
  | S f => if memb n stk || memb n out then out
           else n :: fold_left (fun o s => dfs succ f (n :: stk) s o) (succ n) out
  end.

(** Lines 897-903: post-order from ROOT without ROOT, reversed. *)
Definition flat_order (g : cgraph) : list nat :=
  filter (fun n => negb (Nat.eqb n ROOT))
         (dfs (successors g) (S (length (cnodes g))) [] ROOT []).

Arguments has_cycle : simpl never.
Arguments flat_order : simpl never.

(** ** Model state as far as it concerns the component tree *)
Record mstate := {
  ms_graph : cgraph;
  ms_flat : option (list nat);   (* component_tree_flat *)
  ms_dirty : bool                (* model.dirty or timestepper.dirty *)
}.

(** Result of a call that flattens: [None] = ModelStructureError. *)
Definition flatten (rebuild : bool) (s : mstate) : mstate * option (list nat) :=
  match ms_flat s, rebuild with
  | Some l, false => (s, Some l)
  | _, _ =>
      if has_cycle (ms_graph s)
      then ({| ms_graph := ms_graph s; ms_flat := Some []; ms_dirty := ms_dirty s |}, None)
      else let l := flat_order (ms_graph s) in
           ({| ms_graph := ms_graph s; ms_flat := Some l; ms_dirty := ms_dirty s |}, Some l)
  end.

Inductive event :=
| EOp (o : gop)          (* user code touching components; does not set model.dirty *)
| EDirty                 (* connect/disconnect, new scenario, new timestepper, ...: model.dirty = True *)
| ESetup                 (* model.setup() *)
| ERun.                  (* model.run() *)

(** Model.setup (684-746, only the part about the tree): flatten with rebuild, then dirty := False. *)
Definition msetup (s : mstate) : mstate * option (list nat) :=
  let (s', r) := flatten true s in
  match r with
  | None => (s', None)
  | Some l => ({| ms_graph := ms_graph s'; ms_flat := ms_flat s'; ms_dirty := false |}, Some l)
  end.

(** Model.run (637-655): setup when dirty, reset (flatten without rebuild, line 787) otherwise; every
    later phase iterates over flatten_component_tree(rebuild=False).  The second component is the order
    in which components are called, or [None] if ModelStructureError stops the run. *)
Definition mrun (s : mstate) : mstate * option (list nat) :=
  if ms_dirty s then msetup s else flatten false s.

Definition mevent (s : mstate) (e : event) : mstate :=
  match e with
  | EOp o => {| ms_graph := gstep (ms_graph s) o; ms_flat := ms_flat s; ms_dirty := ms_dirty s |}
  | EDirty => {| ms_graph := ms_graph s; ms_flat := ms_flat s; ms_dirty := true |}
  | ESetup => fst (msetup s)
  | ERun => fst (mrun s)
  end.

(** Model.__init__ (84, 112-131): dirty, then reset() flattens the empty graph. *)
Definition minit : mstate :=
  fst (flatten false {| ms_graph := gempty; ms_flat := None; ms_dirty := true |}).

Definition mhistory (es : list event) : mstate := fold_left mevent es minit.

(** ** One timestep of parameter evaluation: the second loop of Model.before, _model.pyx:844-848.
    [F c] computes the new value of component [c] from the current values of the components it reads;
    [rd c] lists those. Non-parameters keep their value, which is covered by a constant [F]. *)
Definition values := nat -> Q.
Definition set_value (v : values) (c : nat) (x : Q) : values := fun d => if Nat.eqb d c then x else v d.
Definition calc_all (rd : nat -> list nat) (F : nat -> list Q -> Q) (order : list nat) (v : values) : values :=
  fold_left (fun w c => set_value w c (F c (map w (rd c)))) order v.

(** ** Constructors that take components: which GraphInterface calls they make, what they read.
    Numeric arguments are wrapped in ConstantParameter before, so every argument is a component here. *)
Inductive ctor :=
| CAggregated (ps : list nat)                  (* AggregatedParameter / AggregatedIndexParameter,
                                                  parameters/_parameters.pyx:1454-1459, 1574-1579 *)
| CIndexedArray (ix : nat) (ps : list nat)     (* IndexedArrayParameter 1279-1294 *)
| CDivision (a b : nat)                        (* DivisionParameter 1698-1725 *)
| COne (p : nat)                               (* Negative/Max/NegativeMax/Min/NegativeMin/Offset 1750-1901,
                                                  PiecewiseIntegral 2062-2065, Polynomial1D/2D
                                                  (_polynomial.pyx:57-58,146), InterpolatedParameter
                                                  (parameters.py:168-174 through parameter_property) *)
| CTwo (p q : nat)                             (* InterpolatedQuadrature (parameters.py:303-310) *)
| CScaledProfile (p : nat)                     (* parameters.py:103-108, through profile.parents *)
| CScenarioWrapper (ps : list nat)             (* parameters.py:377-389 *)
| CControlCurve (ccs ps : list nat)            (* BaseControlCurve control_curves setter
                                                  (_control_curves.pyx:48-68), Interpolated/ControlCurve
                                                  parameters (152-161, 428-438), ControlCurveIndex 323-343 *)
| CThreshold (th : list nat) (x : list nat)    (* AbstractThreshold.threshold setter (_thresholds.pyx:123-132),
                                                  with ParameterThreshold (302-305) and RecorderThreshold
                                                  (329-333) adding the compared component *)
| CMultipleThresholdIndex (ths : list nat)     (* _thresholds.pyx:198-210 *)
| CMultipleThresholdParameterIndex (p : nat) (ths : list nat). (* 250-263 *)

(** GraphInterface calls made by the constructor of component [c]. *)
Definition ctor_calls (c : nat) (k : ctor) : list gop :=
  match k with
  | CAggregated ps => map (fun p => ChildrenAdd c (IComp p)) ps
  | CIndexedArray ix ps =>
      ChildrenAdd c (IComp ix) :: map (fun p => ChildrenAdd c (IComp p)) ps ++ [ChildrenAdd c (IComp ix)]
  | CDivision a b => [ChildrenAdd c (IComp a); ChildrenAdd c (IComp b)]
  | COne p => [ChildrenAdd c (IComp p)]
  | CTwo p q => [ChildrenAdd c (IComp p); ChildrenAdd c (IComp q)]
  | CScaledProfile p => [ParentsAdd p (IComp c)]
  | CScenarioWrapper ps => map (fun p => ChildrenAdd c (IComp p)) ps
  | CControlCurve ccs ps => map (fun p => ParentsAdd p (IComp c)) ccs ++ map (fun p => ParentsAdd p (IComp c)) ps
  | CThreshold th x => map (fun p => ChildrenAdd c (IComp p)) th ++ map (fun p => ChildrenAdd c (IComp p)) x
  | CMultipleThresholdIndex ths =>
      (* `for threshold in self.thresholds: self.children.add(thresholds)`: the argument is the list *)
      map (fun _ => ChildrenAdd c IOther) ths
  | CMultipleThresholdParameterIndex p ths =>
      ChildrenAdd c (IComp p) :: map (fun _ => ChildrenAdd c IOther) ths
  end.

(** Components whose values the class may read in calc_values/value/index. *)
Definition ctor_reads (k : ctor) : list nat :=
  match k with
  | CAggregated ps => ps
  | CIndexedArray ix ps => ix :: ps
  | CDivision a b => [a; b]
  | COne p => [p]
  | CTwo p q => [p; q]
  | CScaledProfile p => [p]
  | CScenarioWrapper ps => ps
  | CControlCurve ccs ps => ccs ++ ps
  | CThreshold th x => th ++ x
  | CMultipleThresholdIndex ths => ths
  | CMultipleThresholdParameterIndex p ths => p :: ths
  end.

(** Building a model out of constructor calls: each creates the next component. *)
Definition build_ops (ks : list (option ctor)) : list gop :=
  flat_map (fun ik => New :: match snd ik with None => [] | Some k => ctor_calls (fst ik) k end)
           (combine (seq 1 (length ks)) ks).

(** DivisionParameter.numerator setter, _parameters.pyx:1708-1714: remove the old one, add the new. *)
Definition division_set_numerator (c old new : nat) : list gop :=
  [ParentsRemove old (IComp c); ChildrenAdd c (IComp new)].

(** ** find_orphaned_parameters, _model.pyx:906-925.  [isparam] tells parameters from recorders,
    [node_comps] are the components the nodes expose through `components` (_core.pyx:361-377). *)
Definition orphans (g : cgraph) (isparam : nat -> bool) (node_comps : list nat) : list nat :=
  let visited := filter (fun c => negb (Nat.eqb (length (successors g c)) 0)) (components g) ++ node_comps in
  filter (fun c => isparam c && negb (memb c visited)) (components g).
