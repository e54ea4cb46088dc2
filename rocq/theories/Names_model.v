(** Model of the names of nodes and components: [pywr/_core.pyx] 385-396, [pywr/nodes.py] (constructors), [pywr/_model.pyx] 931-1064,
    [pywr/_component.pyx] 84-102.

    Python objects are numbers; a constructor takes the number of the new object first, because sub-nodes refer to it. *)
From Verif Require Import Base.
From Coq Require Export Strings.String.
From Coq Require Import Numbers.DecimalString.
Local Open Scope nat_scope.
Local Open Scope list_scope.

(** A node in [model.graph]: identity, name, parent. *)
Record node := Node { n_id : nat; n_name : string; n_parent : option nat }.
(** [model.graph.nodes()] in order of insertion; the next object number. *)
Record graph := Graph { g_nodes : list node; g_next : nat }.

Definition empty : graph := Graph [] 0.

(** _model.pyx 947-951 and 976-978: [keys], which hides nodes with a parent. *)
Definition is_top (n : node) : bool := match n_parent n with None => true | Some _ => false end.
Definition keys (g : graph) : list string := map n_name (filter is_top (g_nodes g)).

(** _core.pyx 390-396: [name in self.model.nodes.keys()]; also [name not in model.nodes] of the assertions (992-996). *)
Definition free (name : string) (g : graph) : bool := negb (existsb (String.eqb name) (keys g)).

(** Statements of a constructor: state afterwards, and whether it went through ([false]: an exception was raised). *)
Definition stmt := graph -> bool * graph.
Definition seqs (a b : stmt) : stmt := fun g => let (ok, g') := a g in if ok then b g' else (false, g').
Notation "a ;; b" := (seqs a b) (at level 61, right associativity).
Definition skip : stmt := fun g => (true, g).
Definition all (l : list stmt) : stmt := fold_right seqs skip l.

(** The setter of [name], or an assertion that a name is not used. *)
Definition check (name : string) : stmt := fun g => (free name g, g).
(** [model.graph.add_node]. *)
Definition add (id : nat) (name : string) (parent : option nat) : stmt :=
  fun g => (true, Graph (g_nodes g ++ [Node id name parent]) (g_next g)).
(** Runs [f] with the number of a new object. *)
Definition new (f : nat -> stmt) : stmt := fun g => f (g_next g) (Graph (g_nodes g) (S (g_next g))).

(** nodes.py 188-196 (NodeMeta.__call__) around 210-235: a node without sub-nodes. *)
Definition create_node (name : string) (parent : option nat) : stmt :=
  new (fun self => check name ;; add self name parent).

Definition decimal (n : nat) : string := NilEmpty.string_of_uint (Nat.to_uint n).
Local Open Scope string_scope.
Definition output_slot (n : nat) : string := "[output" ++ decimal n ++ "]".
Definition input_slot (n : nat) : string := "[input" ++ decimal n ++ "]".

(** nodes.py 350-389 Storage.__init__: own name, names of the slots, then the slots are added, then the node. *)
Definition create_storage (name : string) (outputs inputs : nat) : stmt :=
  new (fun self =>
    check name ;; 
    all (map (fun n => check (output_slot n)) (seq 0 outputs)) ;; all (map (fun n => check (input_slot n)) (seq 0 inputs)) ;;
    all (map (fun n => new (fun s => add s (output_slot n) (Some self))) (seq 0 outputs)) ;;
    all (map (fun n => new (fun s => add s (input_slot n) (Some self))) (seq 0 inputs)) ;;
    add self name None).

(** nodes.py 794-828 PiecewiseLink.__init__ up to the end: sub-nodes first, then the own name. *)
Definition piecewise_subnodes (self : nat) (name : string) (nsteps : nat) : stmt :=
  create_node (name ++ " Input") (Some self) ;; create_node (name ++ " Output") (Some self) ;; create_node (name ++ " Sub Output") (Some self) ;;
  all (map (fun i => create_node (name ++ " Sublink " ++ decimal i) (Some self)) (seq 0 nsteps)).
Definition create_piecewise (name : string) (nsteps : nat) : stmt :=
  new (fun self => piecewise_subnodes self name nsteps ;; check name ;; add self name None).

(** nodes.py 940-1002 MultiSplitLink.__init__; the aggregated node has no parent. *)
Definition create_multisplit (name : string) (nsteps extra : nat) (factors : bool) : stmt :=
  new (fun self =>
    piecewise_subnodes self name (nsteps + extra) ;; check name ;;
    all (map (fun i => create_node (name ++ " Extra Output " ++ decimal i) (Some self) ;; create_node (name ++ " Extra Input " ++ decimal i) (Some self)) (seq 0 extra)) ;;
    (if factors then create_node (name ++ " Agg") None else skip) ;;
    add self name None).

(** nodes.py 1107-1126 BreakLink.__init__; neither the storage nor the link has a parent. *)
Definition create_breaklink (name : string) : stmt :=
  new (fun self =>
    check (name ++ " (storage)") ;; check (name ++ " (link)") ;;
    create_storage (name ++ " (storage)") 1 1 ;; create_node (name ++ " (link)") None ;; check name ;; add self name None).

(** nodes.py 1199-1229 DelayNode.__init__ (the name of its parameter is assumed to be free). *)
Definition create_delay (name : string) : stmt :=
  new (fun self =>
    check (name ++ " Output") ;; check (name ++ " Input") ;;
    create_node (name ++ " Output") (Some self) ;; create_node (name ++ " Input") (Some self) ;; check name ;; add self name None).

(** nodes.py 1269-1293 LossLink.__init__; the aggregated node has no parent. *)
Definition create_loss (name : string) : stmt :=
  new (fun self =>
    check (name ++ " Output") ;; check (name ++ " Gross") ;; check (name ++ " Net") ;; check (name ++ " Aggregated") ;;
    create_node (name ++ " Output") (Some self) ;; create_node (name ++ " Gross") (Some self) ;; create_node (name ++ " Net") (Some self) ;;
    create_node (name ++ " Aggregated") None ;; check name ;; add self name None).

Local Close Scope string_scope.

(** Node classes. *)
Inductive cls := CNode | CStorage (outputs inputs : nat) | CPiecewise (nsteps : nat) | CMultiSplit (nsteps extra : nat) (factors : bool)
  | CBreak | CDelay | CLoss.
Definition construct (c : cls) (name : string) : stmt :=
  match c with
  | CNode => create_node name None
  | CStorage o i => create_storage name o i
  | CPiecewise n => create_piecewise name n
  | CMultiSplit n e f => create_multisplit name n e f
  | CBreak => create_breaklink name
  | CDelay => create_delay name
  | CLoss => create_loss name
  end.

(** _core.pyx 390-396 for a node that exists. *)
Definition rename (id : nat) (name : string) : stmt :=
  check name ;; (fun g => (true, Graph (map (fun n => if n_id n =? id then Node id name (n_parent n) else n) (g_nodes g)) (g_next g))).

(** _model.pyx 953-958 [NodeIterator.__getitem__], which does see nodes with a parent. *)
Definition lookup (name : string) (g : graph) : option node := find (fun n => String.eqb (n_name n) name) (g_nodes g).

(** _model.pyx 960-974 [NodeIterator.__delitem__] for a node object: the sub-nodes first, recursively. *)
Definition has_parent (id : nat) (n : node) : bool := match n_parent n with Some p => p =? id | None => false end.
Fixpoint remove (fuel : nat) (id : nat) (l : list node) : list node :=
  let l' := match fuel with
            | O => l
            | S fuel => fold_left (fun l n => remove fuel (n_id n) l) (filter (has_parent id) l) l
            end in
  filter (fun n => negb (n_id n =? id)) l'.
Definition delete (id : nat) (g : graph) : graph := Graph (remove (List.length (g_nodes g)) id (g_nodes g)) (g_next g).
(** [del model.nodes[name]]. *)
Definition delete_name (name : string) : stmt :=
  fun g => match lookup name g with Some n => (true, delete (n_id n) g) | None => (false, g) end.

Inductive operation := Create (c : cls) (name : string) | Rename (id : nat) (name : string) | Delete (id : nat) | DeleteName (name : string).
Definition perform (o : operation) : stmt :=
  match o with
  | Create c name => construct c name
  | Rename id name => rename id name
  | Delete id => fun g => (existsb (fun n => n_id n =? id) (g_nodes g), delete id g)
  | DeleteName name => delete_name name
  end.
(** A sequence of operations; those that raise are caught by the caller. *)
Definition perform_all : list operation -> graph -> graph := fold_left (fun g o => snd (perform o g)).

(** ** Components *)

(** A component in [model.component_graph]; names may be [None].  Parameters and recorders share the names. *)
Record component := Component { c_id : nat; c_name : option string }.

(** _component.pyx 97-102 with _model.pyx 127-128 and 1035-1037. *)
Definition component_free (name : option string) (l : list component) : bool :=
  match name with
  | None => true
  | Some s => negb (existsb (fun c => match c_name c with Some t => String.eqb s t | None => false end) l)
  end.
(** _component.pyx 84-91: the name is set, then the component is put in the graph.  [sound]: whether the rest of the constructor
    of the subclass goes through; the component stays in the graph if it does not.  Components are never taken out of the graph,
    so their number can serve as the identity of the next one. *)
Definition create_component (name : option string) (sound : bool) (l : list component) : bool * list component :=
  if component_free name l then (sound, l ++ [Component (List.length l) name]) else (false, l).
Definition rename_component (id : nat) (name : option string) (l : list component) : bool * list component :=
  if component_free name l then (true, map (fun c => if c_id c =? id then Component id name else c) l) else (false, l).
(** _model.pyx 1029-1032 with 127-137: [del model.parameters[name]] takes the object out of a list made for the occasion. *)
Definition lookup_component (name : string) (l : list component) : option component :=
  find (fun c => match c_name c with Some t => String.eqb t name | None => false end) l.
Definition delete_component (name : string) (l : list component) : bool * list component :=
  match lookup_component name l with Some _ => (true, l) | None => (false, l) end.

Inductive component_operation := CreateC (name : option string) (sound : bool) | RenameC (id : nat) (name : option string) | DeleteC (name : string).
Definition perform_component (o : component_operation) (l : list component) : bool * list component :=
  match o with
  | CreateC name sound => create_component name sound l
  | RenameC id name => rename_component id name l
  | DeleteC name => delete_component name l
  end.
Definition perform_components : list component_operation -> list component -> list component :=
  fold_left (fun l o => snd (perform_component o l)).
