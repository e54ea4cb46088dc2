(** Nodes of a document are created on demand: /repo/pywr/_model.pyx:407-412, 442-444, 452-454, 481-494 (load_from_dict, pre_load_node, finalise_node), 951-956 (NodeIterator.__getitem__),
    /repo/pywr/nodes.py:43-91 (Loadable), 194-201 (NodeMeta.__call__), /repo/pywr/_core.pyx:385-394 (the setter of names).

    Simplification: an entry of the document is given by what loading it needs to know of its class; the arguments of constructors are the subject of NodeArgs_model.v. *)
From Coq Require Import Strings.String.
From Verif Require Import Base Documents_model.
Local Open Scope string_scope.
Local Open Scope nat_scope.
Local Open Scope list_scope.

(** One entry of "nodes", after "name" and "type". *)
Record entry := {
  e_known : bool;                  (* the registry has a class for "type", _model.pyx:488 *)
  e_refs : list string;            (* the names in the attributes of __node_attributes__, in the order of the document (nodes.py:59-65) *)
  e_subs : list (string * bool);   (* nodes its constructor makes; true if they have no parent (BreakLink, nodes.py:1110-1118) *)
  e_good : bool }.                 (* the constructor goes through with the other arguments *)

(** A node of `model.graph`: made from an entry, or by the constructor of another node (with or without a parent). *)
Inductive origin := FromEntry | Part (top : bool).
Definition graph := list (string * origin).

Definition is_top (o : origin) : bool := match o with FromEntry => true | Part t => t end.
(** `model.nodes[name]` looks at every node, children included; the first one counts. *)
Definition lookup (n : string) (g : graph) : option origin := get n g.
(** `name in model.nodes.keys()`, without children; the setter of names raises ValueError. *)
Definition taken (g : graph) (n : string) : bool := existsb (fun p => String.eqb (fst p) n && is_top (snd p)) g.

(** nodes.py:75 `cls(model=model, **non_param_data)`: the nodes it makes come first, the node itself is added when its constructor is through (194-201). *)
Definition construct (n : string) (e : entry) (g : graph) : option graph :=
  let parts := map (fun s => (fst s, Part (snd s))) (e_subs e) in
  if e_good e && negb (existsb (taken g) (map fst (e_subs e))) && negb (taken (g ++ parts) n)
  then Some (g ++ parts ++ [(n, FromEntry)]) else None.

(** `nodes_to_load`, and what loading leaves behind: the graph and the entries whose "type" was popped. *)
Definition document := dict entry.
Definition state : Type := graph * list string.
Inductive outcome (A : Type) := Done (a : A) | Fails | Unfinished.
Arguments Done {A}. Arguments Fails {A}. Arguments Unfinished {A}.

Definition mem (n : string) (l : list string) : bool := existsb (String.eqb n) l.

Fixpoint each (f : string -> state -> outcome state) (l : list string) (st : state) : outcome state :=
  match l with
  | [] => Done st
  | n :: l => match f n st with Done st => each f l st | o => o end
  end.

(** _model.pyx:481-490; [fuel] bounds the depth of the recursion through pre_load, Unfinished is its exhaustion. *)
Fixpoint pre_load_node (doc : document) (fuel : nat) (n : string) (st : state) : outcome state :=
  match fuel with
  | 0 => Unfinished
  | S fuel =>
      match lookup n (fst st) with
      | Some _ => Done st
      | None =>
          match get n doc with
          | None => Fails                                                   (* KeyError *)
          | Some e =>
              if mem n (snd st) then Fails                                  (* node_data.pop('type') *)
              else if negb (e_known e) then Fails                           (* node_registry[node_type] *)
              else match each (pre_load_node doc fuel) (e_refs e) (fst st, n :: snd st) with
                   | Done st' => match construct n e (fst st') with Some g => Done (g, snd st') | None => Fails end
                   | o => o
                   end
          end
      end
  end.

(** 492-494: only nodes made by pre_load have parameters to load; for others `self.__parameters_to_load` is None or missing. *)
Definition finalise_node (g : graph) (n : string) : bool := match lookup n g with Some FromEntry => true | _ => false end.

(** 442-444, 452-454.  Any depth of recursion beyond the number of entries does. *)
Definition load (doc : document) : outcome graph :=
  match each (pre_load_node doc (S (List.length doc))) (map fst doc) ([], []) with
  | Done (g, _) => if forallb (finalise_node g) (map fst doc) then Done g else Fails
  | Fails => Fails
  | Unfinished => Unfinished
  end.
