(** Model.check (/repo/pywr/_model.pyx:163-174) with iteration over Model.nodes (NodeIterator, 931-951 and 1000-1012) and the check methods of
    nodes (_core.pyx:497-498, nodes.py:237-242, 420-421, 484-489, 574-579).  Model.check_graph is that of Routes_model.v, Model.find_orphaned_parameters that of
    Graph_model.v. *)
From Verif Require Import Base Routes_model.
From Verif Require Graph_model.
Local Open Scope nat_scope.
Local Open Scope list_scope.

(** node.cost: a number, not-a-number, or a parameter (_core.pyx:1076-1086). *)
Inductive cost := Number (q : Q) | NotANumber | OfParameter (p : nat).

Record model := Model {
  m_net : net;
  m_parent : nat -> option nat;             (* node.parent *)
  m_virtual : nat -> bool;                  (* VirtualStorage and its subclasses, RollingVirtualStorage *)
  m_cost : nat -> cost;
  m_ops : list Graph_model.gop;             (* what happened to the component graph *)
  m_isparam : nat -> bool;
  m_referred : list nat                     (* components of nodes *)
}.

(** NodeIterator._nodes, 946-950. *)
Definition shown (M : model) : list nat := filter (fun n => match m_parent M n with None => true | Some _ => false end) (n_nodes (m_net M)).

(** A NodeIterator: self.position, and self.nodes once it is there; `length` is the length of self.nodes. *)
Record iter := Iter { position : nat; listed : list nat }.
Definition new_iter : iter := Iter 0 [].
(** next, 1004-1012; [visible]: what _nodes gives at the time of the call.  [None]: StopIteration. *)
Definition next (visible : list nat) (it : iter) : option nat * iter :=
  let it := if position it =? 0 then Iter 0 visible else it in
  match nth_error (listed it) (position it) with
  | Some n => (Some n, Iter (S (position it)) (listed it))
  | None => (None, it)
  end.

(** `for node in iterator: body`, with [body] telling which nodes raise; the result is the node that raised. *)
Fixpoint for_each (fuel : nat) (visible : list nat) (raises : nat -> bool) (it : iter) : option nat :=
  match fuel with
  | O => None
  | S fuel => match next visible it with
              | (None, _) => None
              | (Some n, it') => if raises n then Some n else for_each fuel visible raises it'
              end
  end.

(** `self.cost not in (0.0, None)`: [true] = NotImplementedError.  The other check methods do nothing. *)
Definition check_raises (M : model) (n : nat) : bool :=
  m_virtual M n && match m_cost M n with Number q => negb (qeqb q 0) | NotANumber => true | OfParameter _ => true end.

Inductive outcome := CostError (n : nat) | StructureError | Passed (warned : bool).

(** The loop ends after at most as many rounds as there are nodes and one more. *)
Definition check (triv : bool) (M : model) : outcome :=
  match for_each (S (length (n_nodes (m_net M)))) (shown M) (check_raises M) new_iter with
  | Some n => CostError n
  | None =>
      if check_graph triv (m_net M)
      then Passed (match Graph_model.orphans (Graph_model.grun (m_ops M)) (m_isparam M) (m_referred M) with [] => false | _ => true end)
      else StructureError
  end.

(** A series of calls of next on one iterator, the graph having the visible nodes [graphs i] at the i-th. *)
Fixpoint series (graphs : list (list nat)) (it : iter) : list (option nat) :=
  match graphs with
  | [] => []
  | g :: gs => let (r, it') := next g it in r :: series gs it'
  end.
