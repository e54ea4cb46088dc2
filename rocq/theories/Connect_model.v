(** Connecting and disconnecting nodes: nodes.py 91-196, the slots of Storage (391-418), PiecewiseLink (874-878), MultiSplitLink
    (1007-1015), BreakLink (1160-1166), DelayNode (1230-1234) and LossLink (1355-1359). *)
From Coq Require Export Strings.String.
From Verif Require Import Base ScenarioParams_model.
Local Open Scope nat_scope.
Local Open Scope list_scope.

(** A slot is given by a number or by a name. *)
Inductive slot := Num (z : Z) | Name (s : string).
Definition slot_eqb (a b : slot) : bool :=
  match a, b with Num x, Num y => Z.eqb x y | Name x, Name y => String.eqb x y | _, _ => false end.

(** Nodes are numbers.  What matters of a class is [iter_slots]. *)
Inductive kind :=
| Plain                                                                   (* Connectable.iter_slots, 94-107 *)
| Store (inputs outputs : list nat)                                       (* Storage and Reservoir *)
| Through (from to : nat)                                                 (* PiecewiseLink, BreakLink, DelayNode, LossLink: the nodes to connect from and to *)
| Split (names : list slot) (input : nat) (extra : list nat) (output : nat)  (* MultiSplitLink and RiverSplit *)
| Bare.                                                                   (* not Connectable: aggregated and virtual nodes, StorageInput, StorageOutput *)

Fixpoint index_of (s : slot) (names : list slot) : option nat :=
  match names with
  | [] => None
  | x :: r => if slot_eqb x s then Some 0 else option_map S (index_of s r)
  end.

(** [iter_slots(slot_name, is_connector)]: the nodes yielded, or [None] for an exception, which always comes before the first of them.
    A [raise StopIteration] in a generator (394, 410) is a RuntimeError.  [all_slots] is only taken by Storage. *)
Definition store_slots (children : list nat) (sl : option slot) (all : bool) : option (list nat) :=
  match children with
  | [] => None
  | _ =>
      match sl with
      | None => if all || Nat.eqb (List.length children) 1 then Some children else None
      | Some (Num z) => option_map (fun n => [n]) (at_z children z)
      | Some (Name _) => None
      end
  end.
Definition iter_slots (k : kind) (self : nat) (sl : option slot) (is_connector : bool) : option (list nat) :=
  match k with
  | Plain => match sl with None => Some [self] | Some _ => None end
  | Store inputs outputs => store_slots (if is_connector then inputs else outputs) sl false
  | Through from to => Some [if is_connector then from else to]
  | Split names input extra output =>
      if is_connector then
        match sl with
        | None => None
        | Some s => match index_of s names with
                    | None => None
                    | Some 0 => Some [input]
                    | Some (S i) => option_map (fun n => [n]) (nth_error extra i)
                    end
        end
      else Some [output]
  | Bare => None
  end.
(** The call in [_disconnect], 158-160: a TypeError where the keyword [all_slots] is not known. *)
Definition iter_slots_all (k : kind) (sl : option slot) (all : bool) : option (list nat) :=
  match k with
  | Store inputs outputs => store_slots outputs sl all
  | _ => None
  end.

(** The graphs of all models.  Simplified: since a node is in the graph of its own model only, the edges of all graphs are kept in one
    set. *)
Record world := World { model_of : nat -> nat; kind_of : nat -> kind; edges : list (nat * nat); dirty : nat -> bool }.

Definition edge_eqb (e f : nat * nat) : bool := Nat.eqb (fst e) (fst f) && Nat.eqb (snd e) (snd f).
Definition has_edge (w : world) (e : nat * nat) : bool := existsb (edge_eqb e) (edges w).
Definition with_edges (w : world) (es : list (nat * nat)) : world := World (model_of w) (kind_of w) es (dirty w).
Definition add_edge (w : world) (e : nat * nat) : world := if has_edge w e then w else with_edges w (edges w ++ [e]).
(** [remove_edge]: a NetworkXError if there is none. *)
Definition remove_edge (w : world) (e : nat * nat) : option world :=
  if has_edge w e then Some (with_edges w (filter (fun f => negb (edge_eqb e f)) (edges w))) else None.
Definition set_dirty (w : world) (m : nat) : world := World (model_of w) (kind_of w) (edges w) (fun x => Nat.eqb x m || dirty w x).

(** What a call leaves: the world, and whether it raised. *)
Inductive outcome := Returned (w : world) | Raised (w : world).
Definition left_by (o : outcome) : world := match o with Returned w | Raised w => w end.

(** 109-131.  [isinstance(node, Connectable)] is a kind other than [Bare]; [self] must be Connectable to have the method. *)
Definition connect (w : world) (self node : nat) (from_slot to_slot : option slot) : outcome :=
  match kind_of w self with
  | Bare => Raised w
  | ks =>
    if negb (Nat.eqb (model_of w self) (model_of w node)) then Raised w
    else match kind_of w node with
         | Bare => Raised w
         | kn =>
             match iter_slots ks self from_slot true, iter_slots kn node to_slot false with
             | Some l1, Some l2 =>
                 Returned (set_dirty (fold_left (fun w a => fold_left (fun w b => add_edge w (a, b)) l2 w) l1 w) (model_of w self))
             | _, _ => Raised w
             end
         end
  end.

(** 161-166: every slot is tried. *)
Fixpoint remove_slots (w : world) (self : nat) (l : list nat) (disconnected : bool) : world * bool :=
  match l with
  | [] => (w, disconnected)
  | b :: r => match remove_edge w (self, b) with
              | Some w' => remove_slots w' self r true
              | None => remove_slots w self r disconnected
              end
  end.
(** 152-173. *)
Definition disconnect_one (w : world) (self node : nat) (sl : option slot) (all : bool) : outcome :=
  match remove_edge w (self, node) with
  | Some w' => Returned (set_dirty w' (model_of w self))
  | None =>
      match iter_slots_all (kind_of w node) sl all with
      | None => Raised w
      | Some l =>
          let (w', disconnected) := remove_slots w self l false in
          if disconnected then Returned (set_dirty w' (model_of w self)) else Raised w'
      end
  end.
Fixpoint disconnect_each (w : world) (self : nat) (l : list nat) (sl : option slot) (all : bool) : outcome :=
  match l with
  | [] => Returned w
  | b :: r => match disconnect_one w self b sl all with
              | Returned w' => disconnect_each w' self r sl all
              | Raised w' => Raised w'
              end
  end.
Definition neighbors (w : world) (u : nat) : list nat := map snd (filter (fun e => Nat.eqb (fst e) u) (edges w)).
(** 133-150. *)
Definition disconnect (w : world) (self : nat) (node : option nat) (sl : option slot) (all : bool) : outcome :=
  match kind_of w self with
  | Bare => Raised w
  | _ => match node with
         | Some n => disconnect_one w self n sl all
         | None => disconnect_each w self (neighbors w self) sl all
         end
  end.

(** A program that goes on when a call raises. *)
Inductive op := Connect (u v : nat) (from_slot to_slot : option slot) | Disconnect (u : nat) (v : option nat) (sl : option slot) (all : bool).
Definition step (w : world) (o : op) : outcome :=
  match o with
  | Connect u v f t => connect w u v f t
  | Disconnect u v sl all => disconnect w u v sl all
  end.
Definition perform (w : world) (ops : list op) : world := fold_left (fun w o => left_by (step w o)) ops w.
