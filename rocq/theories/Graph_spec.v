(** Specification of declared dependencies, independent of the graph data structure: what the user
    has declared is the outcome of the add/remove calls, seen as a relation. *)
From Verif Require Import Base Paths Graph_model.

(** [live n c]: component [c] exists after [n] creations. *)
Definition live (n c : nat) : Prop := (1 <= c <= n)%nat.

(** State: number of created components and relation "x depends on y". *)
Definition dstate : Type := nat * (nat -> nat -> Prop).

Definition dstep (s : dstate) (o : gop) : dstate :=
  let (n, D) := s in
  match o with
  | New => (S n, D)
  | ChildrenAdd x (IComp y) => (n, fun a b => D a b \/ (a = x /\ b = y /\ live n x /\ live n y))
  | ParentsAdd y (IComp x) => (n, fun a b => D a b \/ (a = x /\ b = y /\ live n x /\ live n y))
  | ChildrenRemove x (IComp y) => (n, fun a b => D a b /\ ~ (a = x /\ b = y))
  | ParentsRemove y (IComp x) => (n, fun a b => D a b /\ ~ (a = x /\ b = y))
  | ChildrenClear x => (n, fun a b => D a b /\ a <> x)
  | ParentsClear y => (n, fun a b => D a b /\ b <> y)
  | _ => (n, D)
  end.

Definition dfold (ops : list gop) : dstate := fold_left dstep ops (0%nat, fun _ _ => False).
Definition created (ops : list gop) : nat := fst (dfold ops).
(** After the calls [ops], component [x] is declared to depend on component [y]. *)
Definition depends (ops : list gop) (x y : nat) : Prop := snd (dfold ops) x y.

(** The component operations of a history of model events. *)
Definition ops_of (es : list event) : list gop :=
  flat_map (fun e => match e with EOp o => [o] | _ => [] end) es.

(** [a] occurs before [b] in [l]. *)
Definition before (l : list nat) (a b : nat) : Prop :=
  exists l1 l2 l3, l = l1 ++ a :: l2 ++ b :: l3.

(** The order lists every existing component exactly once and puts dependencies first. *)
Definition good_order (ops : list gop) (l : list nat) : Prop :=
  NoDup l /\ (forall c, In c l <-> live (created ops) c) /\
  (forall x y, plus (depends ops) x y -> before l y x).
