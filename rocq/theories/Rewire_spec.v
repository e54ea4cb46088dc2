(** What the declared dependencies of components should be. *)
From Verif Require Import Base Paths Graph_model Graph_spec Rewire_model.
Local Open Scope nat_scope.
Local Open Scope list_scope.

(** Attribute [i] of [c] holds [d]; [c] holds [d]. *)
Definition holds_at (s : rstate) (c i d : nat) : Prop := exists sl, nth_error (here s c) i = Some sl /\ In (IComp d) (s_items sl).
Definition holds (s : rstate) (c d : nat) : Prop := exists i, holds_at s c i d.
(** All components [c] holds, as often as it does. *)
Definition comps (l : list item) : list nat := flat_map (fun it => match it with IComp d => [d] | IOther => [] end) l.
Definition held (s : rstate) (c : nat) : list nat := flat_map (fun sl => comps (s_items sl)) (here s c).
(** Nothing is held twice by a component. *)
Definition once (s : rstate) : Prop := forall c, NoDup (held s c).

(** What can be written in Python: components exist before they are given to others, and attributes are those of the class. *)
Definition exist (s : rstate) (l : list nat) : Prop := Forall (live (List.length (r_slots s))) l.
Definition possible (s : rstate) (a : act) : Prop :=
  match a with
  | Create slots => exist s (flat_map (fun sl => comps (s_items sl)) slots)
  | Assign c i v => exist s (c :: comps v) /\ nth_error (here s c) i <> None
  | Append c i d | Drop c i d => exist s [c; d]
  end.
(** Attributes without a setter are left as the constructor made them. *)
Definition by_setter (s : rstate) (a : act) : Prop :=
  match a with
  | Assign c i v => exists st old, nth_error (here s c) i = Some (Slot st old) /\ (st = Strict \/ st = Truthy \/ st = Curves)
  | _ => True
  end.

(** States that are reached without ever holding a component twice; [P]: a further condition on them. *)
Inductive reached (P : rstate -> Prop) : rstate -> Prop :=
| Start : reached P (RS [] [])
| Step s a s' r : reached P s -> P s -> possible s a -> by_setter s a -> rstep s a = (s', r) -> once s' -> reached P s'.

(** Only attribute [i] of [c] has changed; it is now [sl]. *)
Definition now_holds (s s' : rstate) (c i : nat) (sl : slot) : Prop :=
  nth_error (here s' c) i = Some sl /\
  forall c' j, (c', j) <> (c, i) -> nth_error (here s' c') j = nth_error (here s c') j.
(** There is no aggregated parameter without members. *)
Definition no_empty (s : rstate) : Prop := forall c, here s c <> [Slot Members []].

(** A program that can be written, without the other conditions, and where it leads. *)
Fixpoint program (s : rstate) (l : list act) : Prop := match l with [] => True | a :: l => possible s a /\ program (fst (rstep s a)) l end.
Definition run (l : list act) : rstate := fold_left (fun s a => fst (rstep s a)) l (RS [] []).
