(** Sub-nodes. *)
From Verif Require Import Base Names_model.
Local Open Scope nat_scope.

(** [n] is object [a], or a sub-node of it, directly or through other nodes of the list. *)
Inductive part_of (l : list node) (a : nat) : node -> Prop :=
| part_self n : n_id n = a -> part_of l a n
| part_child n : n_parent n = Some a -> part_of l a n
| part_deeper n m : n_parent n = Some (n_id m) -> In m l -> part_of l a m -> part_of l a n.
