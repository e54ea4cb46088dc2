(** BreakLink, nodes.py 1074-1171: the nodes it consists of. *)
From Verif Require Import Base LP_model Sys_model Connect_model.
Local Open Scope nat_scope.
Local Open Scope list_scope.

(** The node itself, the Link, the Storage of volume zero, and its StorageOutput and StorageInput (1106-1121). *)
Record breaklink := BreakLink { b_self : nat; b_link : nat; b_store : nat; b_out : nat; b_in : nat }.

(** What the constructor adds to the graph: [self.storage.connect(self.link)], 1119, an edge from the StorageInput; the slots 1160-1166. *)
Definition new_breaklink (w : world) (b : breaklink) : world :=
  let k := fun n => if Nat.eqb n (b_self b) then Through (b_link b) (b_out b)
                    else if Nat.eqb n (b_link b) then Plain
                    else if Nat.eqb n (b_store b) then Store [b_in b] [b_out b]
                    else if Nat.eqb n (b_out b) || Nat.eqb n (b_in b) then Bare else kind_of w n in
  add_edge (World (model_of w) k (edges w) (dirty w)) (b_in b, b_link b).
(** The Link that it is to replace, under the same name. *)
Definition new_link (w : world) (n : nat) : world :=
  World (model_of w) (fun m => if Nat.eqb m n then Plain else kind_of w m) (edges w) (dirty w).

(** [after], 1168-1171: the node reports the flow of its link (its own flow is zero until then, as it is on no route). *)
Definition reported (b : breaklink) (fl : nat -> Q) (n : nat) : Q := if Nat.eqb n (b_self b) then (fl n + fl (b_link b))%Q else fl n.
