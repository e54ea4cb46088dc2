(** Segments of a solution vector. *)
From Verif Require Import Base.

(** [l] is cut into consecutive pieces of the given lengths. *)
Inductive pieces {A} : list A -> list nat -> list (list A) -> Prop :=
| pieces_nil : pieces [] [] []
| pieces_cons x l n ns ps : length x = n -> pieces l ns ps -> pieces (x ++ l) (n :: ns) (x :: ps).

(** [z] is an integer nearest to [q]. *)
Definition nearest (q : Q) (z : Z) : Prop := - (1 # 2) <= q - inject_Z z <= 1 # 2.
