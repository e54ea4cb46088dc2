(** Specification vocabulary for scenario combinations. *)
From Verif Require Import Base.
Local Open Scope Z_scope.

(** Lexicographic order of tuples of one length induced by an order on the entries. *)
Inductive lex {A} (R : A -> A -> Prop) : list A -> list A -> Prop :=
| lex_head x y l m : R x y -> lex R (x :: l) (y :: m)
| lex_tail x l m : lex R l m -> lex R (x :: l) (x :: m).

(** Product of sizes. *)
Fixpoint nprod (l : list nat) : nat :=
  match l with [] => 1%nat | n :: r => (n * nprod r)%nat end.

(** Position meant by a Python index [x] into a sequence of length [n]: negative ones count from the end. *)
Definition from_end (n x : Z) : Z := if x <? 0 then x + n else x.

(** [x] is selected from [0..n-1] by the slice [a:b:k]. *)
Definition sliced (n : Z) (a b : option Z) (k x : Z) : Prop :=
  0 <= x < n /\
  (0 < k -> match b with Some b => x < from_end n b | None => True end /\
            exists j, 0 <= j /\ x = match a with Some a => Z.max 0 (from_end n a) | None => 0 end + j * k) /\
  (k < 0 -> match b with Some b => from_end n b < x | None => True end /\
            exists j, 0 <= j /\ x = match a with Some a => Z.min (n - 1) (from_end n a) | None => n - 1 end + j * k).
