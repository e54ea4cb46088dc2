(** Which nodes the slots of a node stand for. *)
From Verif Require Import Base Connect_model.
Local Open Scope nat_scope.
Local Open Scope list_scope.

(** [l[z]], a negative number counting from the end. *)
Definition item {A} (l : list A) (z : Z) (a : A) : Prop :=
  ((0 <= z)%Z /\ nth_error l (Z.to_nat z) = Some a) \/ ((z < 0)%Z /\ nth_error (rev l) (Z.to_nat (- z - 1)) = Some a).
Definition one_of (children : list nat) (s : option slot) (a : nat) : Prop :=
  match s with None => children = [a] | Some (Num z) => item children z a | Some (Name _) => False end.

(** Connections from slot [s] of the node [u] are edges from [a]. *)
Definition source (k : kind) (u : nat) (s : option slot) (a : nat) : Prop :=
  match k with
  | Plain => s = None /\ a = u
  | Store inputs _ => one_of inputs s a
  | Through from _ => a = from
  | Split names input extra _ =>
      exists n x, s = Some n /\ nth_error names x = Some n /\ (forall y, y < x -> nth_error names y <> Some n) /\ nth_error (input :: extra) x = Some a
  | Bare => False
  end.
(** Connections to slot [s] of the node [v] are edges to [b]. *)
Definition target (k : kind) (v : nat) (s : option slot) (b : nat) : Prop :=
  match k with
  | Plain => s = None /\ b = v
  | Store _ outputs => one_of outputs s b
  | Through _ to => b = to
  | Split _ _ _ output => b = output
  | Bare => False
  end.

Definition same_but_edges (w w' : world) : Prop := model_of w' = model_of w /\ kind_of w' = kind_of w.

(** The nodes inside a node are in the same model. *)
Definition inner (k : kind) : list nat :=
  match k with
  | Plain | Bare => []
  | Store i o => i ++ o
  | Through a b => [a; b]
  | Split _ i e o => i :: e ++ [o]
  end.
Definition housed (w : world) : Prop := forall u x, In x (inner (kind_of w u)) -> model_of w x = model_of w u.

(** The calls of a program do not name the nodes inside the node [self], and no other node has them as slots. *)
Definition names (o : op) : list nat := match o with Connect u v _ _ => [u; v] | Disconnect u v _ _ => u :: match v with Some v => [v] | None => [] end end.
Definition leaves_alone (w : world) (self : nat) (inside : nat -> Prop) (ops : list op) : Prop :=
  (forall o n, In o ops -> In n (names o) -> ~ inside n) /\
  (forall n s a, n <> self -> ~ inside n -> source (kind_of w n) n s a \/ target (kind_of w n) n s a -> ~ inside a).
