(** Piecewise linear interpolation, told by neighbouring points; the order in which the points are given does not matter. *)
From Verif Require Import Base.
Local Open Scope Q_scope.
Local Open Scope list_scope.

Definition neighbours (pts : list (Q * Q)) (p q : Q * Q) : Prop :=
  In p pts /\ In q pts /\ fst p < fst q /\ forall r, In r pts -> fst r <= fst p \/ fst q <= fst r.
(** Between two neighbours, [w] divides their values as [v] divides their positions. *)
Definition divides (p q : Q * Q) (v w : Q) : Prop :=
  fst p <= v <= fst q /\ w * (fst q - fst p) == snd p * (fst q - v) + snd q * (v - fst p).
(** No two points at the same place. *)
Definition different_x (pts : list (Q * Q)) : Prop := ForallOrdPairs (fun p q => ~ fst p == fst q) pts.
Definition within (pts : list (Q * Q)) (v : Q) : Prop := exists p q, In p pts /\ In q pts /\ fst p <= v <= fst q.
Definition increasing (pts : list (Q * Q)) : Prop := forall p q, In p pts -> In q pts -> fst p < fst q -> snd p < snd q.
