(** What control curves mean, without reference to the code. *)
From Verif Require Import Base.
Local Open Scope Q_scope.

(** Storage level [pc] lies in band [i]: below curves 0..i-1, at or above curve [i] if there is one. *)
Definition in_band (curves : list Q) (pc : Q) (i : nat) : Prop :=
  (i <= length curves)%nat /\
  (forall j, (j < i)%nat -> pc < nth j curves 0) /\
  ((i < length curves)%nat -> nth i curves 0 <= pc).

Definition decreasing (l : list Q) : Prop := forall i, (S i < length l)%nat -> nth (S i) l 0 < nth i l 0.
Definition non_increasing (l : list Q) : Prop := forall i, (S i < length l)%nat -> nth (S i) l 0 <= nth i l 0.
Definition non_decreasing (l : list Q) : Prop := forall i, (S i < length l)%nat -> nth i l 0 <= nth (S i) l 0.

(** The point (x, v) lies on the line through (x1, y1) and (x0, y0). *)
Definition on_line (x0 y0 x1 y1 x v : Q) : Prop := v * (x0 - x1) == y0 * (x - x1) + y1 * (x0 - x).

Definition between (a b v : Q) : Prop := (a <= v /\ v <= b) \/ (b <= v /\ v <= a).

(** [F] is the integral, from 0, of the function that is [ys_i] on (b_i, b_{i+1}] with b = 0 :: xs and 0 elsewhere. *)
Definition integral_of_steps (xs ys : list Q) (F : Q -> Q) : Prop :=
  (forall x, x <= 0 -> F x == 0) /\
  (forall i a b, (i < length xs)%nat -> nth i (0 :: xs) 0 <= a -> a <= b -> b <= nth i xs 0 ->
     F b - F a == nth i ys 0 * (b - a)) /\
  (forall a b, last (0 :: xs) 0 <= a -> a <= b -> F b == F a).
