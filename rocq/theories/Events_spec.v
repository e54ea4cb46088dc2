(** Maximal triggered periods. *)
From Verif Require Import Base.
Local Open Scope nat_scope.

Section Spec.
  (** Whether each of the [n] timesteps is triggered. *)
  Variables (n : nat) (trig : nat -> bool).

  (** Timesteps a, a+1, ..., b-1 are triggered, the ones next to them are not (or do not exist). *)
  Definition maximal_period (a b : nat) : Prop :=
    a < b <= n /\ (forall j, a <= j < b -> trig j = true) /\
    (a = 0 \/ trig (a - 1) = false) /\ (b = n \/ trig b = false).
End Spec.
