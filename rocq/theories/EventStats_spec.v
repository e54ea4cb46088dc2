(** Sums and extremes over the timesteps in which a scenario is triggered. *)
From Verif Require Import Base Events_spec.
Local Open Scope nat_scope.

Section Spec.
  Variables (n : nat) (trig : nat -> bool).
  Definition triggered_steps : list nat := filter trig (seq 0 n).
  Definition total (f : nat -> Q) : Q := qsum (map f triggered_steps).
  Definition never : Prop := forall k, k < n -> trig k = false.
End Spec.

(** Timestep [k] takes [len k] whole days. *)
Definition whole_days (time : nat -> Z) (len : nat -> Z) : Prop := forall k, (time (S k) = time k + 86400 * len k)%Z.
Definition days (len : nat -> Z) (k : nat) : Q := inject_Z (len k).

Definition greatest (v : Q) (l : list Q) : Prop := (exists w, In w l /\ w == v)%Q /\ forall w, In w l -> (w <= v)%Q.
Definition least (v : Q) (l : list Q) : Prop := (exists w, In w l /\ w == v)%Q /\ forall w, In w l -> (v <= w)%Q.
