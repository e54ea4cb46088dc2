(** What data say about timesteps. *)
From Verif Require Import Base.
Local Open Scope Z_scope.
Local Open Scope list_scope.

(** The known values of the data periods (of [m] days from day [d0] on) that start in the [n] days from day [t] on. *)
Definition data_of (d0 m : Z) (values : list (option Q)) (t n : Z) : list Q :=
  flat_map (fun i => match nth i values None with Some v => [v] | None => [] end)
           (filter (fun i => (t <=? d0 + m * Z.of_nat i) && (d0 + m * Z.of_nat i <? t + n)) (seq 0 (length values))).

Definition average (l : list Q) : Q := (qsum l / inject_Z (Z.of_nat (length l)))%Q.
