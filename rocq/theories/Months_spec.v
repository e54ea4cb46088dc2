(** Data by calendar periods as daily data. *)
From Verif Require Import Base Months_model.
Local Open Scope Z_scope.
Local Open Scope list_scope.

(** The division of the days into periods is one. *)
Definition proper (c : calendar) : Prop :=
  (forall k, start c k < start c (k + 1)) /\ forall d k, of c d = k <-> start c k <= d < start c (k + 1).

(** Each value on every day of its period. *)
Fixpoint spread (c : calendar) (k : Z) (values : list (option Q)) : list (option Q) :=
  match values with
  | [] => []
  | v :: l => repeat v (Z.to_nat (start c (k + 1) - start c k)) ++ spread c (k + 1) l
  end.
