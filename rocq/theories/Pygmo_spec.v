(** What pygmo makes of a fitness vector (its documented convention): the first [nobj] entries are objectives, to be minimised, the
    next [nec] entries are equality constraints, satisfied by 0, and the last [nic] entries are inequality constraints, satisfied by values
    that are not positive.  NaN satisfies nothing. *)
From Verif Require Import Base LP_model.

Definition satisfied_eq (v : option ext) : Prop := match v with Some (Fin x) => x == 0 | _ => False end.
Definition satisfied_ineq (v : option ext) : Prop := match v with Some (Fin x) => x <= 0 | Some NInf => True | _ => False end.

Definition accepted (nobj nec nic : nat) (f : list (option ext)) : Prop :=
  exists objs eqs ineqs, f = objs ++ eqs ++ ineqs /\ length objs = nobj /\ length eqs = nec /\ length ineqs = nic /\
    Forall satisfied_eq eqs /\ Forall satisfied_ineq ineqs.

(** [a] is at most [b], both numbers or infinite. *)
Definition at_most (a b : option ext) : Prop :=
  match a, b with
  | Some NInf, Some _ => True
  | Some _, Some PInf => True
  | Some (Fin x), Some (Fin y) => x <= y
  | _, _ => False
  end.
