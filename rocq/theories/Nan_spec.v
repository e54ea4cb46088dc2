(** When the values of a scenario make no linear programme. *)
From Verif Require Import Base LP_model Nan_model.
Local Open Scope nat_scope.
Local Open Scope list_scope.

(** Costs that have no sum, numbers that have no difference. *)
Definition no_sum (l : list dbl) : Prop := In None l \/ (In (Some PInf) l /\ In (Some NInf) l).
Definition no_difference (a b : dbl) : Prop := a = None \/ b = None \/ (a = Some PInf /\ b = Some PInf) \/ (a = Some NInf /\ b = Some NInf).
Definition same_number (a b : dbl) : Prop :=
  (exists x y, a = Some (Fin x) /\ b = Some (Fin y) /\ (x == y)%Q) \/ (a = Some PInf /\ b = Some PInf) \/ (a = Some NInf /\ b = Some NInf).
Definition bad_store (s : store) : Prop :=
  ~ same_number (st_max s) (st_min s) /\ (no_difference (st_volume s) (st_min s) \/ no_difference (st_max s) (st_volume s)).

Definition trouble (r : reading) : Prop :=
  (exists l, In l (r_costs r) /\ no_sum (map snd l)) \/
  (exists l, In l (r_factors r) /\ (l = [] \/ In None l)) \/
  (exists b, In b (r_nodes r ++ r_aggregated r) /\ (fst b = None \/ snd b = None)) \/
  (exists s, In s (r_storages r) /\ bad_store s) \/
  (exists s, In s (r_virtual r) /\ st_active s = true /\ bad_store s).

(** A call with a NaN in it. *)
Definition has_nan (c : call) : Prop :=
  match c with ObjCoef x => x = None | MatRow l => In None l | RowBnds lb ub => lb = None \/ ub = None | Simplex => False end.
