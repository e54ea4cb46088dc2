(** Whose value, and of which timestep. *)
From Verif Require Import Base Exchange_model.
Local Open Scope nat_scope.
Local Open Scope list_scope.

(** What model [k] can know of model [j] in timestep [t] of a run from [w0]: models earlier in the order have done this timestep already, the others
    are as they were after the timestep before (at the beginning of the run: as they started). *)
Definition seen (ms : list model) (w0 : world) (t k j : nat) : state :=
  if j <? k then at_model (run ms (S t) w0) j else at_model (run ms t w0) j.

(** A row for all combinations of a model with [n] of them. *)
Definition full_row {A} (n : nat) (row : list A) : Prop := length row = n.

(** Every reference to a parameter is to an earlier model, and no volume is taken of a shadow storage of a later one. *)
Definition is_shadow_storage (ms : list model) (j n : nat) : bool :=
  match nth_error ms j with
  | Some m => match nth n (nodes m) Own with ShadowStorage _ _ => true | _ => false end
  | None => false
  end.
Definition forward (ms : list model) : Prop :=
  forall k m, nth_error ms k = Some m ->
    (forall j q, In (OtherValue j q) (params m) -> j < k) /\
    (forall j n, In (OtherVolume j n) (params m) -> j <> k /\ (k < j -> is_shadow_storage ms j n = false)) /\
    (forall j n, In (OtherFlow j n) (params m) -> j <> k) /\
    (forall j n, In (ShadowNode j n) (nodes m) -> j <> k) /\
    (forall j n, In (ShadowStorage j n) (nodes m) -> j <> k /\ (k < j -> is_shadow_storage ms j n = false)).
