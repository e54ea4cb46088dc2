(** What a node takes in a calendar year. *)
From Verif Require Import Base Calendar_spec Licences_model.
Local Open Scope Q_scope.

(** Consecutive timesteps of positive length. *)
Fixpoint consecutive (steps : list step) : Prop :=
  match steps with
  | s :: ((s' :: _) as r) => 0 < s_days s /\ s_time s' == s_time s + s_days s /\ consecutive r
  | [s] => 0 < s_days s
  | [] => True
  end.

Definition year_start (y : Z) : Q := inject_Z (jan1 y).

(** Days of a timestep that lie in year [y]. *)
Definition days_in (y : Z) (s : step) : Q :=
  qmax 0 (qmin (s_time s + s_days s) (year_start (y + 1)) - qmax (s_time s) (year_start y)).
(** Volume taken in year [y]. *)
Definition year_volume (y : Z) (steps : list step) : Q := qsum (map (fun s => s_flow s * days_in y s) steps).

(** The timestep starts in year [y]. *)
Definition starts_in (y : Z) (s : step) : Prop := year_start y <= s_time s < year_start (y + 1).

(** A node that takes no more than the licence offers. *)
Definition complies (steps : list step) (offered : list Q) : Prop :=
  Forall2 (fun s v => 0 <= s_flow s <= v) steps offered.
