(** What a user expects of the timestepper, for steps of whole days.  *)
From Verif Require Import Base Calendar_spec Calendar_model Timestepper_model.
Local Open Scope Z_scope.

(** [t] is timestep number [i] of a simulation whose first day is [s] with steps of [delta] days. *)
Definition is_timestep (s delta : Z) (i : nat) (t : tstep) : Prop :=
  ts_index (st_ts t) = i /\
  (ts_days (st_ts t) == inject_Z delta)%Q /\
  st_period t = Period ((s + Z.of_nat i * delta) * DAY) ((s + (Z.of_nat i + 1) * delta) * DAY) /\
  ts_date (st_ts t) = date_of (s + Z.of_nat i * delta).

(** Output [o] of the [i]-th call of next() when the simulation covers days [s..e]. *)
Definition expected_output (s e delta : Z) (i : nat) (o : option tstep) : Prop :=
  match o with
  | Some t => s + Z.of_nat i * delta <= e /\ is_timestep s delta i t
  | None => e < s + Z.of_nat i * delta           (* StopIteration *)
  end.
