(** Licences: /repo/pywr/parameters/licenses.py:31-147, one scenario combination. *)
From Verif Require Import Base Calendar_spec.
From Coq Require Import Qround.
Local Open Scope Q_scope.

(** A timestep as the licence sees it: `timestep.period.start_time` as a day number (with a fraction for timesteps
    shorter than a day), `timestep.days`, and `node.flow` after the solve. *)
Record step := { s_time : Q; s_days : Q; s_flow : Q }.

(** `timestep.year`, `timestep.dayofyear` (/repo/pywr/_core.pyx:281-300 from the pandas period). *)
Definition step_year (t : Q) : Z := yr (date_of (Qfloor t)).
Definition step_doy (t : Q) : Z := day_of_year (date_of (Qfloor t)).

(** TimestepLicense.value, 50-51. *)
Definition timestep_licence_value (amount : Q) : Q := amount.

(** ** StorageLicense, 66-95 *)

(** setup, 82-85 and reset, 94-95. *)
Definition storage_reset (amount : Q) : Q := amount.
(** value, 87-88. *)
Definition storage_value (remaining : Q) : Q := remaining.
(** after, 90-93. *)
Definition storage_after (remaining flow days : Q) : Q :=
  let r := remaining - flow * days in
  if qltb r 0 then 0 else r.

(** The remaining amounts after each timestep of a run. *)
Fixpoint storage_run (remaining : Q) (steps : list step) : list Q :=
  match steps with
  | [] => []
  | s :: r => let rem := storage_after remaining (s_flow s) (s_days s) in rem :: storage_run rem r
  end.

(** What is offered in each timestep of a run (value comes before after). *)
Fixpoint storage_offers (remaining : Q) (steps : list step) : list Q :=
  match steps with
  | [] => []
  | s :: r => storage_value remaining :: storage_offers (storage_after remaining (s_flow s) (s_days s)) r
  end.

(** ** AnnualLicense, 107-147 *)

Record annual := { l_remaining : Q; l_prev_year : option Z }.

(** __init__ 120-123 sets `_prev_year`; reset (inherited) leaves it. *)
Definition annual_reset (amount : Q) (s : annual) : annual := {| l_remaining := amount; l_prev_year := l_prev_year s |}.

(** value, 125-133 (calendar.isleap is the Gregorian rule). *)
Definition annual_value (s : annual) (t : Q) : Q :=
  let days_in_year := (365 + (if gleapb (step_year t) then 1 else 0))%Z in
  if (step_doy t =? days_in_year)%Z then l_remaining s
  else l_remaining s / inject_Z (days_in_year - (step_doy t - 1)).

(** before, 135-147; [prev_flow] is `node.prev_flow`. *)
Definition annual_before (amount : Q) (s : annual) (prev_flow t : Q) : annual :=
  match l_prev_year s with
  | Some y => if (y =? step_year t)%Z then s
              else {| l_remaining := amount - inject_Z (step_doy t - 1) * prev_flow; l_prev_year := Some (step_year t) |}
  | None => {| l_remaining := amount - inject_Z (step_doy t - 1) * prev_flow; l_prev_year := Some (step_year t) |}
  end.

Definition annual_after (s : annual) (flow days : Q) : annual :=
  {| l_remaining := storage_after (l_remaining s) flow days; l_prev_year := l_prev_year s |}.

(** A run: before() and the value of each timestep, then after() with the flow of the timestep
    (/repo/pywr/_model.pyx:584-631, 825-860; node.after() comes first, so `prev_flow` in the next before() is this
    flow).  The list holds the value offered in each timestep. *)
Fixpoint annual_run (amount : Q) (s : annual) (prev_flow : Q) (steps : list step) : list Q :=
  match steps with
  | [] => []
  | x :: r =>
      let s1 := annual_before amount s prev_flow (s_time x) in
      annual_value s1 (s_time x) :: annual_run amount (annual_after s1 (s_flow x) (s_days x)) (s_flow x) r
  end.
(** Remaining amounts after each before() and after each after(). *)
Fixpoint annual_remaining (amount : Q) (s : annual) (prev_flow : Q) (steps : list step) : list Q :=
  match steps with
  | [] => []
  | x :: r =>
      let s1 := annual_before amount s prev_flow (s_time x) in
      let s2 := annual_after s1 (s_flow x) (s_days x) in
      l_remaining s1 :: l_remaining s2 :: annual_remaining amount s2 (s_flow x) r
  end.
