(** Recorders from one run to the next: what [reset] leaves of the run before, in /repo/pywr/recorders/_recorders.pyx and events.py.

    A recorder is a state with [reset], [after] (given what it observes in a timestep) and [finish] (given the last observation).
    Where a recorder treats the scenario combinations alike and apart, the machine is that of one combination. *)
From Verif Require Import Base Ring Recorders_model Calendar_spec Calendar_model.
From Verif Require Buffers_model Events_model.
Local Open Scope nat_scope.
Local Open Scope list_scope.

Record machine (S O R : Type) := Machine { m_reset : S -> S; m_after : S -> O -> S; m_finish : option O -> S -> S; m_out : S -> R }.
Arguments Machine {S O R}. Arguments m_reset {S O R}. Arguments m_after {S O R}. Arguments m_finish {S O R}. Arguments m_out {S O R}.

Fixpoint last_of {O} (os : list O) : option O := match os with [] => None | [o] => Some o | _ :: os => last_of os end.
(** Model.run: reset, the timesteps, finish.  The state at the end. *)
Definition through {S O R} (M : machine S O R) (os : list O) (s : S) : S :=
  m_finish M (last_of os) (fold_left (m_after M) os (m_reset M s)).
Definition output {S O R} (M : machine S O R) (os : list O) (s : S) : R := m_out M (through M os s).

(** [NumpyArray...Recorder], 611-617, 1118-1125, 1389-1395, 1523-1529: `_data` set to zero, then the row of the timestep's index written; the daily profile recorder
    (1460-1474) is the same with the day of the year as index. *)
Definition array_machine (ncomb : nat) : machine (list (list Q)) (nat * list Q) (list (list Q)) :=
  Machine (map (fun _ => repeat 0%Q ncomb)) (fun s o => upd s (fst o) (snd o)) (fun _ s => s) (fun s => s).

(** [BaseConstant...Recorder], 1727-1731, 1830-1834, 2261-2265: `_values` set to zero, then added to; with [steps] those that divide at the end by the index of the
    timestepper's current timestep (1797-1801, 1819-1823). *)
Definition total_machine {A} (inc : Q -> A -> Q) (steps : option (option (observed A) -> Q)) : machine (list Q) (observed A) (list Q) :=
  Machine (map (fun _ => 0%Q)) (fun s o => add_each s (map (inc (o_days o)) (o_reads o)))
    (fun last s => match steps with Some n => map (fun v => (v / n last)%Q) s | None => s end) (fun s => s).

(** [MinimumVolumeStorageRecorder] 1845-1852 and [MinimumThresholdVolumeStorageRecorder] 1865-1873. *)
Definition minimum_machine : machine (option Q) Q (option Q) := Machine (fun _ => None) minimum_volume_after (fun _ s => s) (fun s => s).
Definition below_machine (threshold : Q) : machine Q Q Q :=
  Machine (fun _ => 0%Q) (fun v volume => if qleb volume threshold then 1%Q else v) (fun _ s => s) (fun s => s).

(** [TimestepCountIndexParameterRecorder] 1895-1913. *)
Definition steps_machine (threshold : Z) : machine Z Z Z :=
  Machine (fun _ => 0%Z) (fun n value => if (threshold <=? value)%Z then (n + 1)%Z else n) (fun _ s => s) (fun s => s).

(** [AnnualCountIndexParameterRecorder] 2163-2204. *)
Definition years_machine (threshold : Z) : machine count_state (Z * Z) Z :=
  Machine (fun _ => count_reset) (count_after threshold)
    (fun _ s => CountState (count_finish threshold s) (cs_max s) (cs_year s)) cs_count.

(** [AnnualTotalFlowRecorder] 2103-2127. *)
Definition annual_machine (start_year : Z) (factors : list Q) : machine (list Q) (Timestepper_model.period * list Q) (list Q) :=
  Machine (map (fun _ => 0%Q)) (annual_flow_after start_year factors) (fun _ s => s) (fun s => s).

(** [AnnualCountIndexThresholdRecorder] 1974-2027: `_data_this_year` is left at [reset].  The flag: a timestep has raised (then nothing more
    happens in this run). *)
Definition annual_threshold_machine (c : count_config) (start_year : Z) : machine (year_state * bool) (date * list Z) (option (list Z)) :=
  Machine (fun s => (YearState (map (fun _ => 0%Z) (ys_data (fst s))) (ys_this (fst s)) (-1), false))
    (fun s o => if snd s then s else match threshold_after c start_year (fst s) o with Some s' => (s', false) | None => (fst s, true) end)
    (fun _ s => (YearState (threshold_finish start_year (fst s)) (ys_this (fst s)) (ys_year (fst s)), snd s))
    (fun s => if snd s then None else Some (ys_data (fst s))).

(** [RollingWindowParameterRecorder] 1584-1607: `_memory` is left at [reset]; index of the timestep and value. *)
Definition window_machine (agg : list Q -> Q) (w : nat) : machine (Buffers_model.buffer * list Q) (nat * Q) (list Q) :=
  Machine (fun s => (Buffers_model.window_reset (fst s), map (fun _ => 0%Q) (snd s)))
    (fun s o => let r := Buffers_model.window_after agg w (fst o) (fst s) (snd o) in (snd r, upd (snd s) (fst o) (fst r)))
    (fun _ s => s) snd.
(** [RollingMeanFlowNodeRecorder] 1677-1700: `_memory` and `_data` are left. *)
Definition mean_machine (agg : list Q -> Q) (w : nat) : machine (Buffers_model.buffer * list Q) (nat * Q) (list Q) :=
  Machine (fun s => (Buffers_model.window_reset (fst s), snd s))
    (fun s o => let r := Buffers_model.window_after agg w (fst o) (fst s) (snd o) in (snd r, upd (snd s) (fst o) (fst r)))
    (fun _ s => s) snd.

(** [EventRecorder], events.py 78-159: index of the timestep, and for each combination whether it is triggered and the tracked value. *)
Definition events_machine (ncomb minimum : nat) : machine Events_model.state (nat * list (bool * Q)) (list Events_model.event) :=
  Machine (fun _ => Events_model.reset ncomb) (fun s o => Events_model.after minimum (fst o) (snd o) s)
    (fun last s => match last with Some o => Events_model.finish (fst o) s | None => s end) Events_model.s_events.
