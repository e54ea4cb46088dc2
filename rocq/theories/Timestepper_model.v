(** Model of [pywr/timestepper.py]. *)
From Verif Require Import Base Calendar_spec Calendar_model.
Local Open Scope Z_scope.

(** Time is counted in nanoseconds (the resolution of pandas timestamps) from 1 January of year 1. *)
Definition SECOND : Z := 1000000000.
Definition DAY : Z := 86400 * SECOND.

(** A [pandas.Period]: first nanosecond and first nanosecond after it.
    [period.start_time] is [p_start], [period.end_time] is [p_stop - 1] (pandas' convention). *)
Record period := Period { p_start : Z; p_stop : Z }.

(** Timestep together with its period (pywr/_core.pyx:276-300). *)
Record tstep := TStep { st_period : period; st_ts : timestep }.

Definition mk_tstep (p : period) (index : nat) (days : Q) : option tstep :=
  match mk_timestep (date_of (p_start p / DAY)) index days with
  | Some t => Some (TStep p t)
  | None => None
  end.

(** timestepper.py:42-46 and 100-102: length of a period in days, from the length
    [end_time - start_time] rounded to the nearest second.
    Simplified: np.round rounds exact halves to even; no half second occurs for whole-second periods. *)
Definition delta_days (p : period) : Q :=
  inject_Z ((p_stop p - 1 - p_start p + SECOND / 2) / SECOND) / inject_Z 86400.

(** State of a Timestepper: [_periods], [_deltas] (computed from them), [_current], [_next],
    [_last_length], and the offset used by [next] for the period after the end. *)
Record tstate := TState {
  tp_periods : list period;
  tp_offset : period -> period;
  tp_current : option tstep;
  tp_next : tstep;
  tp_last_length : option nat
}.

(** timestepper.py:64-68: index of the first period with [start_time <= start < end_time]. *)
Fixpoint find_period (start : Z) (index : nat) (ps : list period) : option nat :=
  match ps with
  | [] => None
  | p :: rest =>
      if (p_start p <=? start) && (start <? p_stop p - 1) then Some index
      else find_period start (S index) rest
  end.

(** timestepper.py:52-79 [reset]; [None] stands for the ValueError (line 70) or the IndexError of
    [self._periods[0]] on an empty index.  Returns the new state and [length_changed]. *)
Definition reset_core (ps : list period) (off : period -> period) (last : option nat) (start : option Z)
  : option (tstate * bool) :=
  let current_length := length ps in
  let idx := match start with None => Some O | Some s => find_period s 0 ps end in
  match idx with
  | None => None
  | Some current_index =>
      match nth_error ps current_index with
      | None => None
      | Some p =>
          match mk_tstep p current_index (delta_days p) with
          | None => None
          | Some nxt =>
              let length_changed :=
                match last with None => true | Some n => negb (Nat.eqb n current_length) end in
              Some (TState ps off None nxt (Some current_length), length_changed)
          end
      end
  end.

Definition reset (st : tstate) (start : option Z) : option (tstate * bool) :=
  reset_core (tp_periods st) (tp_offset st) (tp_last_length st) start.

(** timestepper.py:86-110 [next].  The result is the timestep returned, [None] for StopIteration.
    The outer option is a ValueError raised by [Timestep.__init__] for a period without length. *)
Definition next (st : tstate) : option (tstate * option tstep) :=
  let current := tp_next st in
  let ps := tp_periods st in
  (* self._current = current = self._next happens before the check *)
  if Nat.leb (length ps) (ts_index (st_ts current)) then
    Some (TState ps (tp_offset st) (Some current) (tp_next st) (tp_last_length st), None)
  else
    let next_index := S (ts_index (st_ts current)) in
    let np := match nth_error ps next_index with
              | None => tp_offset st (st_period current)    (* final period, lines 96-103 *)
              | Some p => p
              end in
    match mk_tstep np next_index (delta_days np) with
    | None => None
    | Some n => Some (TState ps (tp_offset st) (Some current) n (tp_last_length st), Some current)
    end.

(** [k] successive calls of [next]. *)
Fixpoint nexts (k : nat) (st : tstate) : option (tstate * list (option tstep)) :=
  match k with
  | O => Some (st, [])
  | S k' =>
      match next st with
      | None => None
      | Some (st', o) =>
          match nexts k' st' with
          | None => None
          | Some (st'', os) => Some (st'', o :: os)
          end
      end
  end.

(** timestepper.py:153-182: [datetime_index] for an integer (or timedelta) step of [delta] days:
    [pandas.period_range(start, end, freq="{delta}D")], i.e. day ordinals start, start+delta, ... <= end.
    A non-positive frequency is refused by pandas (None).  String frequencies are not modelled here;
    [reset]/[next] above are generic in the list of periods. *)
Definition day_period (delta d : Z) : period := Period (d * DAY) ((d + delta) * DAY).

Definition day_periods (start stop delta : Z) : option (list period) :=
  if delta <=? 0 then None
  else
    let s := start / DAY in let e := stop / DAY in
    let n := if e <? s then 0 else (e - s) / delta + 1 in
    Some (map (fun i => day_period delta (s + Z.of_nat i * delta)) (seq 0 (Z.to_nat n))).

(** timestepper.py:98: [current.period + self.offset] for a day frequency. *)
Definition day_offset (delta : Z) (p : period) : period :=
  Period (p_start p + delta * DAY) (p_stop p + delta * DAY).

(** timestepper.py:38-50 [setup] (which ends with [reset]). *)
Definition setup (start stop delta : Z) : option tstate :=
  match day_periods start stop delta with
  | None => None
  | Some ps => option_map fst (reset_core ps (day_offset delta) None None)
  end.

(** timestepper.py:29-32 [__len__]. *)
Definition ts_len (st : tstate) : nat := length (tp_periods st).
