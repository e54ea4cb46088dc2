(** Parameters and recorders with a circular memory, one scenario combination:
    /repo/pywr/parameters/_parameters.pyx:2105-2155, 2191-2266 and
    /repo/pywr/recorders/_recorders.pyx:1555-1607, 1626-1700. *)
From Verif Require Import Base Ring.
Open Scope Q_scope.

Record buffer := { b_mem : list Q; b_pos : nat }.

(** ** FlowDelayParameter, _parameters.pyx:2105-2155 *)

(** setup, 2131-2143: the number of timesteps, from `days` if that is positive; [None] = ValueError.
    [delta]: timestepper.delta as a number of days. *)
Definition delay_timesteps (timesteps days delta : Z) : option nat :=
  let n := if (0 <? days)%Z
           then if (days mod delta =? 0)%Z then Some (days / delta)%Z else None
           else Some timesteps in
  match n with
  | Some n => if (n <? 1)%Z then None else Some (Z.to_nat n)
  | None => None
  end.

Definition delay_setup (n : nat) : buffer := {| b_mem := repeat 0 n; b_pos := 0 |}.

(** reset, 2145-2147: `_memory[...] = initial_flow`. *)
Definition delay_reset (initial : Q) (s : buffer) : buffer := {| b_mem := map (fun _ => initial) (b_mem s); b_pos := 0 |}.

(** value, 2149-2150. *)
Definition delay_value (s : buffer) : Q := nth (b_pos s) (b_mem s) 0.

(** after, 2152-2156. *)
Definition delay_after (n : nat) (s : buffer) (flow : Q) : buffer :=
  {| b_mem := upd (b_mem s) (b_pos s) flow;
     b_pos := if Nat.ltb 1 n then (b_pos s + 1) mod n else b_pos s |}.

(** The values over a run: in each timestep first the value, then after() with the flow of the node. *)
Fixpoint delay_run (n : nat) (s : buffer) (flows : list Q) : list Q * buffer :=
  match flows with
  | [] => ([], s)
  | f :: r => let '(vs, s') := delay_run n (delay_after n s f) r in (delay_value s :: vs, s')
  end.

(** ** RollingMeanFlowNodeParameter, _parameters.pyx:2191-2266 *)

(** np.mean of a non-empty slice. *)
Definition mean (l : list Q) : Q := qsum l / inject_Z (Z.of_nat (length l)).

Definition mean_setup (n : nat) : buffer := {| b_mem := repeat 0 n; b_pos := 0 |}.
(** reset, 2234-2237. *)
Definition mean_reset (s : buffer) : buffer := {| b_mem := map (fun _ => 0) (b_mem s); b_pos := 0 |}.
(** value, 2239-2251; [index] is ts.index. *)
Definition mean_value (n : nat) (initial : Q) (s : buffer) (index : nat) : Q :=
  if Nat.eqb index 0 then initial
  else mean (firstn (if Nat.leb index n then index else n) (b_mem s)).
(** position += 1; if position >= n: position = 0 (2260-2262; recorders 1590-1592, 1698-1700). *)
Definition next_pos (n p : nat) : nat := if Nat.leb n (p + 1) then 0%nat else (p + 1)%nat.
(** after, 2253-2262. *)
Definition mean_after (n : nat) (s : buffer) (flow : Q) : buffer :=
  {| b_mem := upd (b_mem s) (b_pos s) flow; b_pos := next_pos n (b_pos s) |}.

(** [index]: ts.index of the first timestep, 0 unless the run was started by reset(start). *)
Fixpoint mean_run (n : nat) (initial : Q) (index : nat) (s : buffer) (flows : list Q) : list Q :=
  match flows with
  | [] => []
  | f :: r => mean_value n initial s index :: mean_run n initial (S index) (mean_after n s f) r
  end.

(** ** RollingWindowParameterRecorder, _recorders.pyx:1555-1607 *)

(** setup, 1577-1582: as many rows as timesteps; np.empty: contents arbitrary. *)
(** reset, 1584-1586: the memory is left. *)
Definition window_reset (s : buffer) : buffer := {| b_mem := b_mem s; b_pos := 0 |}.

(** after, 1588-1607: the value saved and the new state.  [agg] is the temporal aggregation. *)
Definition window_after (agg : list Q -> Q) (w : nat) (index : nat) (s : buffer) (v : Q) : Q * buffer :=
  let mem := upd (b_mem s) (b_pos s) v in
  let n := if Nat.ltb index w then (index + 1)%nat else w in
  (agg (firstn n mem), {| b_mem := mem; b_pos := next_pos w (b_pos s) |}).

(** RollingMeanFlowNodeRecorder.after (1681-1700) is the same with np.mean and a memory of [w] entries. *)
Fixpoint window_run (agg : list Q -> Q) (w : nat) (index : nat) (s : buffer) (vs : list Q) : list Q :=
  match vs with
  | [] => []
  | v :: r => let '(o, s') := window_after agg w index s v in o :: window_run agg w (S index) s' r
  end.
