(** Model of the times and counts in the result of a run: [pywr/_model.pyx] 633-682 (_step, run), 818-820 (end of reset), 825-860 (before, after),
    1066-1082 (ModelResult).

    The clock ([time.time()]) is an arbitrary function giving the value of its k-th reading.  Floating point rounding is not modelled; the
    attributes taken over from the solver are not modelled. *)
From Verif Require Import Base.
Local Open Scope nat_scope.
Local Open Scope list_scope.

(** Number of readings so far and the two timers ([None] until the first reset, 123-124). *)
Record timers := Timers { w_reads : nat; w_before : option Q; w_after : option Q }.

(** 818-820. *)
Definition reset (w : timers) : timers := Timers (w_reads w) (Some 0%Q) (Some 0%Q).
(** 825-849 and 851-860: two readings; adding to [None] raises TypeError. *)
Definition before (clock : nat -> Q) (w : timers) : option timers :=
  option_map (fun b => Timers (w_reads w + 2) (Some (b + (clock (w_reads w + 1)%nat - clock (w_reads w)))%Q) (w_after w)) (w_before w).
Definition after (clock : nat -> Q) (w : timers) : option timers :=
  option_map (fun a => Timers (w_reads w + 2) (w_before w) (Some (a + (clock (w_reads w + 1)%nat - clock (w_reads w)))%Q)) (w_after w).
(** 633-638. *)
Definition step (clock : nat -> Q) (w : timers) : option timers :=
  match before clock w with Some w => after clock w | None => None end.
Fixpoint steps (clock : nat -> Q) (T : nat) (w : timers) : option timers :=
  match T with O => Some w | S T => match step clock w with Some w => steps clock T w | None => None end end.

Record report := Report { timesteps : nat; num_scenarios : nat; time_taken : Q; time_taken_before : Q; time_taken_after : Q;
                          time_taken_with_overhead : Q; speed : option Q }.

(** run, 640-682, over [T] timesteps and [N] scenarios, if nothing raises; [None] also for RuntimeError if there is nothing to run.
    [speed]: [None] for NaN. *)
Definition run (clock : nat -> Q) (T N : nat) (w : timers) : option report :=
  let t0 := clock (w_reads w) in
  let w := reset (Timers (S (w_reads w)) (w_before w) (w_after w)) in
  let t1 := clock (w_reads w) in
  match steps clock T (Timers (S (w_reads w)) (w_before w) (w_after w)) with
  | Some w =>
      let t2 := clock (w_reads w) in
      let t3 := clock (S (w_reads w)) in
      match T, w_before w, w_after w with
      | S index, Some b, Some a =>
          let taken := (t2 - t1)%Q in
          Some (Report (index + 1) N taken b a (t3 - t0)%Q (if qeqb taken 0 then None else Some (inject_Z (Z.of_nat (index * N)) / taken)%Q))
      | _, _, _ => None
      end
  | None => None
  end.
