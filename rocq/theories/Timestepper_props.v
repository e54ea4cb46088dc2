(** C03, C04: the timestepper. *)
From Verif Require Import Base Calendar_spec Calendar_model Timestepper_model Timestepper_spec Timestepper_proofs.
Local Open Scope Z_scope.

(** C03: [k] calls of next() on a fresh timestepper, for every [k]: the first ones return
    timesteps 0,1,2,... at start, start+delta, ... as long as they start no later than [end];
    all others raise StopIteration. *)
Theorem C03_timestepper_yields_each_period_once : forall start stop delta st k,
  setup start stop delta = Some st ->
  exists st' os, nexts k st = Some (st', os) /\ length os = k /\
    (forall j o, nth_error os j = Some o -> expected_output (start / DAY) (stop / DAY) delta j o).
Proof. exact iterate_spec. Qed.
Print Assumptions C03_timestepper_yields_each_period_once.

(** C03: len(timestepper) is the number of timesteps yielded. *)
Theorem C03_len_is_number_of_timesteps : forall start stop delta st i,
  setup start stop delta = Some st ->
  ((i < ts_len st)%nat <-> start / DAY + Z.of_nat i * delta <= stop / DAY).
Proof. exact ts_len_spec. Qed.
Print Assumptions C03_len_is_number_of_timesteps.

(** C03: setup succeeds exactly for a positive step and an end that is not before the start. *)
Theorem C03_setup_succeeds_iff : forall start stop delta,
  (1 <= delta /\ start / DAY <= stop / DAY) <-> (exists st, setup start stop delta = Some st).
Proof. exact setup_spec. Qed.
Print Assumptions C03_setup_succeeds_iff.

(** C03: once exhausted, [current] is the timestep one past the end (its index is the run length). *)
Theorem C03_exhausted_current_index : forall start stop delta st k st' os,
  setup start stop delta = Some st -> (ts_len st < k)%nat -> nexts k st = Some (st', os) ->
  exists t, tp_current st' = Some t /\ ts_index (st_ts t) = ts_len st.
Proof. exact exhausted_current. Qed.
Print Assumptions C03_exhausted_current_index.

(** C04: reset(start=d), after any number of steps.  Accepted: the next timesteps are the tail of the
    full sequence from the period that contains [d].  Refused: [d] is in no period, or is the very last
    nanosecond of one (see the refutation below). *)
Theorem C04_reset_resumes_at_date_partial : forall start stop delta st0 k st os d,
  setup start stop delta = Some st0 -> nexts k st0 = Some (st, os) ->
  match reset st (Some d) with
  | Some (st', _) =>
      exists i, (i < ts_len st0)%nat /\
        (start / DAY + Z.of_nat i * delta) * DAY <= d < (start / DAY + (Z.of_nat i + 1) * delta) * DAY /\
        (forall n, exists st'' os', nexts n st' = Some (st'', os') /\ length os' = n /\
           forall j o, nth_error os' j = Some o ->
             expected_output (start / DAY) (stop / DAY) delta (i + j) o)
  | None =>
      forall i, (i < ts_len st0)%nat ->
        ~ ((start / DAY + Z.of_nat i * delta) * DAY <= d < (start / DAY + (Z.of_nat i + 1) * delta) * DAY - 1)
  end.
Proof. exact reset_start_spec. Qed.
Print Assumptions C04_reset_resumes_at_date_partial.

(** C04, the missing part is false: an instant inside a period can be refused, because the code
    compares strictly with [end_time], which is itself the last instant of the period. *)
Theorem C04_last_instant_refuted :
  exists start stop delta st d,
    setup start stop delta = Some st /\
    start / DAY * DAY <= d < (start / DAY + delta) * DAY /\
    reset st (Some d) = None.
Proof.
  destruct (setup 0 (9 * DAY) 5) as [st|] eqn:E; [|vm_compute in E; discriminate].
  exists 0, (9 * DAY), 5, st, (5 * DAY - 1). split; [exact E|]. split.
  - vm_compute. split; congruence.
  - vm_compute in E. injection E as <-. vm_compute. reflexivity.
Qed.
Print Assumptions C04_last_instant_refuted.

(** Non-vacuity: a 10-day run from 30 Dec 2015 with 3-day steps has 4 timesteps, at
    30 Dec, 2 Jan, 5 Jan and 8 Jan; then StopIteration twice; reset to 6 Jan resumes at index 2. *)
Definition ex_start : Z := day_number (Date 2015 12 30) * DAY.
Definition ex_dates (r : option (tstate * list (option tstep))) : option (list (option (nat * date))) :=
  match r with
  | None => None
  | Some (_, os) => Some (map (option_map (fun t => (ts_index (st_ts t), ts_date (st_ts t)))) os)
  end.
Example timestepper_example :
  match setup ex_start (ex_start + 9 * DAY) 3 with
  | None => False
  | Some st =>
      ex_dates (nexts 6 st) = Some [Some (0%nat, Date 2015 12 30); Some (1%nat, Date 2016 1 2);
                                    Some (2%nat, Date 2016 1 5); Some (3%nat, Date 2016 1 8); None; None] /\
      match reset st (Some (ex_start + 7 * DAY)) with
      | None => False
      | Some (st', _) =>
          ex_dates (nexts 3 st') = Some [Some (2%nat, Date 2016 1 5); Some (3%nat, Date 2016 1 8); None]
      end
  end.
Proof. vm_compute. split; reflexivity. Qed.
