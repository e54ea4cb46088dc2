(** Model of the recorders that keep one number per scenario or per year
    ([pywr/recorders/_recorders.pyx]) and of the year split of a timestep ([pywr/_core.pyx]). *)
From Verif Require Import Base Ring LP_model Calendar_spec Calendar_model Timestepper_model.
Local Open Scope Q_scope.

(** ** One value per scenario combination *)

(** What a node recorder reads for one scenario in one timestep: [node._flow[i]] and
    [node.get_max_flow(scenario_index)]. *)
Record reading := Reading { r_flow : Q; r_max : Q }.

(** One timestep: [timestep.days] and what is read, one entry per scenario combination. *)
Record observed (A : Type) := Observed { o_days : Q; o_reads : list A }.
Arguments Observed {A}. Arguments o_days {A}. Arguments o_reads {A}.

(** [for i in combinations: self._values[i] += increment(i)]. *)
Fixpoint add_each (values incs : list Q) : list Q :=
  match values, incs with
  | v :: vs, x :: xs => (v + x) :: add_each vs xs
  | _, _ => values
  end.

(** _recorders.pyx:1722-1729 [setup]/[reset] give zeros, then [after] once per timestep. *)
Definition accumulate {A} (inc : Q -> A -> Q) (ncomb : nat) (run : list (observed A)) : list Q :=
  fold_left (fun values o => add_each values (map (inc (o_days o)) (o_reads o))) run (repeat 0 ncomb).

(** 1744-1754 [TotalDeficitNodeRecorder.after]. *)
Definition total_deficit_inc (days : Q) (r : reading) : Q := (r_max r - r_flow r) * days.

(** 1768-1775 [TotalFlowNodeRecorder.after]. *)
Definition total_flow_inc (factor days : Q) (r : reading) : Q := r_flow r * factor * days.

(** 1789-1795 [MeanFlowNodeRecorder.after]. *)
Definition mean_flow_inc (factor days : Q) (r : reading) : Q := r_flow r * factor.

(** 1808-1817 [DeficitFrequencyNodeRecorder.after]. *)
Definition deficit_frequency_inc (days : Q) (r : reading) : Q :=
  if qltb (1 # 1000000) (qabs (r_flow r - r_max r)) then 1 else 0.

(** 2300-2313 [TotalParameterRecorder.after]. *)
Definition total_parameter_inc (factor : Q) (integrate : bool) (days value : Q) : Q :=
  value * (if integrate then factor * days else factor).

(** 2338-2348 [MeanParameterRecorder.after]. *)
Definition mean_parameter_inc (factor days value : Q) : Q := value * factor.

(** 1797-1801, 1819-1823, 2350-2354 [finish]: [self._values[i] /= nt] with
    [nt = timestepper.current.index].  [None]: AttributeError if no timestep has begun, or
    ZeroDivisionError ([_recorders.pyx] is compiled without [cdivision], setup.py:8-11). *)
Definition divide_by_steps (current : option tstep) (values : list Q) : option (list Q) :=
  match current with
  | None => None
  | Some t =>
      if Nat.eqb (ts_index (st_ts t)) 0 then match values with [] => Some [] | _ => None end
      else Some (map (fun v => v / inject_Z (Z.of_nat (ts_index (st_ts t)))) values)
  end.

(** 1845-1852 [MinimumVolumeStorageRecorder] for one scenario; [None] is the initial infinity. *)
Definition minimum_volume_after (best : option Q) (volume : Q) : option Q :=
  match best with None => Some volume | Some b => Some (qmin volume b) end.
Definition minimum_volume (volumes : list Q) : option Q := fold_left minimum_volume_after volumes None.

(** 1865-1873 [MinimumThresholdVolumeStorageRecorder] for one scenario. *)
Definition minimum_threshold_volume (threshold : Q) (volumes : list Q) : Q :=
  fold_left (fun v volume => if qleb volume threshold then 1 else v) volumes 0.

(** 1901-1913 [TimestepCountIndexParameterRecorder] for one scenario. *)
Definition timestep_count (threshold : Z) (indices : list Z) : Z :=
  fold_left (fun n value => if (threshold <=? value)%Z then (n + 1)%Z else n) indices 0%Z.

(** ** Values per timestep *)

(** NumpyArrayNodeDeficitRecorder.after, 680-688, is in Series_model.v. *)

(** Division of doubles: an infinite divisor gives zero; ZeroDivisionError is [None]. *)
Definition double_div (a : Q) (b : ext) : option Q :=
  match b with
  | Fin b => if qeqb b 0 then None else Some (a / b)
  | _ => Some 0
  end.

(** 723-734 [NumpyArrayNodeSuppliedRatioRecorder.after]. *)
Definition supplied_ratio (flow : Q) (max_flow : ext) : Q :=
  match double_div flow max_flow with Some q => q | None => 1 end.

(** 769-779 [NumpyArrayNodeCurtailmentRatioRecorder.after]. *)
Definition curtailment_ratio (flow : Q) (max_flow : ext) : Q :=
  match double_div flow max_flow with Some q => 1 - q | None => 0 end.

(** 1213-1232 [NumpyArrayNormalisedStorageRecorder.after]; [None] is ZeroDivisionError. *)
Definition normalised_storage (vol cc : Q) : option Q :=
  if qltb vol cc then option_map (fun q => q - 1) (double_div vol (Fin cc))
  else double_div (vol - cc) (Fin (1 - cc)).

(** ** Annual totals *)

(** Conversion of a C integer to a double: 53 significant bits, ties to even ([cdef double x = ...value]). *)
Definition to_double (z : Z) : Z :=
  let e := (Z.log2 (Z.abs z) - 52)%Z in
  if (e <=? 0)%Z then z
  else
    let u := (2 ^ e)%Z in
    let q := (z / u)%Z in let r := (z mod u)%Z in
    (if (2 * r <? u) then q * u
     else if (u <? 2 * r) then (q + 1) * u
     else if Z.even q then q * u else (q + 1) * u)%Z.

(** [pandas.Timestamp.value]: nanoseconds from 1 January 1970. *)
Definition EPOCH : Z := (719162 * DAY)%Z.
Definition timestamp_value (t : Z) : Z := (t - EPOCH)%Z.

(** _core.pyx:288-290: [year], [end_year]. *)
Definition p_year (p : period) : Z := year_of (p_start p / DAY).
Definition p_end_year (p : period) : Z := year_of ((p_stop p - 1) / DAY).

(** _core.pyx:311-319 [days_in_current_year]. *)
Definition days_in_current_year (p : period) : Q :=
  if negb (p_year p =? p_end_year p)%Z then
    inject_Z (to_double (timestamp_value (jan1 (p_end_year p) * DAY)) - to_double (timestamp_value (p_start p)))
    / inject_Z DAY
  else delta_days p.

(** _core.pyx:321-328 [days_in_next_year]; [period.end_time] is the last nanosecond of the period. *)
Definition days_in_next_year (p : period) : Q :=
  if negb (p_year p =? p_end_year p)%Z then
    inject_Z (to_double (timestamp_value (p_stop p - 1)) - to_double (timestamp_value (jan1 (p_end_year p) * DAY)))
    / inject_Z DAY
  else 0.

(** [data[idx] += x].  An index outside the array (IndexError) changes nothing here; the year of a
    timestep is never outside the years of the run. *)
Definition add_at (idx : Z) (x : Q) (data : list Q) : list Q :=
  upd data (Z.to_nat idx) (nth (Z.to_nat idx) data 0 + x).

(** _recorders.pyx:2097-2114 [AnnualTotalFlowRecorder.after] for one scenario (the loop over [i]
    touches one column each): period and the flow of each node. *)
Definition annual_flow_after (start_year : Z) (factors : list Q) (data : list Q) (s : period * list Q) : list Q :=
  let p := fst s in
  let idx := (p_year p - start_year)%Z in
  fold_left (fun d fw =>
      let d1 := add_at idx (fst fw * days_in_current_year p * snd fw) d in
      if negb (qeqb (days_in_current_year p) (delta_days p)) && (idx + 1 <? Z.of_nat (length data))%Z
      then add_at (idx + 1) (fst fw * days_in_next_year p * snd fw) d1 else d1)
    (combine (snd s) factors) data.

Definition annual_flow (start_year : Z) (num_years : nat) (factors : list Q) (run : list (period * list Q)) : list Q :=
  fold_left (annual_flow_after start_year factors) run (repeat 0 num_years).

(** ** Annual counts *)

(** 2163-2204 [AnnualCountIndexParameterRecorder] for one scenario: count, maximum of the year, year. *)
Record count_state := CountState { cs_count : Z; cs_max : Z; cs_year : Z }.

Definition count_reset : count_state := CountState 0 0 (-1).

Definition count_after (threshold : Z) (s : count_state) (o : Z * Z) : count_state :=
  let '(year, value) := o in
  let s1 :=
    if negb (year =? cs_year s)%Z then
      CountState (if negb (cs_year s =? -1)%Z && (threshold <=? cs_max s)%Z
                  then cs_count s + 1 else cs_count s)%Z 0 year
    else s in
  CountState (cs_count s1) (if (cs_max s1 <? value)%Z then value else cs_max s1) (cs_year s1).

Definition count_finish (threshold : Z) (s : count_state) : Z :=
  (if threshold <=? cs_max s then cs_count s + 1 else cs_count s)%Z.

Definition annual_count (threshold : Z) (run : list (Z * Z)) : Z :=
  count_finish threshold (fold_left (count_after threshold) run count_reset).

(** 1917-2027 [AnnualCountIndexThresholdRecorder]: settings, and the state of one scenario. *)
Record count_config := CountConfig {
  cc_threshold : Z;
  cc_exclude : option (list Z);              (* exclude_months *)
  cc_from : option (Z * Z);                  (* include_from_month, include_from_day; None unless both are given *)
  cc_to : option (Z * Z)
}.

Record year_state := YearState { ys_data : list Z; ys_this : list Z; ys_year : Z }.

(** [pd.Timestamp(year, month, day).dayofyear]; ValueError ([None]) for a date that does not exist. *)
Definition timestamp_dayofyear (year month day : Z) : option Z :=
  if ((1 <=? month) && (month <=? 12) && (1 <=? day) && (day <=? month_days (gleapb year) month))%Z
  then Some (day_of_year (Date year month day)) else None.

Definition zsum (l : list Z) : Z := fold_right Z.add 0%Z l.

(** 2016-2021: the first parameter that reaches the threshold is counted, then [break]. *)
Fixpoint count_first (threshold : Z) (values this : list Z) : list Z :=
  match values, this with
  | v :: vs, t :: ts => if (threshold <=? v)%Z then (t + 1)%Z :: ts else t :: count_first threshold vs ts
  | _, _ => this
  end.

(** 1985-2021 [after]: date of the timestep and the indices of the parameters in this scenario. *)
Definition threshold_after (c : count_config) (start_year : Z) (s : year_state) (o : date * list Z) : option year_state :=
  let '(d, values) := o in
  let idx := (ys_year s - start_year)%Z in
  let s1 :=
    if negb (yr d =? ys_year s)%Z then
      YearState (if negb (ys_year s =? -1)%Z then upd (ys_data s) (Z.to_nat idx) (zsum (ys_this s)) else ys_data s)
                (map (fun _ => 0%Z) (ys_this s)) (yr d)
    else s in
  if match cc_exclude c with Some months => existsb (Z.eqb (mon d)) months | None => false end then Some s1
  else
    match match cc_from c with None => Some 1%Z | Some (m, dd) => timestamp_dayofyear (ys_year s1) m dd end,
          match cc_to c with None => Some 366%Z | Some (m, dd) => timestamp_dayofyear (ys_year s1) m dd end with
    | Some from, Some to =>
        if ((from <=? day_of_year d) && (day_of_year d <=? to))%Z
        then Some (YearState (ys_data s1) (count_first (cc_threshold c) values (ys_this s1)) (ys_year s1))
        else Some s1
    | _, _ => None
    end.

Fixpoint threshold_run (c : count_config) (start_year : Z) (s : year_state) (run : list (date * list Z)) : option year_state :=
  match run with
  | [] => Some s
  | o :: r => match threshold_after c start_year s o with None => None | Some s' => threshold_run c start_year s' r end
  end.

(** 2023-2027 [finish]. *)
Definition threshold_finish (start_year : Z) (s : year_state) : list Z :=
  upd (ys_data s) (Z.to_nat (ys_year s - start_year)) (zsum (ys_this s)).

(** A run from [reset] to [finish]; [this] is whatever the previous run left in [_data_this_year]
    ([reset] does not clear it, 1980-1983). *)
Definition annual_threshold_count (c : count_config) (start_year : Z) (num_years : nat) (this : list Z)
    (run : list (date * list Z)) : option (list Z) :=
  option_map (threshold_finish start_year)
    (threshold_run c start_year (YearState (repeat 0%Z num_years) this (-1)) run).
