(** Alignment of data with the timesteps: /repo/pywr/dataframe_tools.py:20-103, 114-127, 149-152, for one column of data with a
    frequency of whole days and a model with a frequency of whole days (both "Tick based"), and the look-up with an offset
    in DataFrameParameter (/repo/pywr/parameters/_parameters.pyx:251-264).

    Days are numbered.  A period of data or a timestep is known by the day it starts with (its label).  What pandas does is
    taken to be: slicing keeps the rows with labels from start to end; resampling to fewer, longer periods of [n] days puts
    each row into the bin of its label, counted from the first label on, and "mean" takes the known values of a bin, missing
    if there is none; resampling to more, shorter periods with ffill gives each new label the row of the last label not
    after it.  Versions of pandas differ in how far the new labels go beyond the last row: [extra] counts these labels. *)
From Verif Require Import Base.
Local Open Scope Z_scope.
Local Open Scope list_scope.

(** Rows: label and value, [None] for NaN. *)
Notation row := (Z * option Q)%type.

(** Data of frequency [m] days from day [d0] on. *)
Definition frame (d0 m : Z) (values : list (option Q)) : list row :=
  map (fun i => (d0 + m * Z.of_nat i, nth i values None)) (seq 0 (length values)).

(** `df[start:end]`. *)
Definition slice (start stop : Z) (rows : list row) : list row :=
  filter (fun r => (start <=? fst r) && (fst r <=? stop)) rows.

(** "mean". *)
Definition known (rows : list row) : list Q := flat_map (fun r => match snd r with Some v => [v] | None => [] end) rows.
Definition mean (rows : list row) : option Q :=
  match known rows with [] => None | vs => Some (qsum vs / inject_Z (Z.of_nat (length vs)))%Q end.

(** `resample(nD).agg("mean")`. *)
Definition resample_mean (n : Z) (rows : list row) : list row :=
  match rows with
  | [] => []
  | (first, _) :: _ =>
      let bins := (fst (last rows (first, None)) - first) / n + 1 in
      map (fun k => let l := first + n * Z.of_nat k in (l, mean (filter (fun r => (l <=? fst r) && (fst r <? l + n)) rows)))
          (seq 0 (Z.to_nat bins))
  end.

(** `resample(nD).ffill()`. *)
Definition resample_ffill (n : Z) (extra : nat) (rows : list row) : list row :=
  match rows with
  | [] => []
  | (first, _) :: _ =>
      let steps := (fst (last rows (first, None)) - first) / n + 1 in
      map (fun k => let l := first + n * Z.of_nat k in (l, snd (last (filter (fun r => fst r <=? l) rows) (l, None))))
          (seq 0 (Z.to_nat steps + extra))
  end.

(** The timesteps: [cnt] periods of [n] days from day [t0] on. *)
Definition target (t0 n : Z) (cnt : nat) : list Z := map (fun i => t0 + n * Z.of_nat i) (seq 0 cnt).

Inductive aligned := Aligned (values : list Q) | ResamplingError | MissingValues.

Fixpoint labels_eqb (a b : list Z) : bool :=
  match a, b with
  | [], [] => true
  | x :: a, y :: b => (x =? y) && labels_eqb a b
  | _, _ => false
  end.

(** align_and_resample_dataframe, 43-103 with _down_sample_tick_to_tick 114-123 and _up_sample_tick_to_tick 149-152.
    A period of [n] days `asfreq(..., how="end")` is its last day. *)
Definition align (d0 m : Z) (values : list (option Q)) (extra : nat) (t0 n : Z) (cnt : nat) : aligned :=
  let rows := frame d0 m values in
  let start := t0 in
  let stop := t0 + n * Z.of_nat (cnt - 1) in
  let rows := if m <=? n then resample_mean n (slice start (stop + n - 1) rows)
              else resample_ffill n extra rows in
  let rows := slice start stop rows in
  if negb (labels_eqb (map fst rows) (target t0 n cnt)) then ResamplingError
  else if existsb (fun r => match snd r with None => true | Some _ => false end) rows then MissingValues
  else Aligned (known rows).

(** DataFrameParameter.value, 253: `i = min(max(timestep.index + timestep_offset, 0), shape[0] - 1)`. *)
Definition lookup (values : list Q) (index offset : Z) : option Q :=
  nth_error values (Z.to_nat (Z.min (Z.max (index + offset) 0) (Z.of_nat (length values) - 1))).
