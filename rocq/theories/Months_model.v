(** Alignment of data with timesteps where one of them has calendar periods (months, quarters, years, weeks: pandas' DateOffset
    frequencies): /repo/pywr/dataframe_tools.py:20-103 with _down_sample_tick_to_date_offset (114-118) for daily data and
    _resample_date_offset_to_tick (130-150) for models with timesteps of whole days.

    A calendar is any division of the days into numbered periods: [start k] is the first day of period k, [of d] the period of day d.
    Pandas is taken to do the following: resampling daily data to calendar periods gives a row for each period from that of the first to that
    of the last day, with the mean of the known values of its days; resampling calendar periods to days with ffill gives a row for each day
    from the first day of the first to the last day of the last period, with the value of the last period that has started.  Frequencies of
    several calendar periods (e.g. two months) are not modelled. *)
From Verif Require Import Base Resample_model.
Local Open Scope Z_scope.
Local Open Scope list_scope.

Record calendar := Calendar { start : Z -> Z; of : Z -> Z }.

(** 96-103. *)
Definition conclude (lo hi : Z) (labels : list Z) (rows : list row) : aligned :=
  let rows := slice lo hi rows in
  if negb (labels_eqb (map fst rows) labels) then ResamplingError
  else if existsb (fun r => match snd r with None => true | Some _ => false end) rows then MissingValues
  else Aligned (known rows).

(** `resample(freq).agg("mean")`, 116: rows labelled by the numbers of the periods. *)
Definition by_period (c : calendar) (rows : list row) : list row :=
  match rows with
  | [] => []
  | (first, _) :: _ =>
      let k := of c first in
      map (fun i => let p := k + Z.of_nat i in (p, mean (filter (fun r => of c (fst r) =? p) rows)))
          (seq 0 (Z.to_nat (of c (fst (last rows (first, None))) - k + 1)))
  end.
(** Daily data from day [d0] on for the timesteps that are the [cnt] periods from [k0] on, 82-86 with 114-118. *)
Definition align_periods (c : calendar) (d0 : Z) (values : list (option Q)) (k0 : Z) (cnt : nat) : aligned :=
  let hi := k0 + Z.of_nat (cnt - 1) in
  conclude k0 hi (target k0 1 cnt) (slice k0 hi (by_period c (frame d0 1 values))).

(** `resample("D").ffill()`, 139. *)
Definition by_day (c : calendar) (rows : list row) : list row :=
  match rows with
  | [] => []
  | (first, _) :: _ =>
      let d := start c first in
      map (fun j => let l := d + Z.of_nat j in (l, snd (last (filter (fun r => start c (fst r) <=? l) rows) (l, None))))
          (seq 0 (Z.to_nat (start c (fst (last rows (first, None)) + 1) - d)))
  end.
(** Data of the periods from [k0] on for [cnt] timesteps of [n] days from day [t0] on, 74-77 with 130-150. *)
Definition align_days (c : calendar) (k0 : Z) (values : list (option Q)) (t0 n : Z) (cnt : nat) : aligned :=
  let hi := t0 + n * Z.of_nat (cnt - 1) in
  let rows := slice t0 (hi + n - 1) (by_day c (frame k0 1 values)) in
  conclude t0 hi (target t0 n cnt) (if n >? 1 then resample_mean n rows else rows).
