(** Model of the calendar part of [pywr/_core.pyx]. *)
From Verif Require Import Base Calendar_spec.
Local Open Scope Z_scope.

(** pywr/_core.pyx:243-245 [is_leap_year]:
    [(year & 3) == 0 and ((year % 25) != 0 or (year & 15) == 0)].
    Simplified: C [int] as [Z] (years are far from overflow). *)
Definition is_leap_year (y : Z) : bool :=
  (Z.land y 3 =? 0) && (negb (y mod 25 =? 0) || (Z.land y 15 =? 0)).

(** The calendar fields of a [Timestep], pywr/_core.pyx:276-301.
    Simplified: [period.year/month/day/dayofyear] come from pandas; they are taken to be the
    Gregorian values ([Calendar_spec]).  [days <= 0] is refused with ValueError (None). *)
Record timestep := Timestep {
  ts_index : nat;
  ts_days : Q;
  ts_date : date;
  ts_dayofyear : Z;
  ts_is_leap_year : bool;
  ts_dayofyear_index : Z;
  ts_week_index : Z
}.

(** pywr/_core.pyx:288-293: [i = dayofyear - 1; if not leap and i > 58: i += 1]. *)
Definition dayofyear_index (leap : bool) (doy : Z) : Z :=
  let i := doy - 1 in
  if negb leap then (if 58 <? i then i + 1 else i) else i.

(** pywr/_core.pyx:295-300: [51 if dayofyear_index >= 364 else dayofyear_index // 7]. *)
Definition week_index (idx : Z) : Z := if 364 <=? idx then 51 else idx / 7.

(** pywr/_core.pyx:276-300 [Timestep.__init__]. *)
Definition mk_timestep (d : date) (index : nat) (days : Q) : option timestep :=
  if qleb days 0 then None
  else
    let doy := day_of_year d in
    let leap := is_leap_year (yr d) in
    let i := dayofyear_index leap doy in
    Some (Timestep index days d doy leap i (week_index i)).
