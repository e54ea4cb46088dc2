(** Annual profiles: MonthlyProfileParameter and UniformDrawdownProfileParameter
    (/repo/pywr/parameters/_parameters.pyx:664-796, 912-977). *)
From Verif Require Import Base Calendar_spec Calendar_model Ring.
Local Open Scope Q_scope.

(** np.interp for one query [q] and knots [xs] (ascending), [ys]: the end values outside, on
    [x_j <= q < x_j+1] the slope times the distance plus [y_j]. *)
Fixpoint np_interp (q : Z) (xs : list Z) (ys : list Q) : Q :=
  match xs, ys with
  | x0 :: ((x1 :: _) as xr), y0 :: ((y1 :: _) as yr) =>
      if (q <? x0)%Z then y0
      else if (q <? x1)%Z then (y1 - y0) / inject_Z (x1 - x0) * inject_Z (q - x0) + y0
      else np_interp q xr yr
  | _ :: _, y0 :: _ => y0
  | _, _ => 0
  end.

Inductive interp_day := First | Last.

(** The knots, lines 736-752: `x.append(x[-1] + calendar.monthrange(2015, mth)[1])`, 2015 not being a leap year. *)
Definition knots_x (start : Z) : list Z :=
  rev (fold_left (fun x mth => (hd 0%Z x + month_days false mth)%Z :: x) [1; 2; 3; 4; 5; 6; 7; 8; 9; 10; 11; 12]%Z [start]).
Definition knots_y (day : interp_day) (values : list Q) : list Q :=
  match day with
  | First => map (fun mth => nth mth values 0) (seq 0 12) ++ [nth 0 values 0]
  | Last => nth 11 values 0 :: map (fun mth => nth mth values 0) (seq 0 12)
  end.
Definition knots_start (day : interp_day) : Z := match day with First => 1 | Last => 0 end.

(** _interpolate, lines 731-765: 365 interpolated values spread over 366 entries. *)
Definition interp_365 (day : interp_day) (values : list Q) (i : nat) : Q :=
  np_interp (Z.of_nat i + 1) (knots_x (knots_start day)) (knots_y day values).
Definition spread (f : nat -> Q) (out : list Q) (i : nat) : list Q :=
  if Nat.ltb i 58 then upd out i (f i)
  else if Nat.eqb i 58 then upd (upd out i (f i)) (i + 1) (f i)
  else if Nat.ltb 58 i then upd out (i + 1) (f i)
  else out.
Definition interp_values (day : interp_day) (values : list Q) : list Q :=
  fold_left (spread (interp_365 day values)) (seq 0 365) (repeat 0 366).

(** value, lines 767-771. *)
Definition monthly_value (day : option interp_day) (values : list Q) (d : date) : Q :=
  match day with
  | None => nth (Z.to_nat (mon d - 1)) values 0
  | Some day => nth (Z.to_nat (dayofyear_index (is_leap_year (yr d)) (day_of_year d))) (interp_values day values) 0
  end.

(** get_daily_values, lines 776-785 (a leap year: 2016). *)
Definition monthly_daily_values (day : option interp_day) (values : list Q) : list Q :=
  match day with
  | Some day => interp_values day values
  | None => flat_map (fun mth => repeat (nth mth values 0) (Z.to_nat (month_days true (Z.of_nat mth + 1)))) (seq 0 12)
  end.

(** UniformDrawdownProfileParameter.reset and .value, lines 938-977; the reset day is looked up in the leap year 2016. *)
Definition reset_idoy (reset_month reset_day : Z) : Z := day_of_year (Date 2016 reset_month reset_day) - 1.
Definition drawdown_days (reset_month reset_day : Z) (d : date) : Z * Z :=
  let current := dayofyear_index (is_leap_year (yr d)) (day_of_year d) in
  let reset := reset_idoy reset_month reset_day in
  let into := (current - reset)%Z in
  let year := if (into <? 0)%Z then (yr d - 1)%Z else yr d in
  let year := if (59 <? reset)%Z then (year + 1)%Z else year in
  let total := if is_leap_year year then 366%Z else 365%Z in
  let into := if (into <? 0)%Z
              then if negb (is_leap_year (yr d)) && (59 <? current)%Z then (into + 366 - 1)%Z else (into + 366)%Z
              else into in
  (into, total).
Definition drawdown (reset_month reset_day residual_days : Z) (d : date) : Q :=
  let '(into, total) := drawdown_days reset_month reset_day d in
  let residual := inject_Z residual_days / inject_Z total in
  let slope := (residual - 1) / inject_Z total in
  1 + slope * inject_Z into.
