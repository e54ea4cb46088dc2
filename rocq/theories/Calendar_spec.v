(** The Gregorian calendar, written down independently of the code. *)
From Verif Require Import Base.
Local Open Scope Z_scope.

(** Gregorian rule. *)
Definition gregorian_leap (y : Z) : Prop :=
  y mod 4 = 0 /\ (y mod 100 <> 0 \/ y mod 400 = 0).

Definition gleapb (y : Z) : bool :=
  (y mod 4 =? 0) && (negb (y mod 100 =? 0) || (y mod 400 =? 0)).

(** Length of month [m] (1..12). *)
Definition month_days (leap : bool) (m : Z) : Z :=
  if m =? 2 then (if leap then 29 else 28)
  else if (m =? 4) || (m =? 6) || (m =? 9) || (m =? 11) then 30 else 31.

(** Days before the first of month [m]. *)
Definition days_before (leap : bool) (m : Z) : Z :=
  fold_left (fun acc k => if k <? m then acc + month_days leap k else acc)
            [1;2;3;4;5;6;7;8;9;10;11;12] 0.

Record date := Date { yr : Z; mon : Z; dom : Z }.

Definition valid_date (d : date) : Prop :=
  1 <= mon d <= 12 /\ 1 <= dom d <= month_days (gleapb (yr d)) (mon d).

(** 1-based day of the year: what [pandas.Period.dayofyear] returns. *)
Definition day_of_year (d : date) : Z := days_before (gleapb (yr d)) (mon d) + dom d.

(** 0-based position of (month, day) in a leap year. *)
Definition leap_position (m d : Z) : Z := days_before true m + d - 1.

Definition year_days (y : Z) : Z := if gleapb y then 366 else 365.

(** Day number of 1 January of year [y] (1 January of year 1 is day 0). *)
Definition jan1 (y : Z) : Z :=
  365 * (y - 1) + (y - 1) / 4 - (y - 1) / 100 + (y - 1) / 400.

(** Day number of a date. *)
Definition day_number (d : date) : Z := jan1 (yr d) + day_of_year d - 1.

(** Chronological order of dates. *)
Definition date_lt (a b : date) : Prop :=
  yr a < yr b \/ (yr a = yr b /\ (mon a < mon b \/ (mon a = mon b /\ dom a < dom b))).

(** Year, month and day of a day number. *)
Definition year_of (n : Z) : Z :=
  let y := (400 * n) / 146097 + 1 in
  if n <? jan1 y then y - 1 else if jan1 (y + 1) <=? n then y + 1 else y.

Definition month_of_doy (leap : bool) (i : Z) : Z :=
  fold_left (fun acc k => if days_before leap k <? i then k else acc)
            [1;2;3;4;5;6;7;8;9;10;11;12] 1.

Definition date_of (n : Z) : date :=
  let y := year_of n in
  let i := n - jan1 y + 1 in
  let m := month_of_doy (gleapb y) i in
  Date y m (i - days_before (gleapb y) m).
