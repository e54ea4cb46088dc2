(** What the recorders are meant to report. *)
From Verif Require Import Base Calendar_spec Timestepper_model Recorders_model.
Local Open Scope Q_scope.

(** Sum over the timesteps of a quantity of scenario [i]. *)
Definition over_run {A} (d : A) (i : nat) (f : Q -> A -> Q) (run : list (observed A)) : Q :=
  qsum (map (fun o => f (o_days o) (nth i (o_reads o) d)) run).

Definition steps_of {A} (run : list (observed A)) : Q := inject_Z (Z.of_nat (length run)).

(** One entry per scenario in every timestep. *)
Definition complete {A} (ncomb : nat) (run : list (observed A)) : Prop :=
  Forall (fun o => length (o_reads o) = ncomb) run.

(** Days of a period that lie between two instants, and in calendar year [y]. *)
Definition days_between (a b : Z) (p : period) : Q :=
  inject_Z (Z.max 0 (Z.min (p_stop p) b - Z.max (p_start p) a)) / inject_Z DAY.
Definition days_in_year (y : Z) (p : period) : Q := days_between (jan1 y * DAY) (jan1 (y + 1) * DAY) p.
Definition length_in_days (p : period) : Q := inject_Z (p_stop p - p_start p) / inject_Z DAY.

(** Daily flow of all nodes together, weighted with the factors. *)
Definition weighted_flow (factors flows : list Q) : Q := qsum (map (fun fw => fst fw * snd fw) (combine flows factors)).

Definition MINUTE : Z := 60 * SECOND.

(** A period of whole minutes less than 2^62 nanoseconds (146 years) from 1970. *)
Definition plain_period (p : period) : Prop :=
  (p_start p < p_stop p /\ p_start p mod MINUTE = 0 /\ p_stop p mod MINUTE = 0 /\
   Z.abs (p_start p - EPOCH) < 2 ^ 62 /\ Z.abs (p_stop p - EPOCH) < 2 ^ 62)%Z.

(** The period contains at most one 1 January 00:00 in its interior ([y] is the year it starts in). *)
Definition starts_in_year (y : Z) (p : period) : Prop := (jan1 y * DAY <= p_start p < jan1 (y + 1) * DAY)%Z.
Definition one_year_end (p : period) : Prop :=
  exists y, starts_in_year y p /\ (p_stop p <= jan1 (y + 2) * DAY)%Z.

(** The period ends at least 2^54+1 nanoseconds (about 208.5 days) away from 1 January 1970, or lies in one year. *)
Definition away_from_epoch (p : period) : Prop :=
  (2 ^ 54 < Z.abs (p_stop p - EPOCH) \/ exists y, jan1 y * DAY <= p_start p /\ p_stop p <= jan1 (y + 1) * DAY)%Z.

(** Years in order, as the timesteps of a run have them. *)
Fixpoint years_in_order (l : list Z) : Prop :=
  match l with
  | a :: ((b :: _) as r) => (a <= b)%Z /\ years_in_order r
  | _ => True
  end.

(** Number of different years of the list in which [p] holds of some entry. *)
Definition years_with (p : Z -> bool) (run : list (Z * Z)) : nat :=
  countb (fun y => existsb (fun o => Z.eqb (fst o) y && p (snd o)) run) (nodup Z.eq_dec (map fst run)).

(** A day of the year is at or after / at or before another one, by month and day of month. *)
Definition month_day_le (m d m' d' : Z) : bool := ((m <? m') || ((m =? m') && (d <=? d')))%Z.

(** The timestep counts: not in an excluded month, and inside the range of dates. *)
Definition counts (c : count_config) (d : date) : bool :=
  negb (match cc_exclude c with Some l => existsb (Z.eqb (mon d)) l | None => false end) &&
  match cc_from c with Some (m, dd) => month_day_le m dd (mon d) (dom d) | None => true end &&
  match cc_to c with Some (m, dd) => month_day_le (mon d) (dom d) m dd | None => true end.

(** Number of timesteps of year [y] that count and have some index at or above the threshold. *)
Definition timesteps_reached (c : count_config) (y : Z) (run : list (date * list Z)) : nat :=
  countb (fun o => Z.eqb (yr (fst o)) y && counts c (fst o) && existsb (fun v => (cc_threshold c <=? v)%Z) (snd o)) run.

(** A date of the year that exists in every year. *)
Definition every_year (md : option (Z * Z)) : Prop :=
  match md with None => True | Some (m, d) => (1 <= m <= 12 /\ 1 <= d <= month_days false m)%Z end.
