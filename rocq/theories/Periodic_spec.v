(** When periodic licences should reset and be in force. *)
From Verif Require Import Base Calendar_spec Periodic_model.
Local Open Scope Z_scope.

(** A day of the year. *)
Definition day := (Z * Z)%type.
Definition md (t : date) : day := (mon t, dom t).
Definition day_le (a b : day) : Prop := fst a < fst b \/ (fst a = fst b /\ snd a <= snd b).
Definition day_lt (a b : day) : Prop := fst a < fst b \/ (fst a = fst b /\ snd a < snd b).

(** The timesteps of a run: numbered from 0, one date after the other. *)
Fixpoint ascending (l : list date) : Prop :=
  match l with
  | a :: ((b :: _) as t) => date_lt a b /\ ascending t
  | _ => True
  end.
Definition run_of (l : list date) : list pts :=
  map (fun id => {| p_index := fst id; p_date := snd id |}) (combine (seq 0 (length l)) l).

(** The i-th timestep is the first one of its year that starts on or after the day [r]. *)
Definition first_on_or_after (r : day) (l : list date) (i : nat) : Prop :=
  exists t, nth_error l i = Some t /\ day_le r (md t) /\
    forall j u, (j < i)%nat -> nth_error l j = Some u -> yr u = yr t -> ~ day_le r (md u).

(** Number of times the month changes up to timestep [i], the first timestep included. *)
Fixpoint month_changes (prev : option Z) (ms : list Z) (i : nat) : Z :=
  match ms with
  | [] => 0
  | m :: r =>
      (match prev with Some p => if p =? m then 0 else 1 | None => 1 end) +
      match i with O => 0 | S i => month_changes (Some m) r i end
  end.

(** The month of timestep [i] differs from that of the timestep before (or there is none). *)
Definition new_month (ms : list Z) (i : nat) : Prop :=
  exists m, nth_error ms i = Some m /\
    (i = O \/ exists j p, i = S j /\ nth_error ms j = Some p /\ p <> m).

(** Inside the season from day [r] (included) to day [e] (excluded), possibly across the year end. *)
Definition in_season (r e d : day) : Prop :=
  (day_lt r e /\ day_le r d /\ day_lt d e) \/ (day_lt e r /\ (day_le r d \/ day_lt d e)).

(** Two consecutive timesteps that do not step over anything: the last timestep of a year is on or after
    both days, and a season across the year end is preceded by a timestep outside of it. *)
Definition fine_step (r e : day) (a b : date) : Prop :=
  date_lt a b /\
  (yr a < yr b -> day_le r (md a) /\ day_le e (md a)) /\
  (day_lt e r -> day_le r (md b) -> yr a = yr b /\ day_le e (md a)).
Fixpoint fine (r e : day) (l : list date) : Prop :=
  match l with
  | a :: ((b :: _) as t) => fine_step r e a b /\ fine r e t
  | _ => True
  end.

(** The next day, and [n] days from [d]. *)
Definition tomorrow (d : date) : date :=
  if dom d <? month_days (gleapb (yr d)) (mon d) then Date (yr d) (mon d) (dom d + 1)
  else if mon d <? 12 then Date (yr d) (mon d + 1) 1 else Date (yr d + 1) 1 1.
Fixpoint daily (d : date) (n : nat) : list date :=
  match n with O => [] | S n => d :: daily (tomorrow d) n end.

(** A day that exists in every year. *)
Definition every_year (a : day) : Prop := 1 <= fst a <= 12 /\ 1 <= snd a <= month_days false (fst a).

(** Months since year 0, and dates that skip no month. *)
Definition month_number (t : date) : Z := 12 * yr t + (mon t - 1).
Fixpoint no_month_skipped (l : list date) : Prop :=
  match l with
  | a :: ((b :: _) as t) => month_number a <= month_number b <= month_number a + 1 /\ no_month_skipped t
  | _ => True
  end.
