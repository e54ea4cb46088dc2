(** C01, C02: calendar indices of a timestep. *)
From Verif Require Import Base Calendar_spec Calendar_model Calendar_proofs.
Local Open Scope Z_scope.

(** C01: the leap-year test is the Gregorian rule. *)
Theorem C01_leap_year_gregorian : forall y, is_leap_year y = true <-> gregorian_leap y.
Proof. exact is_leap_year_gregorian. Qed.
Print Assumptions C01_leap_year_gregorian.

(** C01: the index is the position of (month, day) in a leap year, in 0..365. *)
Theorem C01_index_is_leap_position : forall d i days t,
  valid_date d -> mk_timestep d i days = Some t ->
  ts_dayofyear_index t = leap_position (mon d) (dom d) /\ 0 <= ts_dayofyear_index t <= 365.
Proof. exact index_is_leap_position. Qed.
Print Assumptions C01_index_is_leap_position.

(** C01: equal indices exactly for equal month and day, across all years. *)
Theorem C01_index_same_iff : forall d i days t d' i' days' t',
  valid_date d -> valid_date d' ->
  mk_timestep d i days = Some t -> mk_timestep d' i' days' = Some t' ->
  (ts_dayofyear_index t = ts_dayofyear_index t' <-> (mon d = mon d' /\ dom d = dom d')).
Proof. exact index_same_iff. Qed.
Print Assumptions C01_index_same_iff.

(** C01: only 29 February uses index 59. *)
Theorem C01_index_59_is_feb29 : forall d i days t,
  valid_date d -> mk_timestep d i days = Some t ->
  (ts_dayofyear_index t = 59 <-> (mon d = 2 /\ dom d = 29)).
Proof. exact index_59_feb29. Qed.
Print Assumptions C01_index_59_is_feb29.

(** C01: timesteps without positive length are refused, all others are built. *)
Theorem C01_timestep_refused_iff : forall d i days,
  mk_timestep d i days = None <-> (days <= 0)%Q.
Proof. exact timestep_refused. Qed.
Print Assumptions C01_timestep_refused_iff.

(** C02 *)
Theorem C02_week_index_range : forall d i days t,
  valid_date d -> mk_timestep d i days = Some t -> 0 <= ts_week_index t <= 51.
Proof. exact week_range. Qed.
Print Assumptions C02_week_index_range.

Theorem C02_week_index_monotone : forall d i days t d' i' days' t',
  valid_date d -> valid_date d' ->
  mk_timestep d i days = Some t -> mk_timestep d' i' days' = Some t' ->
  yr d = yr d' -> day_number d <= day_number d' -> ts_week_index t <= ts_week_index t'.
Proof. exact week_mono. Qed.
Print Assumptions C02_week_index_monotone.

Theorem C02_week_index_blocks : forall d i days t k,
  valid_date d -> mk_timestep d i days = Some t -> 0 <= k <= 51 ->
  (ts_week_index t = k <->
   7 * k <= ts_dayofyear_index t /\ (k < 51 -> ts_dayofyear_index t < 7 * k + 7)).
Proof. exact week_blocks. Qed.
Print Assumptions C02_week_index_blocks.

(** The hypotheses are met by real dates: 29 Feb 2000 (leap century), 1 Mar 1900, 31 Dec 2015. *)
Example calendar_examples :
  valid_date (Date 2000 2 29) /\ valid_date (Date 1900 3 1) /\ ~ valid_date (Date 1900 2 29) /\
  option_map ts_dayofyear_index (mk_timestep (Date 2000 2 29) 3 1) = Some 59 /\
  option_map ts_dayofyear_index (mk_timestep (Date 1900 3 1) 3 1) = Some 60 /\
  option_map ts_dayofyear_index (mk_timestep (Date 2015 12 31) 364 7) = Some 365 /\
  option_map ts_week_index (mk_timestep (Date 2015 12 31) 364 7) = Some 51 /\
  option_map ts_week_index (mk_timestep (Date 2015 12 23) 0 1) = Some 51.
Proof.
  repeat split; try (vm_compute; reflexivity); try (vm_compute; congruence).
  intros [_ [_ H]]. vm_compute in H. congruence.
Qed.

Example day_number_examples :
  date_of (day_number (Date 2015 12 31) + 1) = Date 2016 1 1 /\
  day_number (Date 2016 3 1) - day_number (Date 2016 2 28) = 2.
Proof. vm_compute. split; reflexivity. Qed.
