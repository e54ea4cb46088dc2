(** What annual profiles should give, in terms of the calendar. *)
From Verif Require Import Base Calendar_spec.
Local Open Scope Z_scope.
Local Open Scope list_scope.

(** The day (1 to 365) of a date in a year without 29 February, which counts as the 28th. *)
Definition common_day (d : date) : Z := days_before false (mon d) + Z.min (dom d) (month_days false (mon d)).

(** Days that can carry a profile: from the first of January on, later and later, within one year of 365 days, at least three. *)
Definition good_days (days : list Z) : Prop :=
  nth_error days 0 = Some 1 /\ (3 <= length days)%nat /\
  (forall i j a b, (i < j)%nat -> nth_error days i = Some a -> nth_error days j = Some b -> a < b) /\
  (forall a, In a days -> 1 <= a <= 365).

(** Each of the values lies between its own bounds. *)
Definition within (lower upper values : list Z) : Prop :=
  length lower = length values /\ length upper = length values /\
  forall i v l u, nth_error values i = Some v -> nth_error lower i = Some l -> nth_error upper i = Some u -> l <= v <= u.
