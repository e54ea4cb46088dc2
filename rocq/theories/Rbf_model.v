(** Daily, weekly and radial-basis-function annual profiles
    (/repo/pywr/parameters/_parameters.pyx:615-662, 985-1184). *)
From Verif Require Import Base Calendar_spec Calendar_model Ring Profiles_model.
Local Open Scope Q_scope.
Local Open Scope list_scope.

(** DailyProfileParameter.__init__ and .value, 627-638.  The values are a flat list (numpy's squeezing of nested lists is
    not modelled); [None] is the ValueError, and in [daily_value] an index outside the array. *)
Definition daily_init (values : list Q) : option (list Q) :=
  if Nat.eqb (length values) 366 then Some values else None.
Definition daily_value (stored : list Q) (d : date) : option Q :=
  nth_error stored (Z.to_nat (dayofyear_index (is_leap_year (yr d)) (day_of_year d))).

(** WeeklyProfileParameter.__init__ and .value, 648-661: of 53 values only the local name is truncated, all are stored. *)
Definition weekly_init (values : list Q) : option (list Q) :=
  let v := values in
  let values := if Nat.eqb (length values) 53 then firstn 52 values else values in
  if Nat.eqb (length values) 52 then Some v else None.
Definition weekly_value (stored : list Q) (d : date) : option Q :=
  nth_error stored (Z.to_nat (week_index (dayofyear_index (is_leap_year (yr d)) (day_of_year d)))).

(** np.diff. *)
Fixpoint diffs (l : list Z) : list Z :=
  match l with a :: ((b :: _) as r) => (b - a)%Z :: diffs r | _ => [] end.

(** The setter of days_of_year, 1096-1105; [None] is a ValueError (an IndexError for no day at all). *)
Definition set_days (values : list Z) : option (list Z) :=
  match values with
  | [] => None
  | v0 :: _ =>
      if negb (v0 =? 1)%Z then None
      else if Nat.ltb (length values) 3 then None
      else if existsb (fun x => x <=? 0)%Z (diffs values) then None
      else if existsb (fun v => (v <? 0)%Z || (365 <? v)%Z) values then None
      else Some values
  end.

(** The bounds on the days as optimisation variables, 1059-1086. *)
Inductive day_bounds :=
  | NoBounds
  | Range (r : Z)                          (** variable_days_of_year_range *)
  | Explicit (lower upper : list Z).       (** variable_days_lower_bounds, variable_days_upper_bounds *)

Definition bounds_init (b : day_bounds) (days : list Z) : option (list Z * list Z) :=
  match b with
  | NoBounds => Some ([], [])
  | Explicit lower upper =>
      if existsb (fun l => l <=? 1)%Z lower then None
      else if existsb (fun u => 365 <? u)%Z upper then None
      else if existsb (fun '(l2, u1) => l2 <=? u1)%Z (combine (tl lower) (removelast upper)) then None
      else Some (lower, upper)
  | Range r =>
      if (0 <? r)%Z
      then if existsb (fun x => x <=? 2 * r)%Z (diffs days) then None
           else Some (map (fun d => (d - r)%Z) (tl days), map (fun d => (d + r)%Z) (tl days))
      else Some ([], [])
  end.

Record rbf := Rbf {
  b_days : list Z; b_values : list Q; b_min : option Q; b_max : option Q;
  b_lower : list Z; b_upper : list Z; b_size : nat;
  b_interp : list Q   (** _interp_values; nothing before the first reset *)
}.

(** __init__, 1031-1090.  The bounds on the values, used by optimisers only, are left out. *)
Definition rbf_init (days : list Z) (values : list Q) (lo hi : option Q) (b : day_bounds) : option rbf :=
  if negb (Nat.eqb (length days) (length values)) then None
  else match set_days days with
       | None => None
       | Some days =>
           match bounds_init b days with
           | None => None
           | Some (l, u) =>
               Some (Rbf days values lo hi l u
                         (match b with
                          | NoBounds => 0
                          | Range r => if (0 <? r)%Z then length values - 1 else 0
                          | Explicit _ _ => length values - 1
                          end) [])
           end
       end.

(** The points given to scipy, 1118-1126. *)
Definition rbf_x (days : list Z) : list Z :=
  ((last days 0 - 365) :: days ++ [366; 366 + nth 1 days 0 - 1])%Z.
Definition rbf_y (values : list Q) : list Q :=
  last values 0 :: values ++ [nth 0 values 0; nth 1 values 0].

(** `max(min(v, max_value), min_value)`, 1135; no bound is an infinite one. *)
Definition clamp (lo hi : option Q) (v : Q) : Q :=
  let v := match hi with Some h => qmin v h | None => v end in
  match lo with Some l => qmax v l | None => v end.

(** reset and _interpolate, 1107-1143.  [fit xs ys] is scipy's `Rbf(xs, ys)`, a function of the day. *)
Definition rbf_reset (fit : list Z -> list Q -> Z -> Q) (p : rbf) : rbf :=
  let f := fit (rbf_x (b_days p)) (rbf_y (b_values p)) in
  Rbf (b_days p) (b_values p) (b_min p) (b_max p) (b_lower p) (b_upper p) (b_size p)
      (fold_left (spread (fun i => clamp (b_min p) (b_max p) (f (Z.of_nat i + 1)%Z))) (seq 0 365) (repeat 0 366)).

(** value, 1145-1147. *)
Definition rbf_value (p : rbf) (d : date) : option Q :=
  nth_error (b_interp p) (Z.to_nat (dayofyear_index (is_leap_year (yr d)) (day_of_year d))).

(** set_double_variables, 1150-1151 (a vector of another length is refused; one of length one, which would be repeated,
    is not modelled), set_integer_variables 1164-1165, get_integer_variables 1167-1168. *)
Definition rbf_set_values (p : rbf) (values : list Q) : option rbf :=
  if Nat.eqb (length values) (length (b_values p))
  then Some (Rbf (b_days p) values (b_min p) (b_max p) (b_lower p) (b_upper p) (b_size p) (b_interp p))
  else None.
Definition rbf_set_days (p : rbf) (values : list Z) : option rbf :=
  match set_days (1%Z :: values) with
  | Some days => Some (Rbf days (b_values p) (b_min p) (b_max p) (b_lower p) (b_upper p) (b_size p) (b_interp p))
  | None => None
  end.
Definition rbf_get_days (p : rbf) : list Z := tl (b_days p).
