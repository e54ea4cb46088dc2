(** WeightedAverageProfileParameter: /repo/pywr/parameters/_control_curves.pyx:554-628. *)
From Verif Require Import Base Calendar_spec Calendar_model Profiles_model.
Local Open Scope Q_scope.
Local Open Scope list_scope.

(** Storage.max_volume (/repo/pywr/_core.pyx:1212-1216): a number or a Parameter. *)
Inductive volume := VNumber (q : Q) | VConstant (q : Q) | VParameter.

(** The profiles: a parameter that is constant, a DailyProfileParameter, a MonthlyProfileParameter, or any other. *)
Inductive profile := PConstant (q : Q) | PDaily (values : list Q) | PMonthly (day : option interp_day) (values : list Q) | POther.
(** Their constructors: 366 values (_parameters.pyx:627-634), 12 values (702-704). *)
Definition profile_ok (p : profile) : bool :=
  match p with PDaily values => Nat.eqb (length values) 366 | PMonthly _ values => Nat.eqb (length values) 12 | _ => true end.

(** What each of them returns in a timestep: get_constant_value, 636-637, and 767-771. *)
Definition profile_value (p : profile) (d : date) : option Q :=
  match p with
  | PConstant q => Some q
  | PDaily values => Some (nth (Z.to_nat (dayofyear_index (is_leap_year (yr d)) (day_of_year d))) values 0)
  | PMonthly day values => Some (monthly_value day values d)
  | POther => None
  end.

(** 589-594: the volume; [None] is an exception.  `max_volume.is_constant()` calls the attribute `is_constant` (a C boolean, _parameters.pxd:10), which is
    a TypeError whether it is true or not. *)
Definition volume_of (v : volume) : option Q := match v with VNumber q => Some q | VConstant _ | VParameter => None end.
(** 597-607: 366 values. *)
Definition daily_of (p : profile) : option (list Q) :=
  match p with
  | PConstant q => Some (repeat q 366)
  | PDaily values => Some values
  | PMonthly day values => Some (monthly_daily_values day values)
  | POther => None
  end.
(** reset, 580-612: [zip] stops with the shorter list.  Adding arrays is done element by element. *)
Fixpoint totals (members : list (volume * profile)) (total : Q) (absolute : list Q) : option (Q * list Q) :=
  match members with
  | [] => Some (total, absolute)
  | (v, p) :: r =>
      match volume_of v with
      | None => None
      | Some q => match daily_of p with
                  | None => None
                  | Some values => totals r (total + q) (map (fun ab => fst ab + snd ab * q) (combine absolute values))
                  end
      end
  end.
(** Division of an array by zero gives NaN or infinities: [None] inside. *)
Definition reset (storages : list volume) (profiles : list profile) : option (list (option Q)) :=
  match totals (combine storages profiles) 0 (repeat 0 366) with
  | None => None
  | Some (total, absolute) => Some (map (fun a => if qeqb total 0 then None else Some (a / total)) absolute)
  end.

(** value, 614-615. *)
Definition value (daily_values : list (option Q)) (d : date) : option Q :=
  nth (Z.to_nat (dayofyear_index (is_leap_year (yr d)) (day_of_year d))) daily_values None.
