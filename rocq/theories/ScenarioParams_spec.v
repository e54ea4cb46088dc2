(** Which member of its scenario a combination is about, and which value belongs to it. *)
From Verif Require Import Base Scenario_model ScenarioParams_model.
Local Open Scope Z_scope.
Local Open Scope list_scope.

(** In the combination [si] the scenario [id] has the member [i]. *)
Definition member (ids : list nat) (id : nat) (si : scenario_index) (i : nat) : Prop :=
  exists p, nth_error ids p = Some id /\ nth_error (indices si) p = Some (Z.of_nat i).

(** The value given for member [i] at timestep [t], in the combination with number [g]. *)
Definition belongs (p : param) (t : timestep) (g i : nat) (v : Q) : Prop :=
  match p with
  | ConstantScenario values => nth_error values i = Some v
  | ArrayIndexedScenario values => exists row, nth_error values (Z.to_nat (t_index t)) = Some row /\ nth_error row i = Some v
  | MonthlyFactors values factors =>
      exists a row f, nth_error values (Z.to_nat (t_index t)) = Some a /\ nth_error factors i = Some row /\
                      nth_error row (Z.to_nat (t_month t - 1)) = Some f /\ v = (a * f)%Q
  | MonthlyProfile values => exists row, nth_error values i = Some row /\ nth_error row (Z.to_nat (t_month t - 1)) = Some v
  | WeeklyProfile values => exists row, nth_error values i = Some row /\ nth_error row (Z.to_nat (t_week t)) = Some v
  | DailyProfile values => exists row, nth_error values i = Some row /\ nth_error row (Z.to_nat (t_day t)) = Some v
  | Wrapper children => exists child, nth_error children i = Some child /\ nth_error child g = Some v
  end.

(** The data covers the timestep. *)
Definition covers (p : param) (t : timestep) (combinations : nat) : Prop :=
  0 <= t_index t /\ 1 <= t_month t <= 12 /\ 0 <= t_week t < 52 /\ 0 <= t_day t < 366 /\
  match p with
  | ArrayIndexedScenario values => t_index t < Z.of_nat (length values)
  | MonthlyFactors values _ => t_index t < Z.of_nat (length values)
  | Wrapper children => Forall (fun child => length child = combinations) children
  | _ => True
  end.

(** All rows are of the same length. *)
Definition rectangular (m : list (list Q)) : Prop := Forall (fun r => Z.of_nat (length r) = width m) m.
Definition matrix (p : param) : list (list Q) :=
  match p with
  | ArrayIndexedScenario m | MonthlyFactors _ m | MonthlyProfile m | WeeklyProfile m | DailyProfile m => m
  | _ => []
  end.
