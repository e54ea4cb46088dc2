(** Activation functions as parameters: /repo/pywr/parameters/_activation_functions.pyx. *)
From Coq Require Import Reals Qreals.
From Verif Require Import Base.
Local Open Scope Q_scope.
Local Open Scope list_scope.

(** The internal variable and its bounds; the value is the same for all timesteps and combinations (`is_constant`). *)
Record internal := Internal { a_value : Q; a_lower : Q; a_upper : Q }.

(** set_double_variables 39-40 (an empty array is an IndexError), get_double_variables and the bounds 42-49. *)
Definition set_variables (a : internal) (values : list Q) : option internal :=
  match values with [] => None | v :: _ => Some (Internal v (a_lower a) (a_upper a)) end.
Definition get_variables (a : internal) : list Q := [a_value a].
Definition lower_bounds (a : internal) : list Q := [a_lower a].
Definition upper_bounds (a : internal) : list Q := [a_upper a].

(** 29-33. *)
Definition step_value (output : Q) (a : internal) : Q := if qleb (a_value a) 0 then 0 else output.

(** 82-86; [None]: division by zero. *)
Definition rectifier_value (min_output max_output : Q) (a : internal) : option Q :=
  if qleb (a_value a) 0 then Some 0
  else if qeqb (a_upper a) 0 then None
  else Some (min_output + (max_output - min_output) * a_value a / a_upper a).

(** 135-136, over the real numbers. *)
Definition logistic_value (max_output growth_rate : Q) (a : internal) : R :=
  (Q2R max_output / (1 + exp (- Q2R growth_rate * Q2R (a_value a))))%R.
