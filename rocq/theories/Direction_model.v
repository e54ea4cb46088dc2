(** Model of the directions of objectives: [pywr/recorders/_recorders.pyx] 35-46 (names), 241-255 (`is_objective`); [pywr/_model.pyx] 147-149
    (Model.objectives) and [pywr/optimisation/pygmo.py] 20-24, [pywr/optimisation/platypus.py] 131-135 (the sign) by way of Pygmo_model.v. *)
From Coq Require Import Strings.String.
From Verif Require Import Base LP_model Constraints_model Documents_model Pygmo_model.
Local Open Scope string_scope.
Local Open Scope list_scope.

(** ObjDirection and _obj_direction_lookup *)
Inductive direction := NoDirection | Maximise | Minimise.
Definition directions : dict direction :=
  [("maximize", Maximise); ("maximise", Maximise); ("max", Maximise); ("minimise", Minimise); ("minimize", Minimise); ("min", Minimise)].

(** The setter, 242-246: the direction afterwards and whether it was accepted (a KeyError otherwise). *)
Definition set_objective (value : option string) (d : direction) : direction * bool :=
  match value with
  | None => (NoDirection, true)
  | Some s => match get s directions with Some d' => (d', true) | None => (d, false) end
  end.

(** The getter, 247-255 *)
Definition get_objective (d : direction) : option string :=
  match d with NoDirection => None | Maximise => Some "maximise" | Minimise => Some "minimise" end.

(** What Pygmo_model.v calls [r_objective]: whether there is a text that is not empty (_model.pyx 149), and whether it is "minimise" (pygmo.py 22). *)
Definition objective_flag (d : direction) : option bool :=
  match get_objective d with
  | None => None
  | Some s => if String.eqb s "" then None else Some (String.eqb s "minimise")
  end.

(** Recorders made with a direction, bounds and an aggregated value; [None]: one is refused. *)
Definition made (r : option string * bounds * option ext) : option recorder :=
  let '(value, b, x) := r in
  match set_objective value NoDirection with
  | (d, true) => Some (Recorder (objective_flag d) b x)
  | (_, false) => None
  end.
