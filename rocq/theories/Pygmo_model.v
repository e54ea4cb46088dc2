(** Model of [pywr/optimisation/pygmo.py]: how a pywr model is presented to pygmo. *)
From Verif Require Import Base LP_model Constraints_model Optimisation_model.

(** [a - b] of doubles; [None] is NaN. *)
Definition fsub (a b : option ext) : option ext :=
  match a, b with
  | Some (Fin x), Some (Fin y) => Some (Fin (x - y))
  | Some PInf, Some PInf => None
  | Some NInf, Some NInf => None
  | Some PInf, Some _ => Some PInf
  | Some NInf, Some _ => Some NInf
  | Some (Fin _), Some PInf => Some NInf
  | Some (Fin _), Some NInf => Some PInf
  | _, _ => None
  end.

(** [sign * value] with [sign] 1.0 or -1.0. *)
Definition signed (minimise : bool) (v : option ext) : option ext :=
  if minimise then v
  else match v with Some (Fin x) => Some (Fin (- x)) | Some PInf => Some NInf | Some NInf => Some PInf | None => None end.

(** What the wrapper reads of a recorder: [is_objective] ([None]: not an objective, [Some true]: 'minimise', _recorders.pyx 241-255),
    the bounds and the aggregated value after the run. *)
Record recorder := Recorder { r_objective : option bool; r_bounds : bounds; r_value : option ext }.

(** [model.objectives] and [model.constraints] (_model.pyx 143-149). *)
Definition objectives_of (rs : list recorder) : list recorder := filter (fun r => match r_objective r with None => false | Some _ => true end) rs.
Definition constraints_of (rs : list recorder) : list recorder := filter (fun r => is_constraint (r_bounds r)) rs.

(** 20-24 [fitness]: the objectives. *)
Definition objectives (rs : list recorder) : list (option ext) :=
  map (fun r => signed (match r_objective r with Some m => m | None => false end) (r_value r)) (objectives_of rs).

(** 26-47 [fitness]: the equality and the inequality constraints; [None]: RuntimeError. *)
Fixpoint fitness_constraints (cs : list recorder) : option (list (option ext) * list (option ext)) :=
  match cs with
  | [] => Some ([], [])
  | r :: rest =>
      let b := r_bounds r in
      let x := r_value r in
      match fitness_constraints rest with
      | None => None
      | Some (eqs, ineqs) =>
          if is_double_bounded b then Some (eqs, fsub (get_lower b) x :: fsub x (get_upper b) :: ineqs)
          else if is_equality b then Some (x :: eqs, ineqs)
          else if is_lower_bounded b then Some (eqs, fsub (get_lower b) x :: ineqs)
          else if is_upper_bounded b then Some (eqs, fsub x (get_upper b) :: ineqs)
          else None
      end
  end.

(** 54 [fitness]: the vector that is returned. *)
Definition fitness (rs : list recorder) : option (list (option ext)) :=
  match fitness_constraints (constraints_of rs) with
  | Some (eqs, ineqs) => Some (objectives rs ++ eqs ++ ineqs)
  | None => None
  end.

(** 80-93 [get_nobj], [get_nec], [get_nic]. *)
Definition get_nobj (rs : list recorder) : nat := length (objectives_of rs).
Definition get_nec (rs : list recorder) : nat := length (filter (fun r => is_equality (r_bounds r)) (constraints_of rs)).
Definition get_nic (rs : list recorder) : nat :=
  fold_left (fun count r =>
    if is_double_bounded (r_bounds r) then (count + 2)%nat
    else if is_lower_bounded (r_bounds r) || is_upper_bounded (r_bounds r) then (count + 1)%nat else count)
    (constraints_of rs) 0%nat.

(** 13-15 [fitness]: the values written to the variables. *)
Fixpoint write_doubles (solution : list Q) (vmap : list nat) (vars : list parameter) : option (list parameter) :=
  match vars with
  | [] => Some []
  | v :: r =>
      match set_double (slice (nth 0 vmap 0%nat) (nth 1 vmap 0%nat) solution) v, write_doubles solution (tl vmap) r with
      | Some v', Some r' => Some (v' :: r')
      | _, _ => None
      end
  end.
Definition fitness_variables (solution : list Q) (vars : list parameter) : option (list parameter) :=
  match variable_map 0 vars with
  | Some m => write_doubles solution m vars
  | None => None
  end.
