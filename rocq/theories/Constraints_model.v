(** Model of recorder constraints: [pywr/recorders/_recorders.pyx] 219-321, [Model.is_feasible] ([pywr/_model.pyx] 151-161) and their
    translation to a platypus problem ([pywr/optimisation/platypus.py]).  Bounds that are NaN are left out. *)
From Verif Require Import Base LP_model.

(** Comparison of doubles without NaN. *)
Definition ext_leb (a b : ext) : bool :=
  match a, b with
  | NInf, _ => true | _, PInf => true
  | Fin x, Fin y => qleb x y
  | _, _ => false
  end.
Definition ext_ltb (a b : ext) : bool := negb (ext_leb b a).
Definition ext_eqb (a b : ext) : bool := ext_leb a b && ext_leb b a.

(** The two attributes [_constraint_lower_bounds], [_constraint_upper_bounds]. *)
Record bounds := Bounds { c_lower : ext; c_upper : ext }.

(** 257-261: [None] if minus infinity. *)
Definition get_lower (b : bounds) : option ext := match c_lower b with NInf => None | e => Some e end.
(** 272-276: [None] if [np.isinf], of either sign. *)
Definition get_upper (b : bounds) : option ext := match c_upper b with Fin q => Some (Fin q) | _ => None end.

(** 250-256, [None]: ValueError. *)
Definition set_lower (value : option ext) (b : bounds) : option bounds :=
  match value with
  | None => Some (Bounds NInf (c_upper b))
  | Some v =>
      match get_upper b with
      | Some u => if ext_ltb u v then None else Some (Bounds v (c_upper b))
      | None => Some (Bounds v (c_upper b))
      end
  end.

(** 265-271. *)
Definition set_upper (value : option ext) (b : bounds) : option bounds :=
  match value with
  | None => Some (Bounds (c_lower b) PInf)
  | Some v =>
      match get_lower b with
      | Some l => if ext_ltb v l then None else Some (Bounds (c_lower b) v)
      | None => Some (Bounds (c_lower b) v)
      end
  end.

(** 219-233 [Recorder.__init__]: infinite bounds, then the lower and the upper setter. *)
Definition create (lower upper : option ext) : option bounds :=
  match set_lower lower (Bounds NInf PInf) with
  | Some b => set_upper upper b
  | None => None
  end.

(** 278-302. *)
Definition is_equality (b : bounds) : bool :=
  match get_upper b, get_lower b with Some u, Some l => ext_eqb l u | _, _ => false end.
Definition is_double_bounded (b : bounds) : bool :=
  match get_upper b, get_lower b with Some u, Some l => negb (ext_eqb l u) | _, _ => false end.
Definition is_lower_bounded (b : bounds) : bool :=
  match get_upper b, get_lower b with None, Some _ => true | _, _ => false end.
Definition is_upper_bounded (b : bounds) : bool :=
  match get_upper b, get_lower b with Some _, None => true | _, _ => false end.
Definition is_constraint (b : bounds) : bool :=
  match get_upper b, get_lower b with None, None => false | _, _ => true end.

(** An aggregated value; [None] is NaN, with which every comparison is false. *)
Definition fle (a : option ext) (b : option ext) : bool :=
  match a, b with Some x, Some y => ext_leb x y | _, _ => false end.
Definition feq (a : option ext) (b : option ext) : bool :=
  match a, b with Some x, Some y => ext_eqb x y | _, _ => false end.

(** 304-321 [is_constraint_violated]; [None]: ValueError. *)
Definition is_violated (b : bounds) (value : option ext) : option bool :=
  if is_equality b then Some (negb (feq value (get_lower b)))
  else if is_double_bounded b then Some (negb (fle (get_lower b) value && fle value (get_upper b)))
  else if is_lower_bounded b then Some (negb (fle (get_lower b) value))
  else if is_upper_bounded b then Some (negb (fle value (get_upper b)))
  else None.

(** [_model.pyx] 143-145 and 151-161: [constraints] and [is_feasible]; a recorder is its bounds and its aggregated value. *)
Definition constraints (rs : list (bounds * option ext)) : list (bounds * option ext) := filter (fun r => is_constraint (fst r)) rs.
Fixpoint any_violated (cs : list (bounds * option ext)) : option bool :=
  match cs with
  | [] => Some false
  | (b, v) :: r =>
      match is_violated b v with
      | None => None
      | Some true => Some true
      | Some false => any_violated r
      end
  end.
Definition is_feasible (rs : list (bounds * option ext)) : option bool := option_map negb (any_violated (constraints rs)).

(** ** platypus.py *)

(** 15-28 [count_constraints]. *)
Fixpoint count_constraints (cs : list bounds) : option nat :=
  match cs with
  | [] => Some 0%nat
  | b :: r =>
      match count_constraints r with
      | None => None
      | Some n => if is_double_bounded b then Some (2 + n)%nat else if is_constraint b then Some (1 + n)%nat else None
      end
  end.

(** Operators of [platypus.Constraint]. *)
Inductive operator := GE | LE | EQ.

(** 84-117 [_make_constraints]: what is stored at [problem.constraints[0], [1], ...]; [None]: RuntimeError. *)
Fixpoint make_constraints (cs : list bounds) : option (list (operator * option ext)) :=
  match cs with
  | [] => Some []
  | b :: r =>
      match make_constraints r with
      | None => None
      | Some l =>
          if is_double_bounded b then Some ((GE, get_lower b) :: (LE, get_upper b) :: l)
          else if is_equality b then Some ((EQ, get_lower b) :: l)
          else if is_lower_bounded b then Some ((GE, get_lower b) :: l)
          else if is_upper_bounded b then Some ((LE, get_upper b) :: l)
          else None
      end
  end.

(** 142-149 in [evaluate]: the values handed to platypus. *)
Definition evaluate_constraints (cs : list (bounds * option ext)) : list (option ext) :=
  flat_map (fun c => if is_double_bounded (fst c) then [snd c; snd c] else [snd c]) cs.

(** 136-140: the values of the objectives; [minimise] or [maximise]. *)
Definition objective (minimise : bool) (value : Q) : Q := (if minimise then 1 else -1) * value.
