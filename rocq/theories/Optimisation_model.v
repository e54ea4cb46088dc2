(** Model of the optimisation variables: [pywr/optimisation/__init__.py], [pywr/optimisation/platypus.py] and the parameters that can be
    variables. *)
From Verif Require Import Base Ring.
From Coq Require Import QArith.Qround.

(** ** Parameters with variables *)

(** The state that the variables of a parameter stand for.
    [Single]: ConstantParameter (_parameters.pyx 146-180), OffsetParameter (1860-1901), BinaryStep/Rectifier/LogisticParameter
    (_activation_functions.pyx): one double.
    [Monthly]: MonthlyProfileParameter (696-796): the profile.
    [Harmonic]: AnnualHarmonicSeriesParameter (1335-1412): mean, amplitudes, phases.
    [Curve]: ControlCurveParameter (_control_curves.pyx 416-545): values and the indices of those that are variable.
    [Rbf]: RbfProfileParameter (1031-1184): values, days of the year, and the bounds of the days if they are variable.
    [Fixed]: any other parameter (double_size and integer_size 0). *)
Inductive parameter :=
| Single (value lower upper : Q)
| Monthly (values lower upper : list Q)
| Harmonic (mean : Q) (amplitudes phases : list Q)
| Curve (values : list Q) (indices : list nat)
| Rbf (values : list Q) (days : list Z) (day_bounds : option (list (Z * Z)))
| Fixed.

Definition double_size (p : parameter) : nat :=
  match p with
  | Single _ _ _ => 1
  | Monthly _ _ _ => 12
  | Harmonic _ amplitudes _ => 1 + 2 * length amplitudes
  | Curve _ indices => length indices
  | Rbf values _ _ => length values
  | Fixed => 0
  end.
Definition integer_size (p : parameter) : nat :=
  match p with Rbf values _ (Some _) => length values - 1 | _ => 0 end.

(** 1119-1130: the setter of days_of_year. *)
Fixpoint increasing (l : list Z) : bool :=
  match l with
  | a :: ((b :: _) as r) => (a <? b)%Z && increasing r
  | _ => true
  end.
Definition days_accepted (l : list Z) : bool :=
  (nth 0 l 0 =? 1)%Z && (3 <=? length l)%nat && increasing l && forallb (fun d => (0 <=? d)%Z && (d <=? 365)%Z) l.

(** [a[...] = values]: numpy refuses a different length. *)
Definition assign_array {A} (old new : list A) : option (list A) := if (length new =? length old)%nat then Some new else None.

Definition get_double (p : parameter) : list Q :=
  match p with
  | Single v _ _ => [v]
  | Monthly values _ _ => values
  | Harmonic mean amplitudes phases => mean :: amplitudes ++ phases
  | Curve values indices => map (fun i => nth i values 0) indices
  | Rbf values _ _ => values
  | Fixed => []
  end.
Definition set_double (x : list Q) (p : parameter) : option parameter :=
  match p with
  | Single v lo up => match x with v' :: _ => Some (Single v' lo up) | [] => None end
  | Monthly values lo up => match assign_array values x with Some v => Some (Monthly v lo up) | None => None end
  | Harmonic mean amplitudes phases =>
      match x with
      | [] => None
      | m :: r =>
          match assign_array amplitudes (firstn (length amplitudes) r), assign_array phases (skipn (length amplitudes) r) with
          | Some a, Some f => Some (Harmonic m a f)
          | _, _ => None
          end
      end
  | Curve values indices =>
      if (length x =? length indices)%nat then Some (Curve (fold_left (fun l iv => upd l (fst iv) (snd iv)) (combine indices x) values) indices)
      else None
  | Rbf values days b => match assign_array values x with Some v => Some (Rbf v days b) | None => None end
  | Fixed => None
  end.
Definition get_integer (p : parameter) : list Z := match p with Rbf _ days _ => tl days | _ => [] end.
(** 1168-1169. *)
Definition set_integer (x : list Z) (p : parameter) : option parameter :=
  match p with
  | Rbf values days b => if days_accepted (1%Z :: x) then Some (Rbf values (1%Z :: x) b) else None
  | _ => None
  end.

(** ** optimisation/__init__.py 8-24 [cache_variable_parameters]: the positions in the solution; [None]: ValueError. *)
Fixpoint variable_map (last : nat) (vars : list parameter) : option (list nat) :=
  match vars with
  | [] => Some [last]
  | v :: r =>
      let size := (double_size v + integer_size v)%nat in
      if (size <=? 0)%nat then None
      else match variable_map (last + size) r with Some m => Some (last :: m) | None => None end
  end.

(** ** platypus.py *)

(** [np.round]: to the nearest integer, halves to the even one. *)
Definition round_half_even (q : Q) : Z :=
  let f := Qfloor q in
  let r := q - inject_Z f in
  if qltb r (1 # 2) then f else if qltb (1 # 2) r then (f + 1)%Z else if Z.even f then f else (f + 1)%Z.

(** [solution[a:b]] *)
Definition slice {A} (a b : nat) (l : list A) : list A := firstn (b - a) (skipn a l).

(** 122-132, body of the loop in [evaluate] for variable [var] at positions [a, b). *)
Definition write_one (solution : list Q) (a b : nat) (var : parameter) : option parameter :=
  let x := slice a b solution in
  if negb (length x =? double_size var + integer_size var)%nat then None
  else
    let var1 := if (0 <? double_size var)%nat then set_double (firstn (double_size var) x) var else Some var in
    match var1 with
    | None => None
    | Some v1 =>
        if (0 <? integer_size var)%nat then set_integer (map round_half_even (skipn (length x - integer_size var) x)) v1
        else Some v1
    end.

Fixpoint write_all (solution : list Q) (vmap : list nat) (vars : list parameter) : option (list parameter) :=
  match vars with
  | [] => Some []
  | v :: r =>
      match write_one solution (nth 0 vmap 0%nat) (nth 1 vmap 0%nat) v, write_all solution (tl vmap) r with
      | Some v', Some r' => Some (v' :: r')
      | _, _ => None
      end
  end.

(** 119-132 [evaluate] up to the simulation. *)
Definition evaluate (solution : list Q) (vars : list parameter) : option (list parameter) :=
  match variable_map 0 vars with
  | Some m => write_all solution m vars
  | None => None
  end.

(** 205-219 [PywrRandomGenerator.generate] with use_current: the solution that stands for the present model. *)
Definition current_solution (vars : list parameter) : list Q :=
  flat_map (fun v => (if (0 <? double_size v)%nat then get_double v else []) ++
                     (if (0 <? integer_size v)%nat then map inject_Z (get_integer v) else [])) vars.

(** 1063-1092 [RbfProfileParameter.__init__]: the bounds of the days; [None]: ValueError.
    [explicit]: variable_days_lower_bounds and variable_days_upper_bounds, [range]: variable_days_of_year_range. *)
Fixpoint no_overlap (lower upper : list Z) : bool :=
  match lower, upper with
  | l2 :: lr, u1 :: ur => (u1 <? l2)%Z && no_overlap lr ur
  | _, _ => true
  end.
Fixpoint spaced (gap : Z) (l : list Z) : bool :=
  match l with
  | a :: ((b :: _) as r) => (gap <? b - a)%Z && spaced gap r
  | _ => true
  end.
Definition create_rbf (values : list Q) (days : list Z) (range : Z) (explicit : option (list Z * list Z)) : option parameter :=
  if negb (length days =? length values)%nat then None
  else if negb (days_accepted days) then None
  else
    match explicit with
    | Some (lower, upper) =>
        if existsb (fun d => (d <=? 1)%Z) lower then None
        else if existsb (fun d => (365 <? d)%Z) upper then None
        else if negb (no_overlap (tl lower) (removelast upper)) then None
        else Some (Rbf values days (Some (combine lower upper)))
    | None =>
        if (0 <? range)%Z then
          if negb (spaced (2 * range) days) then None
          else Some (Rbf values days (Some (map (fun d => (d - range, d + range)%Z) (tl days))))
        else Some (Rbf values days None)
    end.
