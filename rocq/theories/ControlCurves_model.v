(** Control curve parameters (/repo/pywr/parameters/_control_curves.pyx) and the piecewise integral parameter
    (/repo/pywr/parameters/_parameters.pyx:2046-2096).

    A control curve and a value parameter enter by the number [get_value(scenario_index)] returns in the timestep and
    scenario at hand, [pc] is [storage_node.get_current_pc(scenario_index)] (modelled in Storage_model.v). *)
From Verif Require Import Base.
Local Open Scope Q_scope.

(** ControlCurveIndexParameter.index (345-364): [index = len(curves)], overwritten by the first [j] with [pc >= curve_j],
    then [break]. *)
Fixpoint index_loop (pc : Q) (j : nat) (curves : list Q) (index : nat) : nat :=
  match curves with
  | [] => index
  | cc :: r => if qleb cc pc then j else index_loop pc (S j) r index
  end.
Definition curve_index (pc : Q) (curves : list Q) : nat := index_loop pc 0 curves (length curves).

(** Python's [values[-k]]; [k >= 1]. *)
Definition from_end (values : list Q) (k : nat) : Q := nth (length values - k) values 0.

(** ControlCurveParameter.value (501-524); [values] are [self._values] or the values of [self.parameters]. *)
Fixpoint value_loop (values : list Q) (pc : Q) (j : nat) (curves : list Q) : Q :=
  match curves with
  | [] => from_end values 1
  | cc :: r => if qleb cc pc then nth j values 0 else value_loop values pc (S j) r
  end.
Definition curve_value (values : list Q) (pc : Q) (curves : list Q) : Q := value_loop values pc 0 curves.

(** ControlCurveParameter.__init__ (413-439): the number of values is checked, none given means 0, 1, 2, ...; the setter
    of [control_curves] (50-67) does not check again. *)
Definition curve_parameter_init (curves : list Q) (values : option (list Q)) : option (list Q) :=
  match values with
  | Some v => if Nat.eqb (length v) (length curves + 1) then Some v else None
  | None => Some (map (fun k => inject_Z (Z.of_nat k)) (seq 0 (length curves + 1)))
  end.

(** ControlCurveInterpolatedParameter.value (171-214).  The division raises ZeroDivisionError for a zero divisor (the file
    switches C division on for [_interpolate] only), which the code catches. *)
Fixpoint interp_loop (values : list Q) (pc cc_prev : Q) (j : nat) (curves : list Q) : Q :=
  match curves with
  | [] =>
      if qeqb (cc_prev - 0) 0 then from_end values 2
      else let weight := (pc - 0) / (cc_prev - 0) in from_end values 2 * weight + from_end values 1 * (1 - weight)
  | cc :: r =>
      if qleb cc pc then
        if qeqb (cc_prev - cc) 0 then nth (j + 1) values 0
        else let weight := (pc - cc) / (cc_prev - cc) in nth j values 0 * weight + nth (j + 1) values 0 * (1 - weight)
      else interp_loop values pc cc (S j) r
  end.
Definition curve_interpolated (values : list Q) (pc : Q) (curves : list Q) : Q := interp_loop values pc 1 0 curves.

(** [_interpolate] (10-24). *)
Definition interpolate (pos lower upper lower_value upper_value : Q) : Q :=
  if qltb pos lower then lower_value
  else if qltb upper pos then upper_value
  else if qeqb upper lower then lower_value
  else lower_value + (upper_value - lower_value) * ((pos - lower) / (upper - lower)).

(** ControlCurvePiecewiseInterpolatedParameter.value (276-297); a row of [self._values] is a pair
    ([values[j, 0]], [values[j, 1]]) = (value at the top of the band, value at its foot). *)
Fixpoint piecewise_loop (values : list (Q * Q)) (minimum pc cc_prev : Q) (j : nat) (curves : list Q) (ncc : nat) : Q :=
  match curves with
  | [] => interpolate pc minimum cc_prev (snd (nth ncc values (0, 0))) (fst (nth ncc values (0, 0)))
  | cc :: r =>
      if qleb cc pc then interpolate pc cc cc_prev (snd (nth j values (0, 0))) (fst (nth j values (0, 0)))
      else piecewise_loop values minimum pc cc (S j) r ncc
  end.
Definition curve_piecewise (values : list (Q * Q)) (minimum maximum pc : Q) (curves : list Q) : Q :=
  piecewise_loop values minimum pc maximum 0 curves (length curves).

(** PiecewiseIntegralParameter.setup (2072-2079): equal lengths, [np.diff(x)] nowhere negative. *)
Fixpoint diffs_ok (xs : list Q) : bool :=
  match xs with
  | a :: ((b :: _) as r) => negb (qltb (b - a) 0) && diffs_ok r
  | _ => true
  end.
Definition integral_setup (xs ys : list Q) : bool := Nat.eqb (length xs) (length ys) && diffs_ok xs.

(** PiecewiseIntegralParameter.value (2081-2096). *)
Fixpoint integral_loop (x prev_x acc : Q) (xs ys : list Q) : Q :=
  match xs, ys with
  | xi :: xr, yi :: yr =>
      let dx := if qltb x xi then x - prev_x else xi - prev_x in
      if qltb dx 0 then acc else integral_loop x xi (acc + dx * yi) xr yr
  | _, _ => acc
  end.
Definition integral (xs ys : list Q) (x : Q) : Q := integral_loop x 0 0 xs ys.
