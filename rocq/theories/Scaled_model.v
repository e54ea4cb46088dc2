(** Annual licences that are read as prices: AnnualExponentialLicense and AnnualHyperbolaLicense, /repo/pywr/parameters/licenses.py:153-190 and 193-228, one
    scenario combination; their state is that of AnnualLicense (Licences_model.v).
    `remaining` is an entry of a numpy array, so that divisions by zero give infinities or NaN and no exception, and lines 224-225 are never reached.
    Simplifications: the amount is not negative (zeros have no sign here); the exponential is that of the real numbers, and [None] where it is not a number
    (NaN or infinite: the amount or k is 0). *)
From Coq Require Import Reals Qreals.
From Verif Require Import Base Calendar_spec LP_model Licences_model.
Local Open Scope Q_scope.

(** Division of doubles; [None] is NaN. *)
Definition divide (a b : Q) : option ext :=
  if qeqb b 0 then (if qeqb a 0 then None else if qltb 0 a then Some PInf else Some NInf) else Some (Fin (a / b)).

(** 182-186 and 219-221: `x`. *)
Definition ratio (amount : Q) (s : annual) (t : Q) : option ext :=
  let remaining := annual_value s t in
  let expected := amount / inject_Z (365 + (if gleapb (step_year t) then 1 else 0)) in
  divide remaining expected.

(** 222-223 *)
Definition hyperbola_value (amount value : Q) (s : annual) (t : Q) : option ext :=
  match ratio amount s t with
  | None => None
  | Some (Fin x) => divide value x
  | Some _ => Some (Fin 0)
  end.

(** 187 *)
Definition exponential_value (amount max_value k : Q) (s : annual) (t : Q) : option R :=
  match ratio amount s t with
  | Some (Fin x) => if qeqb k 0 then None else Some (Q2R max_value * exp (Q2R (- x / k)))%R
  | _ => None
  end.

(** What a function of the state is in every timestep of a run: after before(), as in annual_run. *)
Fixpoint licence_run {A} (f : annual -> Q -> A) (amount : Q) (s : annual) (prev_flow : Q) (steps : list step) : list A :=
  match steps with
  | [] => []
  | x :: r =>
      let s1 := annual_before amount s prev_flow (s_time x) in
      f s1 (s_time x) :: licence_run f amount (annual_after s1 (s_flow x) (s_days x)) (s_flow x) r
  end.
