(** Hydropower and aquifer formulas: /repo/pywr/recorders/_hydropower.pyx, /repo/pywr/parameters/_hydropower.pyx,
    /repo/pywr/parameters/groundwater.py. *)
From Verif Require Import Base LP_model.
Local Open Scope Q_scope.

(** 9.81 *)
Definition gravity : Q := 981 # 100.

(** The constants of a turbine. *)
Record turbine := { t_efficiency : Q; t_density : Q; t_flow_conv : Q; t_energy_conv : Q }.

(** recorders/_hydropower.pyx:4-59 hydropower_calculation *)
Definition hydropower (t : turbine) (flow water_elevation turbine_elevation : Q) : Q :=
  let head := water_elevation - turbine_elevation in
  let head := if qltb head 0 then 0 else head in
  let q := flow * t_flow_conv t in
  let power := t_density t * q * gravity * head * t_efficiency t in
  power * t_energy_conv t.

(** parameters/_hydropower.pyx:5-60 inverse_hydropower_calculation; a zero divisor raises ZeroDivisionError (the file is
    compiled with Python division), which gives infinity. *)
Definition inverse_hydropower (t : turbine) (power water_elevation turbine_elevation : Q) : ext :=
  let head := water_elevation - turbine_elevation in
  let head := if qltb head 0 then 0 else head in
  let divisor := t_energy_conv t * t_density t * gravity * head * t_efficiency t * t_flow_conv t in
  if qeqb divisor 0 then PInf else Fin (power / divisor).

(** The working head: recorders 133-144, 241-251, parameters 175-186.  [None]: ValueError. *)
Definition working_head (water turbine_elev : option Q) : option Q :=
  match water, turbine_elev with
  | Some w, Some e => Some (qmax (w - e) 0)
  | Some w, None => Some (qmax w 0)
  | None, Some e => Some (qmax e 0)
  | None, None => None
  end.

(** min(a, q) and max(a, q) of a number and a possibly infinite one. *)
Definition emin (a : Q) (q : ext) : ext := match q with Fin v => Fin (qmin a v) | PInf => Fin a | NInf => NInf end.
Definition emax (a : Q) (q : ext) : ext := match q with Fin v => Fin (qmax a v) | PInf => PInf | NInf => Fin a end.

(** HydropowerTargetParameter.value, parameters/_hydropower.pyx:170-205.  [None]: ValueError or AssertionError. *)
Definition target_value (t : turbine) (target : Q) (water turbine_elev : option Q) (min_head : Q) (max_flow min_flow : option Q) : option ext :=
  match working_head water turbine_elev with
  | None => None
  | Some head =>
      if qltb head min_head then Some (Fin 0)
      else
        let q := inverse_hydropower t target head 0 in
        let q := match max_flow with Some m => emin m q | None => q end in
        let q := match min_flow with Some m => emax m q | None => q end in
        match q with
        | Fin v => if qleb 0 v then Some q else None
        | PInf => Some q
        | NInf => None
        end
  end.

(** HydropowerRecorder.after, recorders/_hydropower.pyx:126-152: the power recorded for a flow. *)
Definition recorded_power (t : turbine) (flow : Q) (water turbine_elev : option Q) : option Q :=
  match working_head water turbine_elev with
  | None => None
  | Some head => Some (hydropower t flow head 0)
  end.

(** TotalHydroEnergyRecorder.after, 231-259: `_values += power * days`; [steps]: flow, water elevation and days. *)
Fixpoint total_energy (t : turbine) (turbine_elev : option Q) (acc : Q) (steps : list (Q * option Q * Q)) : option Q :=
  match steps with
  | [] => Some acc
  | (flow, water, days) :: r =>
      match recorded_power t flow water turbine_elev with
      | Some p => total_energy t turbine_elev (acc + p * days) r
      | None => None
      end
  end.

(** KeatingStreamFlowParameter.value, groundwater.py:45-61 (levels and transmissivity have the same length, 37-40). *)
Fixpoint keating_loop (C level acc : Q) (levels transmissivity : list Q) : Q :=
  match levels, transmissivity with
  | l :: lr, T :: Tr =>
      keating_loop C level (if qltb l level then acc + 2 * T * C * (level - l) else acc) lr Tr
  | _, _ => acc
  end.
Definition keating (C : Q) (levels transmissivity : list Q) (level : Q) : Q := keating_loop C level 0 levels transmissivity.
