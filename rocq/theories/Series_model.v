(** Recorders that keep a value for every timestep and scenario, and duration curves: [pywr/recorders/_recorders.pyx] 574-1100, 1106-1553. *)
From Coq Require Import Qround.
From Verif Require Import Base Ring LP_model Sorting Scenario_model ScenarioParams_model Recorders_model.
Local Open Scope Q_scope.
Local Open Scope list_scope.

Definition matrix (A : Type) := list (list A).

(** [np.zeros((nts, ncomb))] in [setup] and [_data[:, :] = 0] in [reset]: 613-619, 1119-1125, 1387-1393, 1461-1466, 1520-1526. *)
Definition zeros (nts ncomb : nat) : matrix Q := repeat (repeat 0 ncomb) nts.

(** What a recorder can read about its node, storage or parameter for one scenario combination when [after] is called. *)
Record seen := Seen { n_flow : Q; n_max : ext; n_cost : Q; s_volume : Q; s_pc : Q; s_level : Q; s_area : Q; p_value : Q }.

Inductive series :=
| NodeFlow (factor : Q)      (* 621-626 *)
| NodeDeficit                (* 680-688 *)
| SuppliedRatio              (* 723-734 *)
| CurtailmentRatio           (* 769-779 *)
| NodeCost                   (* 804-810 *)
| StorageVolume              (* 1174-1183, proportional = False *)
| StorageProportion          (* 1174-1183, proportional = True *)
| NormalisedStorage          (* 1213-1232; the value of the parameter is the control curve *)
| StorageLevel               (* 1321-1329 *)
| StorageArea                (* 1349-1357 *)
| ParameterValue.            (* 1395-1399 and 1528-1532 *)

(** The entry written for one scenario; [None]: an exception, or the infinite deficit of a node without a maximum. *)
Definition entry (k : series) (s : seen) : option Q :=
  match k with
  | NodeFlow factor => Some (n_flow s * factor)
  | NodeDeficit => match n_max s with Fin q => Some (q - n_flow s) | _ => None end
  | SuppliedRatio => Some (supplied_ratio (n_flow s) (n_max s))
  | CurtailmentRatio => Some (curtailment_ratio (n_flow s) (n_max s))
  | NodeCost => Some (n_cost s)
  | StorageVolume => Some (s_volume s)
  | StorageProportion => Some (s_pc s)
  | NormalisedStorage => normalised_storage (s_pc s) (p_value s)
  | StorageLevel => Some (s_level s)
  | StorageArea => Some (s_area s)
  | ParameterValue => Some (p_value s)
  end.

(** [after]: the row of the timestep is written; what is seen is listed by global id. *)
Definition after (k : series) (m : matrix Q) (t : nat) (now : list seen) : option (matrix Q) :=
  option_map (upd m t) (sequence (map (entry k) now)).

(** A run: for every timestep its row number ([ts.index]; [ts.dayofyear_index] in NumpyArrayDailyProfileParameterRecorder, 1468-1473)
    and what is seen. *)
Fixpoint recorded (k : series) (m : matrix Q) (run : list (nat * list seen)) : option (matrix Q) :=
  match run with
  | [] => Some m
  | (t, now) :: r => bindo (after k m t now) (fun m => recorded k m r)
  end.

(** ** Percentiles *)

(** [np.percentile(data, p, axis=0)] for one column, with the default linear interpolation; [None]: refused (p outside 0-100, no data). *)
Definition np_percentile (l : list Q) (p : Q) : option Q :=
  if qltb p 0 || qltb 100 p then None
  else match l with
       | [] => None
       | _ => let s := isort qleb l in
              let n := length s in
              let h := inject_Z (Z.of_nat (n - 1)) * (p / 100) in
              let k := Z.to_nat (Qfloor h) in
              Some (nth k s 0 + (nth (Nat.min (k + 1) (n - 1)) s 0 - nth k s 0) * (h - inject_Z (Z.of_nat k)))
       end.

Definition column (m : matrix Q) (i : nat) : list Q := map (fun row => nth i row 0) m.

(** 851-852 and 1280-1281 [finish]: one row for every percentile. *)
Definition duration_curve (ncomb : nat) (m : matrix Q) (percentiles : list Q) : option (matrix Q) :=
  sequence (map (fun p => sequence (map (fun i => np_percentile (column m i) p) (seq 0 ncomb))) percentiles).

(** 900-910 SeasonalFlowDurationCurveRecorder.finish: the rows of the timesteps whose month is in the set; [month] is that of a timestep. *)
Definition seasonal_rows {A} (month : nat -> Z) (months : list Z) (m : list A) : list A :=
  map snd (filter (fun r => existsb (Z.eqb (month (fst r))) months) (combine (seq 0 (length m)) m)).
Definition seasonal_duration_curve (ncomb : nat) (month : nat -> Z) (months : list Z) (m : matrix Q) (percentiles : list Q) : option (matrix Q) :=
  duration_curve ncomb (seasonal_rows month months m) percentiles.

(** ** FlowDurationCurveDeviationRecorder *)

(** Target curves by column, one number for every percentile in each; a one dimensional array is a single column.
    [r_scenario]: the position of the scenario in the model, and its size. *)
Record deviation_recorder := Deviation {
  r_percentiles : list Q; r_lower : option (list (list Q)); r_upper : option (list (list Q)); r_scenario : option (nat * Z) }.

Definition fits (percentiles : list Q) (target : option (list (list Q))) : bool :=
  match target with None => true | Some cols => forallb (fun c => Nat.eqb (length c) (length percentiles)) cols end.

(** 945-979 __init__. *)
Definition make_deviation (percentiles : list Q) (lower upper : option (list (list Q))) (scenario : option (nat * Z)) : option deviation_recorder :=
  match lower, upper with
  | None, None => None
  | _, _ => if fits percentiles lower && fits percentiles upper then Some (Deviation percentiles lower upper scenario) else None
  end.

(** 1082-1100 load: [scenario] is taken out of the document, looked up and then not handed to the constructor. *)
Definition load_deviation (percentiles : list Q) (lower upper : option (list (list Q))) (scenario : option (nat * Z)) : option deviation_recorder :=
  make_deviation percentiles lower upper None.

(** 981-1001 setup. *)
Definition columns_match (r : deviation_recorder) (ncomb : nat) (target : option (list (list Q))) : bool :=
  match target with
  | None => true
  | Some cols =>
      match r_scenario r with
      | Some (_, size) => (Z.of_nat (length cols) =? size)%Z
      | None => negb (1 <? length cols)%nat || Nat.eqb (length cols) ncomb
      end
  end.
Definition setup_ok (r : deviation_recorder) (ncomb : nat) : bool := columns_match r ncomb (r_lower r) && columns_match r ncomb (r_upper r).

(** 1019-1042: the column used for a combination. *)
Definition target_column (r : deviation_recorder) (si : scenario_index) (cols : list (list Q)) : option (list Q) :=
  if Nat.eqb (length cols) 1 then nth_error cols 0
  else match r_scenario r with
       | Some (position, _) => bindo (nth_error (indices si) position) (fun j => at_z cols j)
       | None => nth_error cols (global_id si)
       end.

(** What a deviation can be: NaN after a ZeroDivisionError. *)
Definition deviation (actual : Q) (lower upper : option Q) : option Q :=
  bindo (match upper with None => Some 0 | Some u => double_div (actual - u) (Fin u) end) (fun udev =>
  bindo (match lower with None => Some 0 | Some l => double_div (l - actual) (Fin l) end) (fun ldev =>
  Some (qmax (qmax udev ldev) 0))).

Definition target_value (col : option (list Q)) (k : nat) : option Q := option_map (fun c => nth k c 0) col.

(** 1003-1063 finish for one combination: deviations by percentile; the outer [None] is an IndexError. *)
Definition deviations_of (r : deviation_recorder) (fdc : matrix Q) (i : nat) (si : scenario_index) : option (list (option Q)) :=
  let choose t := match t with None => Some None | Some cols => option_map Some (target_column r si cols) end in
  bindo (choose (r_lower r)) (fun lower => bindo (choose (r_upper r)) (fun upper =>
  Some (map (fun k => deviation (nth i (nth k fdc []) 0) (target_value lower k) (target_value upper k)) (seq 0 (length (r_percentiles r)))))).
Definition deviations (r : deviation_recorder) (fdc : matrix Q) (combinations : list scenario_index) : option (list (list (option Q))) :=
  sequence (map (fun p => deviations_of r fdc (fst p) (snd p)) (combine (seq 0 (length combinations)) combinations)).
