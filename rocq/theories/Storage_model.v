(** Volumes of storages: /repo/pywr/_core.pyx:1007-1455 (AbstractStorage, Storage, AggregatedStorage),
    one scenario combination.  NaN is [None]; a maximum volume is a number or +inf. *)
From Verif Require Import Base LP_model.
Open Scope Q_scope.

Definition eps6 : Q := 1 # 1000000.

(** `volume / max_volume`, ZeroDivisionError turned into NaN (1358-1361; _core.pyx is compiled without
    cdivision).  A finite number divided by an infinite one is 0. *)
Definition ratio (v : Q) (mxv : ext) : option Q :=
  match mxv with
  | Fin m => if qeqb m 0 then None else Some (v / m)
  | _ => Some 0
  end.

(** Lines 1353-1356: snap to max_volume, then to min_volume. *)
Definition snap (v : Q) (mxv : ext) (mnv : Q) : Q :=
  let v := match mxv with
           | Fin m => if qltb (qabs (v - m)) eps6 then m else v
           | _ => v
           end in
  if qltb (qabs (v - mnv)) eps6 then mnv else v.

(** Line 1351: min(mxv, max(mnv, volume)). *)
Definition clamp (v : Q) (mxv : ext) (mnv : Q) : Q :=
  match mxv with
  | Fin m => qmin m (qmax mnv v)
  | _ => qmax mnv v
  end.

(** Storage.after, 1335-1361: the new volume. *)
Definition volume_after (vol flow days : Q) (mxv : ext) (mnv : Q) (adj : option Q) : Q :=
  let v := vol + flow * days in
  let v := match adj with None => v | Some a => clamp (v + a) mxv mnv end in
  snap v mxv mnv.

(** ... and the new current_pc. *)
Definition pc_after (vol flow days : Q) (mxv : ext) (mnv : Q) (adj : option Q) : option Q :=
  ratio (volume_after vol flow days mxv mnv adj) mxv.

(** get_current_pc, 1027-1039. *)
Definition get_current_pc (pc : option Q) : Q :=
  match pc with
  | None => 1
  | Some p => if qltb 1 p then 1 else if qltb p 0 then 0 else p
  end.

(** max_volume as the user gave it: a number, a parameter with is_constant, another parameter. *)
Inductive maxsetting := MaxNumber (q : Q) | MaxConstant (q : Q) | MaxParameter.

(** The settings that decide the first volume.  [None]: not given (NaN) or not finite. *)
Record initial := { i_volume : option Q; i_pc : option Q; i_max : maxsetting }.

(** get_initial_volume, 1130-1154; [None] = RuntimeError. *)
Definition get_initial_volume (i : initial) : option Q :=
  match i_max i with
  | MaxParameter =>
      match i_pc i, i_volume i with
      | Some _, Some v => Some v
      | _, _ => None
      end
  | MaxNumber mxv | MaxConstant mxv =>
      match i_pc i with
      | Some p => Some (p * mxv)
      | None => i_volume i
      end
  end.

(** get_initial_pc, 1156-1182; outer [None] = RuntimeError, inner = NaN. *)
Definition get_initial_pc (i : initial) : option (option Q) :=
  match i_max i with
  | MaxParameter =>
      match i_pc i, i_volume i with
      | Some p, Some _ => Some (Some p)
      | _, _ => None
      end
  | MaxNumber mxv | MaxConstant mxv =>
      match i_pc i with
      | Some p => Some (Some p)
      | None => match i_volume i with
                | Some v => Some (ratio v (Fin mxv))
                | None => None
                end
      end
  end.

(** _reset_storage_only, 1294-1333; [now] is what the max_volume parameter (if any) says at this moment.
    Result: the new volume and current_pc. *)
Definition reset_storage_only (i : initial) (now : Q) (use_initial_volume : bool) : option (Q * option Q) :=
  if use_initial_volume then
    match get_initial_volume i, get_initial_pc i with
    | Some v, Some p => Some (v, p)
    | _, _ => None
    end
  else
    let mxv := match i_max i with MaxNumber q => q | _ => now end in
    Some (mxv, ratio mxv (Fin mxv)).

(** ** AggregatedStorage *)
(** What its after() reads of a member: _flow, get_max_volume, get_min_volume (1412-1415). *)
Record member := { m_flow : Q; m_max : ext; m_min : Q }.

Definition ext_add (a b : ext) : ext :=
  match a, b with
  | Fin x, Fin y => Fin (x + y)
  | NInf, _ | _, NInf => NInf
  | _, _ => PInf
  end.
Definition ext_sum (l : list ext) : ext := fold_left ext_add l (Fin 0).

(** after, 1401-1427: flow and volume. *)
Definition agg_storage_flow (ms : list member) : Q := fold_left (fun acc m => acc + m_flow m) ms 0.
Definition agg_storage_after (vol : Q) (ms : list member) (days : Q) : Q :=
  let mxv := ext_sum (map m_max ms) in
  let mnv := fold_left (fun acc m => acc + m_min m) ms 0 in
  snap (vol + agg_storage_flow ms * days) mxv mnv.

(** reset, 1384-1399 with initial_volume (1379-1382): the sum of the members' initial volumes. *)
Fixpoint agg_storage_reset (is : list initial) : option Q :=
  match is with
  | [] => Some 0
  | i :: r => match get_initial_volume i, agg_storage_reset r with
              | Some v, Some s => Some (v + s)
              | _, _ => None
              end
  end.
