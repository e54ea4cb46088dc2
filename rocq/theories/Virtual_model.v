(** Virtual storages (licences): /repo/pywr/_core.pyx:1458-1536, /repo/pywr/nodes.py:427-593,
    one scenario combination.  VirtualStorage.after itself is [vol_after] of Sim_model.v with
    [virtual_flow] of Sys_model.v. *)
From Verif Require Import Base Ring LP_model Sys_model RouteLP_model Storage_model Sim_model.
Open Scope Q_scope.

(** RollingVirtualStorage: _volume, _memory (timesteps - 1 entries), _memory_pointer. *)
Record rolling := { r_vol : Q; r_mem : list Q; r_ptr : nat }.

(** nodes.py:581-593 and _core.pyx:1503-1504: the number of timesteps, from `days` if given
    ([delta]: length of a timestep in days); [None] = ValueError. *)
Definition rolling_timesteps (days : option Z) (timesteps : Z) (delta : Z) : option nat :=
  let n := match days with
           | Some d => if (0 <? d)%Z then (d / delta)%Z else timesteps
           | None => timesteps
           end in
  if (n <? 2)%Z then None else Some (Z.to_nat n).

(** setup, 1500-1515: _initial_utilisation.  NaN percentages (zero capacity) are not followed: [None]. *)
Definition initial_utilisation (i : initial) (n : nat) : option Q :=
  let k := inject_Z (Z.of_nat n - 1) in
  match get_initial_volume i, get_initial_pc i with
  | Some v, Some (Some pc) =>
      if qeqb pc 0 then
        match i_max i with
        | MaxNumber m => Some (m / k)
        | _ => None                                  (* ValueError *)
        end
      else Some ((v / pc - v) / k)
  | _, _ => None
  end.

(** setup and reset, 1514-1520. *)
Definition rolling_reset (i : initial) (n : nat) : option rolling :=
  match initial_utilisation i n, get_initial_volume i with
  | Some u, Some v => Some {| r_vol := v; r_mem := repeat u (n - 1); r_ptr := 0 |}
  | _, _ => None
  end.

(** after, 1522-1536: [flow] is what VirtualStorage.after computes; while inactive _flow keeps the 0 of
    before(). *)
Definition rolling_after (n : nat) (active : bool) (r : rolling) (flow days : Q) (mxv : ext) (mnv : Q) : rolling :=
  let flow := if active then flow else 0 in
  {| r_vol := if active then volume_after (r_vol r) flow days mxv mnv (Some (nth (r_ptr r) (r_mem r) 0)) else r_vol r;
     r_mem := upd (r_mem r) (r_ptr r) (- flow * days);
     r_ptr := (r_ptr r + 1) mod (n - 1) |}.
