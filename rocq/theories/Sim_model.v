(** Volumes through the timesteps of a run: Model._step (/repo/pywr/_model.pyx:617-622) for one scenario
    combination: the solver commits flows, then `after` of every storage updates its volume. *)
From Verif Require Import Base LP_model Sys_model RouteLP_model Storage_model.
Open Scope Q_scope.

(** The volume of node [n] after the timestep with data [d] in which the flows [fl] were committed.
    Storage.after (_core.pyx:1335-1361); VirtualStorage.after (1483-1493) does nothing while inactive.
    Members of virtual storages are nodes whose flow is final after the commits of the solver. *)
Definition vol_after (S : sys) (d : data) (fl : nat -> Q) (n : nat) : Q :=
  match s_kind S n with
  | KStorage => volume_after (d_vol d n) (fl n) (d_days d) (d_maxvol d n) (d_minvol d n) None
  | KVirtual =>
      if d_active d n
      then volume_after (d_vol d n) (virtual_flow S fl n) (d_days d) (d_maxvol d n) (d_minvol d n) None
      else d_vol d n
  | _ => d_vol d n
  end.
