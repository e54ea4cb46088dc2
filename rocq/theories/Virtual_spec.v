(** Vocabulary for licences: what they record, in terms of flows and volumes only. *)
From Verif Require Import Base LP_model Sys_model RouteLP_model RouteLP_spec Storage_model Sim_model Storage_spec Virtual_model.
Open Scope Q_scope.

(** Volume charged to the licence [v] in one timestep: days * sum(factor * flow). *)
Definition charged (S : sys) (d : data) (fl : nat -> Q) (v : nat) : Q :=
  d_days d * qsum (map (fun mf => snd mf * fl (fst mf)) (combine (s_members S v) (s_vfactors S v))).

(** What is charged over several timesteps. *)
Definition charges (triv : bool) (S : sys) (v : nat) (l : list (data * (nat -> Q))) : Q :=
  qsum (map (fun dx => charged S (fst dx) (committed triv S (snd dx)) v) l).

(** Licences over the flows of links, inputs and outputs, each listed once and with a factor. *)
Definition licence_ok (S : sys) (v : nat) : Prop :=
  In v (s_nodes S) /\ s_kind S v = KVirtual /\ NoDup (s_members S v) /\
  length (s_vfactors S v) = length (s_members S v) /\
  forall m, In m (s_members S v) ->
    In m (s_nodes S) /\ is_flow_node (s_kind S m) = true /\ clean_at S m.

(** Solved timesteps interleaved with resets of the volume (periodic licences reset themselves). *)
Inductive licence_run (tol : Q) (triv : bool) (S : sys) (n : nat) (good : Q -> Prop) :
  Q -> list (data * (nat -> Q)) -> Q -> Prop :=
| lr_nil v : licence_run tol triv S n good v [] v
| lr_step v d x l v' :
    d_vol d n = v -> 0 < d_days d -> solved_within tol triv S d x ->
    licence_run tol triv S n good (vol_after S d (committed triv S x) n) l v' ->
    licence_run tol triv S n good v ((d, x) :: l) v'
| lr_reset v w l v' :
    good w -> licence_run tol triv S n good w l v' -> licence_run tol triv S n good v l v'.

(** Solved timesteps of a rolling licence of [k] timesteps with constant bounds 0 and [m], active throughout. *)
Inductive rolling_run (triv : bool) (S : sys) (n k : nat) (m : Q) : rolling -> list (data * (nat -> Q)) -> rolling -> Prop :=
| rr_nil r : rolling_run triv S n k m r [] r
| rr_step r d x l r' :
    d_vol d n = r_vol r -> d_minvol d n = 0 -> d_maxvol d n = Fin m -> d_active d n = true ->
    0 < d_days d -> solved triv S d x ->
    rolling_run triv S n k m
      (rolling_after k true r (virtual_flow S (committed triv S x) n) (d_days d) (Fin m) 0) l r' ->
    rolling_run triv S n k m r ((d, x) :: l) r'.

(** Along the run no volume is snapped up to the maximum: before snapping it is either at least 1e-6 below
    the maximum or not below it at all. *)
Inductive unsnapped_run (S : sys) (triv : bool) (n k : nat) (m : Q) : rolling -> list (data * (nat -> Q)) -> Prop :=
| ur_nil r : unsnapped_run S triv n k m r []
| ur_step r d x l :
    (let v := r_vol r + virtual_flow S (committed triv S x) n * d_days d + nth (r_ptr r) (r_mem r) 0 in
     m <= v \/ v <= m - eps6) ->
    unsnapped_run S triv n k m (rolling_after k true r (virtual_flow S (committed triv S x) n) (d_days d) (Fin m) 0) l ->
    unsnapped_run S triv n k m r ((d, x) :: l).

(** The same timestep, the licence [v] having another volume and other bounds. *)
Definition relicensed (d : data) (v : nat) (vol mn : Q) (mx : ext) : data := {|
  d_cost := d_cost d; d_min := d_min d; d_max := d_max d; d_factors := d_factors d;
  d_minvol := fun n => if Nat.eqb n v then mn else d_minvol d n;
  d_maxvol := fun n => if Nat.eqb n v then mx else d_maxvol d n;
  d_vol := fun n => if Nat.eqb n v then vol else d_vol d n;
  d_active := d_active d; d_days := d_days d |}.

(** Maximum and minimum volume differ. *)
Definition bounds_differ (mn : Q) (mx : ext) : Prop := forall m, mx = Fin m -> ~ m == mn.
