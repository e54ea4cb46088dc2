(** Vocabulary for the storage properties. *)
From Verif Require Import Base LP_model Sys_model RouteLP_model RouteLP_spec Storage_model Sim_model.
Open Scope Q_scope.

(** A solution in which every row may be violated by up to [tol] (the feasibility tolerance of a
    floating point solver). *)
Definition bounds_within (tol : Q) (t : rtype) (lb ub : ext) (v : Q) : Prop :=
  match t with
  | FR => True
  | LO => ext_le_q lb (v + tol)
  | UP => q_le_ext (v - tol) ub
  | DB => ext_le_q lb (v + tol) /\ q_le_ext (v - tol) ub
  | FX => match lb with Fin q => q - tol <= v <= q + tol | _ => False end
  end.

Definition solved_within (tol : Q) (triv : bool) (S : sys) (d : data) (x : nat -> Q) : Prop :=
  exists P, posed triv S d = Ok P /\
    (forall r, In r (lp_rows P) -> bounds_within tol (r_type r) (r_lb r) (r_ub r) (row_value x r)).

(** Any number of solved timesteps, of any lengths, in which node [n] is taken from volume [v] to
    volume [v'].  Everything else (costs, flow bounds, factors, other volumes, the solver's choice)
    may differ from timestep to timestep. *)
Inductive volume_run (tol : Q) (triv : bool) (S : sys) (n : nat) : Q -> list (data * (nat -> Q)) -> Q -> Prop :=
| vr_nil v : volume_run tol triv S n v [] v
| vr_step v d x l v' :
    d_vol d n = v -> 0 < d_days d -> solved_within tol triv S d x ->
    volume_run tol triv S n (vol_after S d (committed triv S x) n) l v' ->
    volume_run tol triv S n v ((d, x) :: l) v'.

(** Sum of flow * days of a history. *)
Definition gained (h : list (Q * Q)) : Q := qsum (map (fun fd => fst fd * snd fd) h).

(** Volumes of a storage with bounds [mn], [mx] along a history of (flow, days). *)
Fixpoint volume_along (mx : ext) (mn v : Q) (h : list (Q * Q)) : Q :=
  match h with
  | [] => v
  | (f, d) :: r => volume_along mx mn (volume_after v f d mx mn None) r
  end.

(** Members with their (constant) bounds. *)
Definition bounds := (ext * Q)%type.

(** One timestep of the member storages: their flows, one after the other. *)
Fixpoint members_step (bs : list bounds) (vs fs : list Q) (days : Q) : list Q :=
  match bs, vs, fs with
  | (mx, mn) :: bs, v :: vs, f :: fs => volume_after v f days mx mn None :: members_step bs vs fs days
  | _, _, _ => []
  end.

Fixpoint members_along (bs : list bounds) (vs : list Q) (h : list (list Q * Q)) : list Q :=
  match h with
  | [] => vs
  | (fs, days) :: r => members_along bs (members_step bs vs fs days) r
  end.

(** The aggregated storage over the same timesteps. *)
Fixpoint aggregated_along (bs : list bounds) (v : Q) (h : list (list Q * Q)) : Q :=
  match h with
  | [] => v
  | (fs, days) :: r =>
      aggregated_along bs
        (agg_storage_after v (map (fun bf => {| m_flow := snd bf; m_max := fst (fst bf); m_min := snd (fst bf) |}) (combine bs fs)) days) r
  end.
