(** What Model.check should find. *)
From Verif Require Import Base Routes_model Routes_spec Check_model.
From Verif Require Graph_model Graph_spec.

(** A virtual storage, not a part of another node, whose cost is not the number zero. *)
Definition costly (M : model) (n : nat) : Prop :=
  In n (n_nodes (m_net M)) /\ m_parent M n = None /\ m_virtual M n = true /\ forall q, m_cost M n = Number q -> ~ q == 0.

Definition on_route (triv : bool) (N : net) (n : nat) : Prop :=
  exists r, In n r /\ is_route triv N (ByClass (n_is_input N)) (ByClass (n_is_output N))
    (Some (fun m => n_is_link N m || n_is_input N m || n_is_output N m)) None Strict r.
Definition stranded (triv : bool) (N : net) (n : nat) : Prop := In n (n_nodes N) /\ n_allow_isolated N n = false /\ ~ on_route triv N n.

(** A parameter that nothing depends on and no node refers to. *)
Definition orphan (M : model) (p : nat) : Prop :=
  Graph_spec.live (Graph_spec.created (m_ops M)) p /\ m_isparam M p = true /\ (forall x, ~ Graph_spec.depends (m_ops M) x p) /\ ~ In p (m_referred M).
