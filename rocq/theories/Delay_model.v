(** DelayNode within a run, one scenario combination (/repo/pywr/nodes.py:1174-1239).

    A DelayNode is an Output that takes water and an Input that gives it back; the FlowDelayParameter of
    the Output is the minimum and the maximum flow of the Input (1205-1220).  In each timestep the solver
    reads the parameter (Node.get_min_flow/get_max_flow, _core.pyx:611-617, 674-680), solves, and then the
    parameter's after() stores the flow of the Output (_parameters.pyx:2152-2156).

    Simplified: the network does not change during a run; the rest of the data may change arbitrarily from
    one timestep to the next. *)
From Verif Require Import Base Ring LP_model Sys_model RouteLP_model RouteLP_spec Buffers_model.
Open Scope Q_scope.

(** One timestep: what the getters return and the amounts the solver chose. *)
Definition step := (data * (nat -> Q))%type.

Definition flow_at (triv : bool) (S : sys) (n : nat) (st : step) : Q := committed triv S (snd st) n.

(** [o], [i]: the Output and the Input of the DelayNode; [n]: timesteps; [s]: the memory of the parameter. *)
Fixpoint delay_node_run (triv : bool) (S : sys) (o i n : nat) (s : buffer) (steps : list step) : Prop :=
  match steps with
  | [] => True
  | st :: r =>
      solved triv S (fst st) (snd st) /\
      d_min (fst st) i = Fin (delay_value s) /\ d_max (fst st) i = Fin (delay_value s) /\
      delay_node_run triv S o i n (delay_after n s (flow_at triv S o st)) r
  end.

Definition delay_node_end (triv : bool) (S : sys) (o n : nat) (s : buffer) (steps : list step) : buffer :=
  fold_left (fun s st => delay_after n s (flow_at triv S o st)) steps s.

(** DelayNode.after, 1236-1239: the node reports the flow of its Input. *)
Definition delay_node_flow (triv : bool) (S : sys) (i : nat) (st : step) : Q := flow_at triv S i st.
