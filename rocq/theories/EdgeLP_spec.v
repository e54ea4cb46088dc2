(** What both solvers are asked for, said of the flows that the nodes report. *)
From Verif Require Import Base Paths Routes_model LP_model Sys_model RouteLP_model RouteLP_spec EdgeLP_model.
Open Scope Q_scope.

(** The output [o] of one domain feeds the input [i] of another one. *)
Definition feeds (S : sys) (o i : nat) : bool :=
  is_input (s_kind S i) && negb (Nat.eqb (s_domain S o) (s_domain S i)) &&
  existsb (fun e => Nat.eqb (fst e) o && Nat.eqb (snd e) i) (s_edges S).

Definition within (b : rtype * ext * ext) (v : Q) : Prop := let '(t, lb, ub) := b in bounds_ok t lb ub v.

(** The flows [fl] keep every limit of the model. *)
Record meets (S : sys) (d : data) (fl : nat -> Q) : Prop := {
  meets_flow : forall n, In n (s_nodes S) -> is_flow_node (s_kind S n) = true ->
    within (flow_bounds (d_min d n) (d_max d n)) (fl n);
  meets_cross : forall o, In o (s_nodes S) -> s_kind S o = KOutput -> (exists i, feeds S o i = true) ->
    fl o == qsum (map (fun i => fl i / s_conv S i) (filter (feeds S o) (s_nodes S)));
  meets_storage : forall st, In st (s_nodes S) -> s_kind S st = KStorage ->
    within (storage_bounds (d_vol d st) (d_minvol d st) (d_maxvol d st) (d_days d)) (fl st);
  meets_virtual : forall v, In v (s_nodes S) -> s_kind S v = KVirtual ->
    within (virtual_bounds (d_active d v) (d_vol d v) (d_minvol d v) (d_maxvol d v) (d_days d)) (virtual_flow S fl v);
  meets_factors : forall a m0 ms m g, In a (s_nodes S) -> s_kind S a = KAggregated -> s_has_factors S a = true ->
    s_members S a = m0 :: ms -> In (m, g) (combine ms (tl (d_factors d a))) ->
    fl m0 == hd 0 (d_factors d a) / g * fl m;
  meets_agg : forall a, In a (s_nodes S) -> s_kind S a = KAggregated ->
    within (flow_bounds (d_min d a) (d_max d a)) (aggregated_flow S fl a)
}.

(** An edge inside a domain. *)
Definition inner_edge (S : sys) (a b : nat) : Prop := In (a, b) (s_edges S) /\ s_domain S a = s_domain S b.

(** The allocation [y] to the edges (the k-th edge carries [y k]) puts nothing on edges between domains. *)
Definition inner_only (S : sys) (y : nat -> Q) : Prop :=
  forall k a b, nth_error (s_edges S) k = Some (a, b) -> s_domain S a <> s_domain S b -> y k == 0.

(** Inputs are not fed and outputs not drained inside their domain, edges join inputs, links and outputs,
    members are such nodes and there is a weight for each. *)
Record regular (S : sys) : Prop := {
  reg_wf : wf_sys S;
  reg_clean : terminals_clean S;
  reg_edges : forall a b, In (a, b) (s_edges S) -> is_flow_node (s_kind S a) = true /\ is_flow_node (s_kind S b) = true;
  reg_members : forall a m, In a (s_nodes S) -> s_kind S a = KAggregated \/ s_kind S a = KVirtual ->
    In m (s_members S a) -> In m (s_nodes S) /\ is_flow_node (s_kind S m) = true;
  reg_weights : forall a, In a (s_nodes S) -> s_kind S a = KAggregated ->
    length (weights_of S a) = length (s_members S a)
}.

(** Models on which the two solvers can be compared: virtual storages list a member once, and no route
    passes two members of the same aggregated node. *)
Record comparable (triv : bool) (S : sys) : Prop := {
  cmp_regular : regular S;
  cmp_virtual : forall v, In v (s_nodes S) -> s_kind S v = KVirtual ->
    NoDup (s_members S v) /\ length (s_vfactors S v) = length (s_members S v);
  cmp_apart : forall a r, In a (s_nodes S) -> s_kind S a = KAggregated -> In r (routes triv S) ->
    one_member (s_members S a) r
}.

(** A timestep solved by the edge solver. *)
Definition edge_solved (triv : bool) (S : sys) (d : data) (y : nat -> Q) : Prop :=
  exists E, eposed triv S d = Ok E /\ feasible E y.

(** What the allocation [y] sends along edges from [a] to [b]. *)
Definition edge_amount (S : sys) (y : nat -> Q) (a b : nat) : Q :=
  qsum (map (fun k => let e := nth k (s_edges S) (0, 0)%nat in
                      if Nat.eqb (fst e) a && Nat.eqb (snd e) b then y k else 0) (seq 0 (length (s_edges S)))).
