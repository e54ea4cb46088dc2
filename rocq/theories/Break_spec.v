(** A model in which a BreakLink stands for a Link. *)
From Coq Require Import Sorting.Permutation.
From Verif Require Import Base LP_model Sys_model RouteLP_model RouteLP_spec EdgeLP_model EdgeLP_spec Connect_model Connect_spec Break_model.
Local Open Scope nat_scope.
Local Open Scope list_scope.
Local Open Scope Q_scope.

(** Where an edge from or to the Link is attached instead. *)
Definition rerouted (b : breaklink) (e : nat * nat) : nat * nat :=
  (if Nat.eqb (fst e) (b_self b) then b_link b else fst e, if Nat.eqb (snd e) (b_self b) then b_out b else snd e).

(** [T] with data [d'] is [S] with data [d], except that the Link [b_self b] is a BreakLink with the attributes of the Link.  The node is named
    in no aggregated node and no virtual storage; members of aggregated nodes are listed once, and none is connected to an output that is
    one, too. *)
Record replaces (S T : sys) (d d' : data) (b : breaklink) : Prop := {
  rp_regular : regular S;
  rp_link : In (b_self b) (s_nodes S) /\ s_kind S (b_self b) = KLink;
  rp_fresh : NoDup (b_link b :: b_store b :: b_out b :: b_in b :: s_nodes S);
  rp_nodes : Permutation (s_nodes T) (b_link b :: b_store b :: b_out b :: b_in b :: s_nodes S);
  rp_edges : Permutation (s_edges T) ((b_in b, b_link b) :: map (rerouted b) (s_edges S));
  rp_kinds : (forall n, In n (s_nodes S) -> n <> b_self b -> s_kind T n = s_kind S n) /\
    s_kind T (b_self b) = KOther /\ s_kind T (b_link b) = KLink /\ s_kind T (b_store b) = KStorage /\ s_kind T (b_out b) = KOutput /\ s_kind T (b_in b) = KInput;
  rp_slots : (forall n, n <> b_out b -> n <> b_in b -> n <> b_link b -> n <> b_store b -> s_slot T n = s_slot S n) /\
    s_slot T (b_link b) = NoSlot /\ s_slot T (b_store b) = NoSlot /\ s_slot T (b_out b) = OutputOf (b_store b) /\ s_slot T (b_in b) = InputOf (b_store b);
  rp_inputs : (forall n, n <> b_store b -> s_inputs T n = s_inputs S n) /\ s_inputs T (b_store b) = [b_in b];
  rp_outputs : (forall n, n <> b_store b -> s_outputs T n = s_outputs S n) /\ s_outputs T (b_store b) = [b_out b];
  rp_members : forall n, In n (s_nodes S) -> s_members T n = s_members S n /\ s_vfactors T n = s_vfactors S n /\
    s_has_factors T n = s_has_factors S n /\ s_weights T n = s_weights S n /\ s_conv T n = s_conv S n;
  rp_domains : (forall n, In n (s_nodes S) -> s_domain T n = s_domain S n) /\
    s_domain T (b_link b) = s_domain S (b_self b) /\ s_domain T (b_out b) = s_domain S (b_self b) /\ s_domain T (b_in b) = s_domain S (b_self b);
  rp_free : forall a, In a (s_nodes S) -> s_kind S a = KAggregated \/ s_kind S a = KVirtual -> ~ In (b_self b) (s_members S a);
  rp_apart : forall a, In a (s_nodes S) -> s_kind S a = KAggregated -> NoDup (s_members S a) /\
    forall m m', In m (s_members S a) -> In m' (s_members S a) -> s_kind S m' = KOutput -> ~ In (m, m') (s_edges S);
  rp_data : forall n, In n (s_nodes S) -> n <> b_self b ->
    d_cost d' n = d_cost d n /\ d_min d' n = d_min d n /\ d_max d' n = d_max d n /\ d_factors d' n = d_factors d n /\ d_minvol d' n = d_minvol d n /\
    d_maxvol d' n = d_maxvol d n /\ d_vol d' n = d_vol d n /\ d_active d' n = d_active d n;
  rp_days : d_days d' = d_days d;
  rp_link_data : d_cost d' (b_link b) = d_cost d (b_self b) /\ d_min d' (b_link b) = d_min d (b_self b) /\ d_max d' (b_link b) = d_max d (b_self b);
  rp_store_data : d_cost d' (b_store b) = 0 /\ d_minvol d' (b_store b) = 0 /\ d_maxvol d' (b_store b) = Fin 0;
  rp_slot_data : d_min d' (b_out b) = Fin 0 /\ d_max d' (b_out b) = PInf /\ d_min d' (b_in b) = Fin 0 /\ d_max d' (b_in b) = PInf
}.

(** The answers are the same at every node of [S]; in [T] the BreakLink reports what its link carries. *)
Definition same_reports (S : sys) (b : breaklink) (fl fl' : nat -> Q) : Prop :=
  forall n, In n (s_nodes S) -> reported b fl' n == fl n.

(** A program that connects nodes, among them the node [b_self b] (without naming a slot of it), to which nothing is connected yet; no other node
    stands for it or for the nodes inside, and these are not named. *)
Definition inside (b : breaklink) (n : nat) : Prop := n = b_link b \/ n = b_store b \/ n = b_out b \/ n = b_in b.
Definition plain_call (b : breaklink) (o : op) : Prop :=
  match o with
  | Connect u v f t => ~ inside b u /\ ~ inside b v /\ (u = b_self b -> f = None) /\ (v = b_self b -> t = None)
  | Disconnect _ _ _ _ => False
  end.
Record builds (w : world) (b : breaklink) (ops : list op) : Prop := {
  bd_distinct : NoDup [b_self b; b_link b; b_store b; b_out b; b_in b];
  bd_new : forall u v, In (u, v) (edges w) -> u <> b_self b /\ v <> b_self b /\ ~ inside b u /\ ~ inside b v;
  bd_others : forall n s a, n <> b_self b -> ~ inside b n -> source (kind_of w n) n s a \/ target (kind_of w n) n s a -> a <> b_self b /\ ~ inside b a;
  bd_edges : NoDup (edges w);
  bd_calls : forall o, In o ops -> plain_call b o
}.
