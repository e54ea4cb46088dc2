(** What a PiecewiseLink is in a network. *)
From Verif Require Import Base LP_model Sys_model RouteLP_model RouteLP_spec Connect_model Connect_spec Piecewise_model.
Local Open Scope nat_scope.
Local Open Scope list_scope.
Local Open Scope Q_scope.

Definition inside (p : piecewise) (n : nat) : Prop := n = p_output p \/ n = p_input p \/ n = p_sub p \/ In n (p_links p).

(** Output -> every step -> sub output -> input, and nothing else there. *)
Definition piece_edges (es : list (nat * nat)) (p : piecewise) : Prop :=
  (forall s, In s (p_links p) -> In (p_output p, s) es /\ In (s, p_sub p) es) /\ In (p_sub p, p_input p) es /\
  forall a b, In (a, b) es ->
    (In a (p_links p) -> b = p_sub p) /\ (In b (p_links p) -> a = p_output p) /\ (a = p_sub p -> b = p_input p) /\
    (b = p_sub p -> In a (p_links p)) /\ (a = p_output p -> In b (p_links p)) /\ (b = p_input p -> a = p_sub p).

(** A model with the PiecewiseLink in it.  The steps are named in no aggregated node and no virtual storage; their min_flow and conversion
    factor, and the cost of the sub output, are those of the constructors. *)
Record piecewise_in (S : sys) (d : data) (p : piecewise) : Prop := {
  pi_nodes : forall n, inside p n -> In n (s_nodes S);
  pi_apart : NoDup (p_output p :: p_input p :: p_sub p :: p_links p);
  pi_kinds : s_kind S (p_output p) = KOutput /\ s_kind S (p_input p) = KInput /\ s_kind S (p_sub p) = KOutput /\
             forall s, In s (p_links p) -> s_kind S s = KInput;
  pi_slots : forall n, inside p n -> s_slot S n = NoSlot;
  pi_domain : (forall s, In s (p_links p) -> s_domain S s = s_domain S (p_sub p)) /\
              s_domain S (p_output p) <> s_domain S (p_sub p) /\ s_domain S (p_input p) <> s_domain S (p_sub p);
  pi_edges : piece_edges (s_edges S) p;
  pi_free : forall a s, In a (s_nodes S) -> s_kind S a = KAggregated \/ s_kind S a = KVirtual -> In s (p_links p) -> ~ In s (s_members S a);
  pi_min : forall s, In s (p_links p) -> d_min d s = Fin 0;
  pi_conv : forall s, In s (p_links p) -> s_conv S s = 1;
  pi_cost : d_cost d (p_sub p) == 0
}.
