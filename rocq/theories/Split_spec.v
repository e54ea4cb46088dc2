(** What a MultiSplitLink is in a network. *)
From Verif Require Import Base LP_model Sys_model RouteLP_model RouteLP_spec Connect_model Connect_spec Split_model.
Local Open Scope nat_scope.
Local Open Scope list_scope.
Local Open Scope Q_scope.

Definition insides (p : split) : list nat :=
  sp_output p :: sp_input p :: sp_sub p :: sublinks p ++ map x_output (sp_slots p) ++ map x_input (sp_slots p).

(** Output -> every sublink -> sub output -> input, and sublink -> output -> input for every extra slot. *)
Definition inner_edge (p : split) (a b : nat) : Prop :=
  (a = sp_sub p /\ b = sp_input p) \/ (In a (sublinks p) /\ b = sp_sub p) \/ (a = sp_output p /\ In b (sublinks p)) \/
  exists x, In x (sp_slots p) /\ (a = x_output x /\ b = x_input x \/ a = x_link x /\ b = x_output x).
(** These edges are there; other edges with an end inside go to the Output, or start at an Input. *)
Definition split_edges (es : list (nat * nat)) (p : split) : Prop :=
  (forall a b, inner_edge p a b -> In (a, b) es) /\
  forall a b, In (a, b) es -> In a (insides p) \/ In b (insides p) ->
    inner_edge p a b \/
    (~ In a (insides p) \/ a = sp_input p \/ In a (map x_input (sp_slots p))) /\ (~ In b (insides p) \/ b = sp_output p).

Record split_in (S : sys) (p : split) : Prop := {
  si_apart : NoDup (insides p);
  si_some : sublinks p <> [];
  si_nodes : forall n, In n (insides p) -> In n (s_nodes S);
  si_kinds : s_kind S (sp_output p) = KOutput /\ s_kind S (sp_input p) = KInput /\ s_kind S (sp_sub p) = KOutput /\
             (forall s, In s (sublinks p) -> s_kind S s = KInput) /\
             forall x, In x (sp_slots p) -> s_kind S (x_output x) = KOutput /\ s_kind S (x_input x) = KInput;
  si_domain : (forall s, In s (sublinks p) -> s_domain S s = s_domain S (sp_sub p)) /\
              (forall x, In x (sp_slots p) -> s_domain S (x_output x) = s_domain S (sp_sub p) /\ s_domain S (x_input x) <> s_domain S (sp_sub p)) /\
              s_domain S (sp_output p) <> s_domain S (sp_sub p) /\ s_domain S (sp_input p) <> s_domain S (sp_sub p);
  si_edges : split_edges (s_edges S) p;
  si_conv : forall n, In n (sublinks p) \/ n = sp_input p \/ In n (map x_input (sp_slots p)) -> s_conv S n = 1
}.
(** With factors. *)
Record split_factors (S : sys) (d : data) (p : split) (fs : list (option Q)) : Prop := {
  sf_node : In (sp_agg p) (s_nodes S);
  sf_kind : s_kind S (sp_agg p) = KAggregated;
  sf_has : s_has_factors S (sp_agg p) = true;
  sf_members : s_members S (sp_agg p) = map fst (agg_pairs p fs);
  sf_factors : d_factors d (sp_agg p) = map snd (agg_pairs p fs)
}.
