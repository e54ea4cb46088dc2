(** What a LossLink is in a network. *)
From Verif Require Import Base LP_model Sys_model RouteLP_model RouteLP_spec Connect_model Connect_spec Loss_model.
Local Open Scope nat_scope.
Local Open Scope list_scope.
Local Open Scope Q_scope.

Definition inside (l : losslink) (n : nat) : Prop := n = l_output l \/ n = l_gross l \/ n = l_net l.

(** From the gross link water goes to the net link and the loss; to these only from the gross link; from the loss nowhere. *)
Definition loss_edges (es : list (nat * nat)) (l : losslink) : Prop :=
  In (l_gross l, l_net l) es /\ In (l_gross l, l_output l) es /\
  forall a b, In (a, b) es ->
    (a = l_gross l -> b = l_net l \/ b = l_output l) /\ (b = l_net l \/ b = l_output l -> a = l_gross l) /\ a <> l_output l.

(** A model with the LossLink in it, set up with [k]. *)
Record loss_in (S : sys) (d : data) (l : losslink) (k : loss_setting) : Prop := {
  li_nodes : In (l_output l) (s_nodes S) /\ In (l_gross l) (s_nodes S) /\ In (l_net l) (s_nodes S) /\ In (l_agg l) (s_nodes S);
  li_kinds : s_kind S (l_output l) = KOutput /\ s_kind S (l_gross l) = KLink /\ s_kind S (l_net l) = KLink /\ s_kind S (l_agg l) = KAggregated;
  li_edges : loss_edges (s_edges S) l;
  li_members : s_members S (l_agg l) = agg_members l;
  li_has : s_has_factors S (l_agg l) = match k_factors k with Some _ => true | None => false end;
  li_factors : forall fs, k_factors k = Some fs -> d_factors d (l_agg l) = fs;
  li_output : d_min d (l_output l) = Fin 0 /\ d_max d (l_output l) = k_output_max k;
  li_net : d_max d (l_net l) = k_net_max k
}.
