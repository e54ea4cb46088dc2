(** LossLink, nodes.py 1242-1364: the nodes it consists of, what [setup] makes of the loss factor. *)
From Verif Require Import Base LP_model Connect_model.
Local Open Scope nat_scope.
Local Open Scope list_scope.
Local Open Scope Q_scope.

(** The node itself, and its Output, Link, Link and AggregatedNode (1275-1297). *)
Record losslink := LossLink { l_self : nat; l_output : nat; l_gross : nat; l_net : nat; l_agg : nat }.

(** What the constructor adds to the graph, 1292-1293, and the slots 1355-1359.  The aggregated node is on no edge. *)
Definition new_losslink (w : world) (l : losslink) : world :=
  let k := fun n => if Nat.eqb n (l_self l) then Through (l_net l) (l_gross l) else if Nat.eqb n (l_agg l) then Bare
                    else if Nat.eqb n (l_output l) || Nat.eqb n (l_gross l) || Nat.eqb n (l_net l) then Plain else kind_of w n in
  add_edge (add_edge (World (model_of w) k (edges w) (dirty w)) (l_gross l, l_output l)) (l_gross l, l_net l).
(** [AggregatedNode(model, agg_name, nodes=[self.net, self.output])], 1295. *)
Definition agg_members (l : losslink) : list nat := [l_net l; l_output l].

(** [loss_factor] is a number, or a parameter with the given value in the timestep; [loss_factor_type] is "net", "gross" or something else. *)
Inductive loss_factor := Number (q : Q) | Param (q : Q).
Inductive loss_type := Net | Gross | Unknown.
Definition loss_value (f : loss_factor) : Q := match f with Number q | Param q => q end.

(** 1301-1330.  The factors of the aggregated node, the max_flow of the output and that of the net link (which so far is [net_max]); [None]
    for an exception.  A parameter is not equal to a number, and can't be converted to one. *)
Record loss_setting := { k_factors : option (list Q); k_output_max : ext; k_net_max : ext }.
Definition loss_setup (ty : loss_type) (f : loss_factor) (net_max : ext) : option loss_setting :=
  let equals (q : Q) := match f with Number x => qeqb x q | Param _ => false end in
  let gross := match ty with Gross => true | _ => false end in
  if equals 0 then Some {| k_factors := None; k_output_max := Fin 0; k_net_max := net_max |}
  else if equals 1 && gross then Some {| k_factors := None; k_output_max := PInf; k_net_max := Fin 0 |}
  else match ty, f with
       | Net, _ => Some {| k_factors := Some [1; loss_value f]; k_output_max := PInf; k_net_max := net_max |}
       | Gross, Number v => Some {| k_factors := Some [1 - v; v]; k_output_max := PInf; k_net_max := net_max |}
       | Gross, Param _ => None
       | Unknown, _ => None
       end.
