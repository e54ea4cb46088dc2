(** What river nodes are expected to do. *)
From Verif Require Import Base LP_model Sys_model Connect_model Piecewise_model Piecewise_spec River_model.
Local Open Scope nat_scope.
Local Open Scope list_scope.
Local Open Scope Q_scope.

(** The flow last given to a catchment, when min_flow and max_flow were not assigned on their own afterwards. *)
Definition flow_given (flow : option (value ext)) (prog : list assignment) (v : value ext) : Prop :=
  (exists before, prog = before ++ [AFlow v]) \/ (prog = [] /\ (flow = Some v \/ flow = None /\ v = VNum (Fin 0))).
Definition value_now {A} (par : nat -> A) (v : value A) (a : A) : Prop :=
  match v with VNone => False | VNum q => a = q | VPar k => a = par k end.

(** A number as the solvers take it: closer to zero than 1e-8 is zero. *)
Definition taken_as (q v : Q) : Prop := v == q \/ v == 0 /\ qabs q < eps8.

(** The last value assigned to an attribute. *)
Fixpoint last_of {A B} (pick : A -> option B) (start : B) (prog : list A) : B :=
  match prog with
  | [] => start
  | a :: r => last_of pick (match pick a with Some b => b | None => start end) r
  end.
Definition pick_mrf (a : gauge_assignment) := match a with GMrf v => Some v | _ => None end.
Definition pick_mrf_cost (a : gauge_assignment) := match a with GMrfCost v => Some v | _ => None end.
Definition pick_cost (a : gauge_assignment) := match a with GCost v => Some v | _ => None end.

(** A gauge in a network: a PiecewiseLink of two steps, whose limits and costs now are those of the sublinks. *)
Record gauge_in (S : sys) (d : data) (p : piecewise) (par : nat -> ext) (cpar : nat -> Q) (l : list sublink) (s0 s1 : nat) : Prop := {
  gi_piece : piecewise_in S d p;
  gi_links : p_links p = [s0; s1];
  gi_limits : exists a b, l = [a; b] /\ d_max d s0 = sub_max par a /\ d_max d s1 = sub_max par b /\
                          d_cost d s0 = number cpar (sl_cost a) /\ d_cost d s1 = number cpar (sl_cost b)
}.
