(** Vocabulary of the flow properties.  Nothing here mentions columns, rows or coefficients: a solved
    timestep is a model for which the problem could be posed together with an amount for each route
    that satisfies it. *)
From Verif Require Import Base Paths Routes_model LP_model Sys_model RouteLP_model.
Open Scope Q_scope.

Definition solved (triv : bool) (S : sys) (d : data) (x : nat -> Q) : Prop :=
  exists P, posed triv S d = Ok P /\ feasible P x.

(** Solved at the least cost, as GLPK does when it reports an optimal solution. *)
Definition solved_optimally (triv : bool) (S : sys) (d : data) (x : nat -> Q) : Prop :=
  exists P, posed triv S d = Ok P /\ optimal P x.

(** Consecutive nodes of a route. *)
Fixpoint pairs (r : list nat) : list (nat * nat) :=
  match r with
  | a :: ((b :: _) as t) => (a, b) :: pairs t
  | _ => []
  end.

Definition pair_in (a b : nat) (r : list nat) : bool :=
  existsb (fun e => Nat.eqb (fst e) a && Nat.eqb (snd e) b) (pairs r).

(** Amount that the allocation [x] (the k-th route carries [x k]) sends along the edge from [a] to [b]. *)
Definition edge_flow (rs : list (list nat)) (x : nat -> Q) (a b : nat) : Q :=
  qsum (map (fun k => if pair_in a b (nth k rs []) then x k else 0) (seq 0 (length rs))).

(** Bounds up to the rounding of the solver. *)
Definition at_least (e : ext) (v : Q) : Prop :=
  match e with NInf => True | Fin a => a - eps8 <= v | PInf => False end.
Definition at_most (v : Q) (e : ext) : Prop :=
  match e with NInf => False | Fin a => v <= a + eps8 | PInf => True end.

(** No input is fed, and no output drained, inside its own domain.  The constructors allow such edges;
    nodes on them then carry water that is not committed to them. *)
Definition terminals_clean (S : sys) : Prop :=
  forall a b, In (a, b) (s_edges S) -> s_domain S a = s_domain S b ->
    s_kind S b <> KInput /\ s_kind S a <> KOutput.
(** The same of one node. *)
Definition clean_at (S : sys) (m : nat) : Prop :=
  forall a, s_domain S a = s_domain S m ->
    (In (a, m) (s_edges S) -> s_kind S m <> KInput) /\ (In (m, a) (s_edges S) -> s_kind S m <> KOutput).

(** The cost of an allocation in the terms of the user: every node that carries flow at its own cost,
    every storage at its cost times its net inflow. *)
Definition user_cost (S : sys) (d : data) (fl : nat -> Q) : Q :=
  qsum (map (fun n => match s_slot S n with
                      | NoSlot => if is_flow_node (s_kind S n) || is_storage (s_kind S n)
                                  then d_cost d n * fl n else 0
                      | _ => 0
                      end) (s_nodes S)).

(** Cost of sending one unit along a route: the nodes that carry its flow (first, last and the links). *)
Definition path_cost (S : sys) (d : data) (r : list nat) : Q :=
  qsum (map (get_cost S d)
    (filter (fun n => Nat.eqb n (hd 0%nat r) || Nat.eqb n (last r 0%nat) || is_link (s_kind S n)) r)).

(** Total amount allocated to routes. *)
Definition total (rs : list (list nat)) (x : nat -> Q) : Q := qsum (map x (seq 0 (length rs))).

(** At most one member of [l] lies on the route [r]. *)
Definition one_member (l : list nat) (r : list nat) : Prop :=
  forall i j a b, nth_error l i = Some a -> nth_error l j = Some b -> In a r -> In b r -> i = j.
