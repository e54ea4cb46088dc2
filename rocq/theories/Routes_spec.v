(** What a route is, said without reference to the search. *)
From Verif Require Import Base Paths Sorting Routes_model.

Definition edge (N : net) (a b : nat) : Prop := In (a, b) (n_edges N).

(** The graph is a DiGraph: nodes and edges are held once, edges join nodes of the graph. *)
Definition wf_net (N : net) : Prop :=
  NoDup (n_nodes N) /\ NoDup (n_edges N) /\
  (forall a b, edge N a b -> In a (n_nodes N) /\ In b (n_nodes N)).

Definition selected (N : net) (s : selector) (n : nat) : Prop :=
  match s with
  | ByClass p => In n (n_nodes N) /\ p n = true
  | Instance m => n = m
  end.

Definition domains_ok (N : net) (dm : domain_match) (r : list nat) : Prop :=
  match dm with
  | Strict => forall x y, In x r -> In y r -> n_domain N x = n_domain N y
  | Different => exists x y, In x r /\ In y r /\ n_domain N x <> n_domain N y
  | AnyDomain => True
  | BadMatch => False
  end.

(** A node strictly between the first and the last node of the route. *)
Definition between (r : list nat) (x : nat) : Prop :=
  exists l m, l <> [] /\ m <> [] /\ r = l ++ x :: m.

Definition is_route (triv : bool) (N : net) (t1 t2 : selector) (valid : option (nat -> bool))
  (max_length : option nat) (dm : domain_match) (r : list nat) : Prop :=
  exists a b, selected N t1 a /\ selected N t2 b /\
    (simple_path (edge N) a b r \/ (triv = true /\ a = b /\ r = [a])) /\
    (forall p, valid = Some p -> forall x, between r x -> p x = true) /\
    (forall m, max_length = Some m -> (length r <= m)%nat) /\
    domains_ok N dm r.
