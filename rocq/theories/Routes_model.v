(** Model.find_all_routes (/repo/pywr/_model.pyx:496-582) and Model.check_graph (176-188). *)
From Verif Require Import Base Paths Sorting.

(** Node names enter only through equality and order, so a name is a number here (its rank among all
    strings); the same for domains (only compared for equality). *)
Record net := {
  n_nodes : list nat;                (* model.graph.nodes(), order of insertion *)
  n_edges : list (nat * nat);        (* model.graph.edges() *)
  n_name : nat -> nat;               (* node.name *)
  n_fqn : nat -> nat;                (* node.fully_qualified_name, _core.pyx:397-401 *)
  n_domain : nat -> nat;             (* node.domain *)
  n_is_input : nat -> bool;          (* isinstance(node, BaseInput) *)
  n_is_output : nat -> bool;         (* isinstance(node, BaseOutput) *)
  n_is_link : nat -> bool;           (* isinstance(node, BaseLink) *)
  n_allow_isolated : nat -> bool     (* node.allow_isolated *)
}.

Definition nsucc (N : net) (a : nat) : list nat :=
  map snd (filter (fun e => Nat.eqb (fst e) a) (n_edges N)).

(** type1/type2 argument: a class or a node instance (lines 524-540). *)
Inductive selector := ByClass (p : nat -> bool) | Instance (n : nat).
Inductive domain_match := Strict | AnyDomain | Different | BadMatch.

Definition sorted_nodes (N : net) : list nat :=
  isort (fun a b => Nat.leb (n_name N a) (n_name N b)) (n_nodes N).

Definition select (N : net) (s : selector) : list nat :=
  match s with
  | ByClass p => filter p (sorted_nodes N)
  | Instance n => [n]
  end.

(** nx.all_simple_paths(graph, node1, node2, cutoff=max_length): default cutoff is len(G)-1.  Some
    versions of networkx yield the one-node path when source and target coincide, some do not:
    [triv] says which. *)
Definition all_simple_paths (triv : bool) (N : net) (a b : nat) (cutoff : option nat) : list (list nat) :=
  let fuel := match cutoff with Some m => m | None => (length (n_nodes N) - 1)%nat end in
  (if triv && Nat.eqb a b then [[a]] else []) ++ sp (nsucc N) b fuel [a] a.

(** route[1:-1] *)
Definition interior (r : list nat) : list nat := removelast (tl r).

(** Lines 547-575. *)
Definition route_ok (N : net) (valid : option (nat -> bool)) (max_length : option nat) (dm : domain_match)
  (r : list nat) : bool :=
  (match valid with
   | Some p => if Nat.ltb 2 (length r) then forallb p (interior r) else true
   | None => true
   end)
  && (match dm with
      | Strict => match r with [] => true | h :: t => forallb (fun n => Nat.eqb (n_domain N n) (n_domain N h)) t end
      | Different => Nat.leb 2 (length (nodup Nat.eq_dec (map (n_domain N) r)))
      | AnyDomain => true
      | BadMatch => false
      end)
  && (match max_length with Some m => Nat.leb (length r) m | None => true end).

(** Lines 542-582; [None] = ValueError for an unknown domain_match (raised for the first path). *)
Definition find_all_routes (triv : bool) (N : net) (t1 t2 : selector) (valid : option (nat -> bool))
  (max_length : option nat) (dm : domain_match) : option (list (list nat)) :=
  let raw := flat_map (fun a => flat_map (fun b => all_simple_paths triv N a b max_length) (select N t2))
                      (select N t1) in
  match dm, raw with
  | BadMatch, _ :: _ => None
  | _, _ => Some (isort (fun r s => lex_leb (map (n_fqn N) r) (map (n_fqn N) s))
                        (filter (route_ok N valid max_length dm) raw))
  end.

(** The call made by check_graph and by the solvers (_model.pyx:179, cython_glpk.pyx:424). *)
Definition model_routes (triv : bool) (N : net) : list (list nat) :=
  match find_all_routes triv N (ByClass (n_is_input N)) (ByClass (n_is_output N))
          (Some (fun n => n_is_link N n || n_is_input N n || n_is_output N n)) None Strict with
  | Some l => l
  | None => []
  end.

(** check_graph: [true] = passes, [false] = ModelStructureError.  `all_nodes ^ seen` is the symmetric
    difference of two sets. *)
Definition check_graph (triv : bool) (N : net) : bool :=
  let seen := flat_map (fun r => r) (model_routes triv N) in
  let isolated := filter (fun n => negb (memb n seen)) (n_nodes N) ++
                  filter (fun n => negb (memb n (n_nodes N))) seen in
  forallb (n_allow_isolated N) isolated.
