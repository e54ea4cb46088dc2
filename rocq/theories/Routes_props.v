(** Routes: C11 and the node part of C70. *)
From Verif Require Import Base Paths Sorting Routes_model Routes_spec Routes_proofs.

(** C11.  The result holds exactly the routes, each once, for every graph and every argument. *)
Theorem C11_routes_exact : forall triv N t1 t2 valid maxl dm l,
  wf_net N -> starts_in_graph N t1 ->
  find_all_routes triv N t1 t2 valid maxl dm = Some l ->
  NoDup l /\ (forall r, In r l <-> is_route triv N t1 t2 valid maxl dm r).
Proof. exact find_all_routes_spec. Qed.
Print Assumptions C11_routes_exact.

Theorem C11_known_domain_rule_never_fails : forall triv N t1 t2 valid maxl dm,
  dm <> BadMatch -> find_all_routes triv N t1 t2 valid maxl dm <> None.
Proof. exact find_all_routes_defined. Qed.
Print Assumptions C11_known_domain_rule_never_fails.

(** The order is the order of the names of the nodes on the route. *)
Theorem C11_sorted_by_names : forall triv N t1 t2 valid maxl dm l,
  find_all_routes triv N t1 t2 valid maxl dm = Some l ->
  StronglySorted (fun r s => lex_leb r s = true) (map (map (n_fqn N)) l).
Proof. exact find_all_routes_sorted. Qed.
Print Assumptions C11_sorted_by_names.

(** Two models in which the same named routes exist list them in the same order, however the nodes
    and edges were inserted. *)
Theorem C11_order_depends_on_names_only : forall triv N t1 t2 valid maxl dm l N' t1' t2' valid' l',
  wf_net N -> wf_net N' -> starts_in_graph N t1 -> starts_in_graph N' t1' ->
  (forall a b, In a (n_nodes N) -> In b (n_nodes N) -> n_fqn N a = n_fqn N b -> a = b) ->
  (forall a b, In a (n_nodes N') -> In b (n_nodes N') -> n_fqn N' a = n_fqn N' b -> a = b) ->
  find_all_routes triv N t1 t2 valid maxl dm = Some l ->
  find_all_routes triv N' t1' t2' valid' maxl dm = Some l' ->
  (forall k, (exists r, is_route triv N t1 t2 valid maxl dm r /\ map (n_fqn N) r = k) <->
             (exists r, is_route triv N' t1' t2' valid' maxl dm r /\ map (n_fqn N') r = k)) ->
  map (map (n_fqn N)) l = map (map (n_fqn N')) l'.
Proof. exact routes_by_name. Qed.
Print Assumptions C11_order_depends_on_names_only.

(** C70, nodes: check_graph passes exactly when every node that must not be isolated is on a route. *)
Theorem C70_check_graph_exact : forall triv N, wf_net N ->
  (check_graph triv N = true <->
   forall n, In n (n_nodes N) -> n_allow_isolated N n = false ->
     exists r, In n r /\ is_route triv N (ByClass (n_is_input N)) (ByClass (n_is_output N))
       (Some (fun m => n_is_link N m || n_is_input N m || n_is_output N m)) None Strict r).
Proof. exact check_graph_spec. Qed.
Print Assumptions C70_check_graph_exact.

(** A net with a loop between the links 3 and 4, two inputs, two outputs, one of them in another domain. *)
Definition ex_net : net := {|
  n_nodes := [6; 1; 2; 3; 4; 5]%nat;
  n_edges := [(1, 3); (2, 4); (3, 4); (4, 3); (4, 5); (3, 6); (5, 2); (3, 5)]%nat;
  n_name := fun n => n; n_fqn := fun n => n;
  n_domain := fun n => if Nat.eqb n 6 then 1%nat else 0%nat;
  n_is_input := fun n => memb n [1; 2]%nat;
  n_is_output := fun n => memb n [5; 6]%nat;
  n_is_link := fun n => memb n [3; 4]%nat;
  n_allow_isolated := fun n => Nat.eqb n 6
|}.

Example C11_example :
  model_routes false ex_net =
    [[1; 3; 4; 5]; [1; 3; 5]; [2; 4; 3; 5]; [2; 4; 5]]%nat /\
  find_all_routes false ex_net (ByClass (n_is_output ex_net)) (ByClass (n_is_input ex_net)) None (Some 2%nat) AnyDomain
    = Some [[5; 2]]%nat /\
  find_all_routes false ex_net (Instance 1) (Instance 6) None None Different = Some [[1; 3; 6]]%nat.
Proof. repeat split; reflexivity. Qed.

Example C11_example_wf : wf_net ex_net.
Proof.
  split; [|split].
  - cbn. repeat constructor; cbn; intuition discriminate.
  - cbn. repeat constructor; cbn; intuition discriminate.
  - unfold edge, ex_net; cbn. intros a b H.
    repeat (destruct H as [H|H]; [injection H as <- <-; split; repeat (try (left; reflexivity); right)|]); contradiction.
Qed.

Example C70_example_check :
  check_graph false ex_net = true /\
  check_graph false {| n_nodes := n_nodes ex_net; n_edges := n_edges ex_net; n_name := n_name ex_net;
     n_fqn := n_fqn ex_net; n_domain := n_domain ex_net; n_is_input := n_is_input ex_net;
     n_is_output := n_is_output ex_net; n_is_link := n_is_link ex_net; n_allow_isolated := fun _ => false |} = false.
Proof. split; reflexivity. Qed.
