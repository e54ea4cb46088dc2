(** Names of nodes and components: C59, C73. *)
From Verif Require Import Base Names_model Names_spec Names_proofs.
Local Open Scope nat_scope.
Local Open Scope list_scope.
Local Open Scope string_scope.

(** C59: after any sequence of creations, renamings and deletions (also ones that raise), visible nodes with the same name are the same node. *)
Theorem C59_nodes_unique (ops : list operation) (n m : node) :
  In n (g_nodes (perform_all ops empty)) -> In m (g_nodes (perform_all ops empty)) ->
  n_parent n = None -> n_parent m = None -> n_name n = n_name m -> n = m.
Proof. apply same_name. apply ok_names. apply ok_all, ok_empty. Qed.
Print Assumptions C59_nodes_unique.

(** Creating a node with the name of a visible node raises, whatever the class. *)
Theorem C59_taken_refused (c : cls) (g : graph) (n : node) :
  In n (g_nodes g) -> n_parent n = None -> fst (construct c (n_name n) g) = false.
Proof.
  intros H P. apply refuses_construct. apply in_map. apply filter_In. split; [exact H|]. unfold is_top. rewrite P. reflexivity.
Qed.
Print Assumptions C59_taken_refused.

(** Creating a node that does not raise puts a visible node of that name in the model, and leaves all other nodes alone. *)
Theorem C59_created (c : cls) (name : string) (g : graph) :
  fst (construct c name g) = true ->
  In (Node (g_next g) name None) (g_nodes (snd (construct c name g))) /\ exists new, g_nodes (snd (construct c name g)) = (g_nodes g ++ new)%list.
Proof.
  intros H. split; [|apply adds_construct]. destruct (construct_last c name g H) as [l ->]. apply in_app_iff. right. now left.
Qed.
Print Assumptions C59_created.

(** Looking up the name of a visible node gives that node, unless a sub-node bears the name too. *)
Theorem C59_lookup (ops : list operation) (n : node) :
  let g := perform_all ops empty in
  In n (g_nodes g) -> n_parent n = None -> (forall m, In m (g_nodes g) -> n_parent m <> None -> n_name m <> n_name n) ->
  lookup (n_name n) g = Some n.
Proof. intros g. apply lookup_visible, ok_all, ok_empty. Qed.
Print Assumptions C59_lookup.

(** Deleting removes the node with its sub-nodes, and nothing else. *)
Theorem C59_delete (ops : list operation) (id : nat) (n : node) :
  let g := perform_all ops empty in
  In n (g_nodes (delete id g)) <-> In n (g_nodes g) /\ ~ part_of (g_nodes g) id n.
Proof. intros g. apply delete_spec, ok_all, ok_empty. Qed.
Print Assumptions C59_delete.

(** What a successful construction adds, in this order: names and parents of the parts, the node itself last. *)
Definition parts (c : cls) (name : string) (self : nat) : list (string * option nat) :=
  let sub (s : string) := ((name ++ s)%string, Some self) in
  let top (s : string) := ((name ++ s)%string, @None nat) in
  let slots (k outputs inputs : nat) :=
    (map (fun i => (("[output" ++ decimal i ++ "]")%string, Some k)) (seq 0 outputs) ++ map (fun i => (("[input" ++ decimal i ++ "]")%string, Some k)) (seq 0 inputs))%list in
  let links (n : nat) := (map sub [" Input"; " Output"; " Sub Output"] ++ map (fun i => sub (" Sublink " ++ decimal i)%string) (seq 0 n))%list in
  (match c with
   | CNode => []
   | CStorage o i => slots self o i
   | CPiecewise n => links n
   | CMultiSplit n e f => links (n + e) ++ flat_map (fun i => [sub (" Extra Output " ++ decimal i)%string; sub (" Extra Input " ++ decimal i)%string]) (seq 0 e) ++
                          (if f then [top " Agg"] else [])
   | CBreak => slots (S self) 1 1 ++ [top " (storage)"; top " (link)"]
   | CDelay => [sub " Output"; sub " Input"]
   | CLoss => [sub " Output"; sub " Gross"; sub " Net"; top " Aggregated"]
   end ++ [(name, None)])%list.

Definition labels (l : list node) : list (string * option nat) := map (fun n => (n_name n, n_parent n)) l.
Definition appends (m : stmt) (P : nat -> list (string * option nat)) : Prop :=
  forall g, fst (m g) = true -> labels (g_nodes (snd (m g))) = (labels (g_nodes g) ++ P (g_next g))%list.
Lemma appends_skip : appends skip (fun _ => []).
Proof. intros g _. cbn [skip snd]. now rewrite app_nil_r. Qed.
Lemma appends_add s n p : appends (add s n p) (fun _ => [(n, p)]).
Proof. intros g _. unfold add, labels. cbn [snd g_nodes]. rewrite map_app. reflexivity. Qed.
Lemma appends_check n b P : appends b P -> appends (seqs (check n) b) P.
Proof. intros H g. unfold seqs, check. destruct (free n g); [apply H|discriminate]. Qed.
Lemma appends_check_last n : appends (check n) (fun _ => []).
Proof. intros g _. unfold check. cbn [snd]. now rewrite app_nil_r. Qed.
Lemma appends_seq a b P R : appends a P -> appends b (fun _ => R) -> appends (seqs a b) (fun k => P k ++ R)%list.
Proof.
  intros Ha Hb g. unfold seqs. specialize (Ha g). destruct (a g) as [ok g1]. cbn [fst snd] in Ha. destruct ok; [|discriminate].
  intros H. rewrite (Hb g1 H), (Ha eq_refl). now rewrite app_assoc.
Qed.
Lemma appends_new f R : (forall s, appends (f s) (R s)) -> appends (new f) (fun k => R k (S k)).
Proof. intros H g. unfold new. intros E. rewrite (H _ _ E). reflexivity. Qed.
Lemma appends_all {A} (f : A -> stmt) (R : A -> list (string * option nat)) l : (forall x, appends (f x) (fun _ => R x)) -> appends (all (map f l)) (fun _ => flat_map R l).
Proof.
  intros H. induction l as [|x l IH]; [apply appends_skip|]. cbn [map all fold_right flat_map]. exact (appends_seq (f x) (all (map f l)) (fun _ => R x) _ (H x) IH).
Qed.
Lemma appends_checks {A} (f : A -> string) l b P : appends b P -> appends (seqs (all (map (fun x => check (f x)) l)) b) P.
Proof.
  intros H. induction l as [|x l IH]; cbn [map all fold_right].
  - intros g. unfold seqs, skip. apply H.
  - intros g. specialize (IH g). unfold seqs, check in *. destruct (free (f x) g); [exact IH|discriminate].
Qed.
Lemma appends_node n p : appends (create_node n p) (fun _ => [(n, p)]).
Proof. unfold create_node. apply (appends_new _ (fun _ _ => [(n, p)])). intros s. apply appends_check, appends_add. Qed.
Lemma appends_to m P R : appends m P -> (forall k, P k = R k) -> appends m R.
Proof. intros H E g G. rewrite <- E. now apply H. Qed.
Lemma flat_map_single {A B} (f : A -> B) l : flat_map (fun x => [f x]) l = map f l.
Proof. induction l as [|x l IH]; [reflexivity|]. cbn [flat_map map app]. now rewrite IH. Qed.
Lemma appends_slot n p : appends (new (fun k => add k n p)) (fun _ => [(n, p)]).
Proof. apply (appends_new _ (fun _ _ => [(n, p)])). intros k. apply appends_add. Qed.
Lemma appends_storage name o i : appends (create_storage name o i) (fun k => parts (CStorage o i) name k).
Proof.
  unfold create_storage. eapply appends_to.
  - apply (appends_new _ (fun s _ => flat_map (fun n => [(output_slot n, Some s)]) (seq 0 o) ++ flat_map (fun n => [(input_slot n, Some s)]) (seq 0 i) ++ [(name, None)])%list).
    intros s. apply appends_check, appends_checks, appends_checks. apply (appends_seq _ _ (fun _ => flat_map (fun n => [(output_slot n, Some s)]) (seq 0 o))).
    + apply appends_all. intros n. apply appends_slot.
    + apply (appends_seq _ _ (fun _ => flat_map (fun n => [(input_slot n, Some s)]) (seq 0 i))).
      * apply appends_all. intros n. apply appends_slot.
      * apply appends_add.
  - intros k. cbn beta. unfold parts. rewrite !flat_map_single, <- app_assoc. reflexivity.
Qed.
Lemma appends_links s name n : appends (piecewise_subnodes s name n)
  (fun _ => map (fun t => ((name ++ t)%string, Some s)) [" Input"; " Output"; " Sub Output"] ++ map (fun i => ((name ++ " Sublink " ++ decimal i)%string, Some s)) (seq 0 n))%list.
Proof.
  unfold piecewise_subnodes. rewrite <- flat_map_single with (l := seq 0 n). cbn [map app].
  apply (appends_seq _ _ (fun _ => [((name ++ " Input")%string, Some s)])); [apply appends_node|].
  apply (appends_seq _ _ (fun _ => [((name ++ " Output")%string, Some s)])); [apply appends_node|].
  apply (appends_seq _ _ (fun _ => [((name ++ " Sub Output")%string, Some s)])); [apply appends_node|].
  apply (appends_all _ (fun i => [((name ++ " Sublink " ++ decimal i)%string, Some s)])). intros i. apply appends_node.
Qed.
Theorem C59_parts (c : cls) (name : string) (g : graph) : fst (construct c name g) = true ->
  map (fun n => (n_name n, n_parent n)) (g_nodes (snd (construct c name g))) =
  (map (fun n => (n_name n, n_parent n)) (g_nodes g) ++ parts c name (g_next g))%list.
Proof.
  enough (H : appends (construct c name) (parts c name)) by apply H. destruct c as [|o i|n|n e f| | |]; cbn [construct].
  - apply appends_node.
  - apply appends_storage.
  - unfold create_piecewise. apply (appends_new _ (fun s _ => (map (fun t => ((name ++ t)%string, Some s)) [" Input"; " Output"; " Sub Output"] ++ map (fun i => ((name ++ " Sublink " ++ decimal i)%string, Some s)) (seq 0 (n))) ++ [(name, None)])%list).
    intros s. apply (appends_seq _ _ (fun _ => (map (fun t => ((name ++ t)%string, Some s)) [" Input"; " Output"; " Sub Output"] ++ map (fun i => ((name ++ " Sublink " ++ decimal i)%string, Some s)) (seq 0 (n)))%list)); [apply appends_links|]. apply appends_check, appends_add.
  - unfold create_multisplit. eapply appends_to.
    + apply (appends_new _ (fun s _ => (map (fun t => ((name ++ t)%string, Some s)) [" Input"; " Output"; " Sub Output"] ++ map (fun i => ((name ++ " Sublink " ++ decimal i)%string, Some s)) (seq 0 (n + e))) ++ flat_map (fun i => [((name ++ " Extra Output " ++ decimal i)%string, Some s); ((name ++ " Extra Input " ++ decimal i)%string, Some s)]) (seq 0 e) ++ (if f then [((name ++ " Agg")%string, None)] else []) ++ [(name, None)])%list).
      intros s. apply (appends_seq _ _ (fun _ => (map (fun t => ((name ++ t)%string, Some s)) [" Input"; " Output"; " Sub Output"] ++ map (fun i => ((name ++ " Sublink " ++ decimal i)%string, Some s)) (seq 0 (n + e)))%list)); [apply appends_links|]. apply appends_check.
      apply (appends_seq _ _ (fun _ => flat_map (fun i => [((name ++ " Extra Output " ++ decimal i)%string, Some s); ((name ++ " Extra Input " ++ decimal i)%string, Some s)]) (seq 0 e))).
      * apply (appends_all _ (fun i => [((name ++ " Extra Output " ++ decimal i)%string, Some s); ((name ++ " Extra Input " ++ decimal i)%string, Some s)])). intros i. apply (appends_seq _ _ (fun _ => [((name ++ " Extra Output " ++ decimal i)%string, Some s)])); apply appends_node.
      * apply (appends_seq _ _ (fun _ => (if f then [((name ++ " Agg")%string, None)] else []))); [|apply appends_add]. destruct f; [apply appends_node|apply appends_skip].
    + intros k. cbn beta. unfold parts. rewrite <- !app_assoc. reflexivity.
  - unfold create_breaklink. eapply appends_to.
    + apply (appends_new _ (fun s k => parts (CStorage 1 1) (name ++ " (storage)")%string k ++ [((name ++ " (link)")%string, None)] ++ [(name, None)])%list).
      intros s. do 2 apply appends_check. apply (appends_seq _ _ (fun k => parts (CStorage 1 1) (name ++ " (storage)")%string k)); [apply appends_storage|].
      apply (appends_seq _ _ (fun _ => [((name ++ " (link)")%string, None)])); [apply appends_node|]. apply appends_check, appends_add.
    + reflexivity.
  - unfold create_delay. apply (appends_new _ (fun s _ => [((name ++ " Output")%string, Some s)] ++ [((name ++ " Input")%string, Some s)] ++ [(name, None)])%list).
    intros s. do 2 apply appends_check. apply (appends_seq _ _ (fun _ => [((name ++ " Output")%string, Some s)])); [apply appends_node|].
    apply (appends_seq _ _ (fun _ => [((name ++ " Input")%string, Some s)])); [apply appends_node|]. apply appends_check, appends_add.
  - unfold create_loss. apply (appends_new _ (fun s _ => [((name ++ " Output")%string, Some s)] ++ [((name ++ " Gross")%string, Some s)] ++ [((name ++ " Net")%string, Some s)] ++ [((name ++ " Aggregated")%string, None)] ++ [(name, None)])%list).
    intros s. do 4 apply appends_check. apply (appends_seq _ _ (fun _ => [((name ++ " Output")%string, Some s)])); [apply appends_node|].
    apply (appends_seq _ _ (fun _ => [((name ++ " Gross")%string, Some s)])); [apply appends_node|]. apply (appends_seq _ _ (fun _ => [((name ++ " Net")%string, Some s)])); [apply appends_node|].
    apply (appends_seq _ _ (fun _ => [((name ++ " Aggregated")%string, None)])); [apply appends_node|]. apply appends_check, appends_add.
Qed.
Print Assumptions C59_parts.

(** Deleting a node object raises exactly if it is not in the model. *)
Theorem C59_delete_missing (id : nat) (g : graph) : (fst (perform (Delete id) g) = true <-> exists n, In n (g_nodes g) /\ n_id n = id).
Proof.
  cbn [perform fst]. rewrite existsb_exists. split; intros [n [H E]]; exists n; (split; [exact H|]); now apply Nat.eqb_eq.
Qed.
Print Assumptions C59_delete_missing.

Definition example_graph : graph :=
  perform_all [Create CNode "demand"; Create (CStorage 1 1) "reservoir"; Create (CPiecewise 2) "river"; Create CNode "demand"; Rename 0 "town"; Create CNode "demand"] empty.
Example names_example :
  keys example_graph = ["town"; "reservoir"; "river"; "demand"] /\ List.length (g_nodes example_graph) = 11 /\
  option_map n_id (lookup "river" example_graph) = Some 4 /\ fst (construct CLoss "river" example_graph) = false /\
  map n_name (g_nodes (delete 4 example_graph)) = ["town"; "[output0]"; "[input0]"; "reservoir"; "demand"].
Proof. vm_compute. repeat split. Qed.

(** Sub-nodes are found by name although they are hidden: the name of a visible node can give another node, and deleting by name deletes
    that one. *)
Theorem C59_lookup_refuted : exists (ops : list operation) (n : node),
  let g := perform_all ops empty in
  In n (g_nodes g) /\ n_parent n = None /\ lookup (n_name n) g <> Some n /\ In n (g_nodes (snd (delete_name (n_name n) g))).
Proof.
  exists [Create (CPiecewise 1) "A"; Create CNode "A Input"], (Node 5 "A Input" None).
  vm_compute. repeat split; try tauto. discriminate.
Qed.
Print Assumptions C59_lookup_refuted.

(** The helper nodes without a parent stay when a compound node is deleted, so that it cannot be created again. *)
Theorem C59_delete_compound_refuted : exists (c : cls) (name : string),
  let g := perform_all [Create c name] empty in
  fst (construct c name empty) = true /\ g_nodes (delete 0 g) <> [] /\ fst (construct c name (delete 0 g)) = false.
Proof. exists CLoss, "A". vm_compute. repeat split; discriminate. Qed.
Print Assumptions C59_delete_compound_refuted.

(** C59 for parameters and recorders: no two have the same name, and looking a name up gives the bearer. *)
Theorem C59_components_unique (ops : list component_operation) (c d : component) (name : string) :
  let l := perform_components ops [] in
  In c l -> In d l -> c_name c = Some name -> c_name d = Some name -> c = d.
Proof. intros l. apply okc_names. apply okc_all. constructor; easy. Qed.
Print Assumptions C59_components_unique.

Theorem C59_component_lookup (ops : list component_operation) (c : component) (name : string) :
  let l := perform_components ops [] in
  In c l -> c_name c = Some name -> lookup_component name l = Some c.
Proof.
  intros l Hc E. assert (okc l) as K by (apply okc_all; constructor; easy). unfold lookup_component.
  destruct (find _ l) as [d|] eqn:F.
  - apply find_some in F as [Hd F]. destruct (c_name d) as [t|] eqn:Ed; [|discriminate]. apply String.eqb_eq in F. subst t. f_equal. symmetry.
    exact (okc_names l K c d name Hc Hd E Ed).
  - pose proof (find_none _ _ F c Hc) as X. cbn in X. rewrite E, String.eqb_refl in X. discriminate.
Qed.
Print Assumptions C59_component_lookup.

Example components_example :
  let l := perform_components [CreateC (Some "a") true; CreateC None true; CreateC (Some "a") true; RenameC 0 (Some "b"); CreateC (Some "a") true; RenameC 1 (Some "b")] [] in
  map c_name l = [Some "b"; None; Some "a"] /\ option_map c_id (lookup_component "a" l) = Some 2.
Proof. vm_compute. repeat split. Qed.

(** Deleting a parameter or recorder by name does nothing, and raises nothing. *)
Theorem C59_component_delete_refuted : exists (ops : list component_operation) (name : string),
  let l := perform_components ops [] in
  fst (delete_component name l) = true /\ lookup_component name (snd (delete_component name l)) <> None.
Proof. exists [CreateC (Some "a") true], "a". vm_compute. split; [reflexivity|discriminate]. Qed.
Print Assumptions C59_component_delete_refuted.

(** C73: a plain node or storage whose construction raises leaves the nodes of the model as they were. *)
Theorem C73_failed_construction_partial (c : cls) (name : string) (g : graph) :
  c = CNode \/ (exists outputs inputs, c = CStorage outputs inputs) ->
  fst (construct c name g) = false -> g_nodes (snd (construct c name g)) = g_nodes g.
Proof.
  intros [->|(o & i & ->)] H; [|apply storage_atomic, H]. cbn [construct] in *. unfold create_node, new, seqs, check in *.
  destruct (free name _); [discriminate|reflexivity].
Qed.
Print Assumptions C73_failed_construction_partial.

(** Renaming that raises changes nothing. *)
Theorem C73_failed_rename (id : nat) (name : string) (g : graph) :
  fst (rename id name g) = false -> snd (rename id name g) = g.
Proof. unfold rename, seqs, check. destruct (free name g); [discriminate|reflexivity]. Qed.
Print Assumptions C73_failed_rename.

Theorem C73_failed_component_rename (id : nat) (name : option string) (l : list component) :
  fst (rename_component id name l) = false -> snd (rename_component id name l) = l.
Proof. unfold rename_component. destruct (component_free name l); [discriminate|reflexivity]. Qed.
Print Assumptions C73_failed_component_rename.

Example failed_storage_example :
  let g := perform_all [Create CNode "A"] empty in
  fst (construct (CStorage 1 1) "A" g) = false /\ g_nodes (snd (construct (CStorage 1 1) "A" g)) = [Node 0 "A" None].
Proof. vm_compute. split; reflexivity. Qed.

(** Compound nodes: a PiecewiseLink with a taken name leaves its sub-nodes, with a parent that is not in the model; a LossLink
    also leaves a visible node. *)
Theorem C73_piecewise_refuted : exists (g : graph) (name : string),
  fst (construct (CPiecewise 1) name g) = false /\
  exists n p, In n (g_nodes (snd (construct (CPiecewise 1) name g))) /\ ~ In n (g_nodes g) /\ n_parent n = Some p /\
    ~ In p (map n_id (g_nodes (snd (construct (CPiecewise 1) name g)))).
Proof.
  exists (perform_all [Create CNode "A"] empty), "A". split; [reflexivity|]. exists (Node 2 "A Input" (Some 1)), 1. vm_compute.
  split; [auto|]. split; [intros [X|[]]; discriminate|]. split; [reflexivity|]. intuition discriminate.
Qed.
Print Assumptions C73_piecewise_refuted.

Theorem C73_loss_refuted : exists (g : graph) (name : string),
  fst (construct CLoss name g) = false /\ keys (snd (construct CLoss name g)) <> keys g.
Proof. exists (perform_all [Create CNode "A"] empty), "A". vm_compute. split; [reflexivity|discriminate]. Qed.
Print Assumptions C73_loss_refuted.

(** A parameter whose own constructor raises after it was registered stays in the model, and its name with it. *)
Theorem C73_component_refuted : exists (name : string),
  fst (create_component (Some name) false []) = false /\ fst (create_component (Some name) true (snd (create_component (Some name) false []))) = false.
Proof. exists "a". split; reflexivity. Qed.
Print Assumptions C73_component_refuted.
