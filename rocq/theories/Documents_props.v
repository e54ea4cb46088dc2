(** Documents: C62 (time settings of sub-models), C74 (solver of sub-models), C75 (includes), C76 (every definition is used). *)
From Verif Require Import Base Documents_model Documents_proofs.
Local Open Scope nat_scope.
Local Open Scope list_scope.
Local Open Scope string_scope.

(** C62: every sub-model gets the start and the end of the MultiModel's document. *)
Theorem C62_start_end_partial (t : time) (es : list definition) (solver : option string) (ms : dict loaded) (k : string) (m : loaded) :
  multi_load_from_dict (Some t) es solver = Some ms -> get k ms = Some m -> t_start (l_time m) = t_start t /\ t_end (l_time m) = t_end t.
Proof.
  intros F. revert k m. apply (multi_load_inv t solver (fun _ m => t_start (l_time m) = t_start t /\ t_end (l_time m) = t_end t) es [] ms); [|discriminate|exact F].
  intros e m _ H. apply load_sub_inv in H as (doc & own & _ & _ & ->). split; reflexivity.
Qed.
Print Assumptions C62_start_end_partial.

(** The timestep is that of the sub-model's own document, so it is right if the two agree. *)
Theorem C62_own_timestep_partial (t : time) (es : list definition) (solver : option string) (ms : dict loaded) (k : string) (m : loaded) :
  multi_load_from_dict (Some t) es solver = Some ms -> get k ms = Some m ->
  exists e doc own, In e es /\ e_name e = k /\ (e_filename e = Some doc \/ e_data e = Some doc) /\ d_time doc = Some own /\ t_delta (l_time m) = t_delta own.
Proof.
  intros F. revert k m.
  apply (multi_load_inv t solver (fun k m => exists e doc own, In e es /\ e_name e = k /\ (e_filename e = Some doc \/ e_data e = Some doc) /\ d_time doc = Some own /\ t_delta (l_time m) = t_delta own) es [] ms);
    [|discriminate|exact F].
  intros e m He H. apply load_sub_inv in H as (doc & own & H1 & H2 & ->). exists e, doc, own. auto.
Qed.
Print Assumptions C62_own_timestep_partial.

(** A document without a timestepper section is refused. *)
Theorem C62_required (es : list definition) (solver : option string) : multi_load_from_dict None es solver = None.
Proof. reflexivity. Qed.
Print Assumptions C62_required.

Definition example_definitions : list definition :=
  [Definition_ "a" None (Some (SubDocument (Some (Time 0 10 1)) (Some "glpk"))) None;
   Definition_ "b" (Some (SubDocument (Some (Time 5 20 7)) None)) None (Some "lpsolve")].
Example multi_load_example :
  multi_load_from_dict (Some (Time 2 30 1)) example_definitions None =
    Some [("a", Loaded (Time 2 30 1) (Some "glpk")); ("b", Loaded (Time 2 30 7) (Some "lpsolve"))] /\
  multi_load_from_dict (Some (Time 2 30 1)) [Definition_ "a" None (Some (SubDocument None None)) None] None = None.
Proof. vm_compute. split; reflexivity. Qed.

(** The timestep of the MultiModel's document is not used. *)
Theorem C62_timestep_refuted : exists (t : time) (es : list definition) (ms : dict loaded) (k : string) (m : loaded),
  multi_load_from_dict (Some t) es None = Some ms /\ get k ms = Some m /\ t_delta (l_time m) <> t_delta t.
Proof.
  exists (Time 2 30 1), example_definitions, [("a", Loaded (Time 2 30 1) (Some "glpk")); ("b", Loaded (Time 2 30 7) (Some "lpsolve"))], "b", (Loaded (Time 2 30 7) (Some "lpsolve")).
  vm_compute. repeat split. discriminate.
Qed.
Print Assumptions C62_timestep_refuted.

(** C74: with [load_from_dict] a sub-model is solved by the solver of its definition, else the one given, else that of its own document. *)
Theorem C74_solver (t : time) (es : list definition) (solver : option string) (ms : dict loaded) (k : string) (m : loaded) :
  multi_load_from_dict (Some t) es solver = Some ms -> get k ms = Some m ->
  exists e doc, In e es /\ e_name e = k /\ (e_filename e = Some doc \/ e_data e = Some doc) /\
    (forall s, e_solver e = Some s -> l_solver m = Some s) /\
    (forall s, e_solver e = None -> solver = Some s -> l_solver m = Some s) /\
    (e_solver e = None -> solver = None -> l_solver m = d_solver doc).
Proof.
  intros F. revert k m.
  apply (multi_load_inv t solver (fun k m => exists e doc, In e es /\ e_name e = k /\ (e_filename e = Some doc \/ e_data e = Some doc) /\
    (forall s, e_solver e = Some s -> l_solver m = Some s) /\ (forall s, e_solver e = None -> solver = Some s -> l_solver m = Some s) /\
    (e_solver e = None -> solver = None -> l_solver m = d_solver doc)) es [] ms); [|discriminate|exact F].
  intros e m He H. apply load_sub_inv in H as (doc & own & H1 & H2 & ->). exists e, doc. cbn [l_solver].
  split; [exact He|]. split; [reflexivity|]. split; [exact H1|]. split; [intros s ->; reflexivity|]. split; [intros s -> ->; reflexivity|intros -> ->; reflexivity].
Qed.
Print Assumptions C74_solver.

Example multi_solver_example :
  option_map (map (fun kv => l_solver (snd kv))) (multi_load_from_dict (Some (Time 2 30 1)) example_definitions (Some "glpk-edge")) = Some [Some "glpk-edge"; Some "lpsolve"].
Proof. reflexivity. Qed.

(** With [MultiModel.load] the solver given is ignored. *)
Theorem C74_load_refuted : exists (t : time) (es : list definition) (solver : string) (ms : dict loaded) (k : string) (m : loaded),
  (forall e, In e es -> e_solver e = None) /\ multi_load (Some t) es (Some solver) = Some ms /\ get k ms = Some m /\ l_solver m <> Some solver.
Proof.
  exists (Time 0 1 1), [Definition_ "a" None (Some (SubDocument (Some (Time 0 1 1)) None)) None], "lpsolve", [("a", Loaded (Time 0 1 1) None)], "a", (Loaded (Time 0 1 1) None).
  split; [intros e [<-|[]]; reflexivity|]. vm_compute. repeat split. discriminate.
Qed.
Print Assumptions C74_load_refuted.

(** C76: if the names are different, all nodes of a document are loaded, in order, and all sub-models of a MultiModel. *)
Theorem C76_nodes {N : Type} (nodes : list (string * N)) : NoDup (map fst nodes) -> nodes_to_load nodes = nodes.
Proof.
  intros H. unfold nodes_to_load. rewrite (fold_put_fresh (fun x => x) nodes []); rewrite map_id; [reflexivity|exact H].
Qed.
Print Assumptions C76_nodes.

Theorem C76_submodels (t : time) (es : list definition) (solver : option string) (ms : dict loaded) :
  NoDup (map e_name es) -> multi_load_from_dict (Some t) es solver = Some ms -> map fst ms = map e_name es.
Proof.
  intros N F. destruct (multi_load_all t solver es [] ms N F) as (ls & H & ->). cbn [app].
  clear - H. induction H as [|e m es ls _ _ IH]; [reflexivity|]. cbn. now rewrite IH.
Qed.
Print Assumptions C76_submodels.

Example nodes_example : nodes_to_load [("a", 1); ("b", 2)] = [("a", 1); ("b", 2)].
Proof. reflexivity. Qed.

(** Of two nodes, or two sub-models, with the same name the first is dropped without an error. *)
Theorem C76_duplicates_refuted :
  (exists (nodes : list (string * nat)) (x : string * nat), In x nodes /\ ~ In x (nodes_to_load nodes)) /\
  (exists t es ms, multi_load_from_dict (Some t) es None = Some ms /\ List.length ms < List.length es).
Proof.
  split.
  - exists [("a", 1); ("a", 2)], ("a", 1). split; [now left|]. intros [X|[]]. discriminate.
  - exists (Time 0 1 1), [Definition_ "a" None (Some (SubDocument (Some (Time 0 1 1)) None)) None; Definition_ "a" None (Some (SubDocument (Some (Time 0 1 7)) None)) None].
    eexists. split; [reflexivity|]. cbn. lia.
Qed.
Print Assumptions C76_duplicates_refuted.
