(** The network and the per-timestep data the solvers read: node classes, slots of storages, members of
    aggregated nodes and virtual storages (/repo/pywr/_core.pyx, /repo/pywr/nodes.py). *)
From Verif Require Import Base Paths Sorting Routes_model LP_model.
Open Scope Q_scope.

(** Which branch of `isinstance` the solver takes (cython_glpk.pyx:439-450).  [KOther]: compound nodes
    and everything that is on no list. *)
Inductive kind := KInput | KOutput | KLink | KStorage | KVirtual | KAggregated | KOther.

(** StorageInput/StorageOutput know their storage as `parent` (nodes.py:367-379). *)
Inductive slotrole := NoSlot | InputOf (st : nat) | OutputOf (st : nat).

Record sys := {
  s_nodes : list nat;                  (* model.graph.nodes() *)
  s_edges : list (nat * nat);          (* model.graph.edges() *)
  s_name : nat -> nat;
  s_fqn : nat -> nat;
  s_domain : nat -> nat;
  s_kind : nat -> kind;
  s_slot : nat -> slotrole;
  s_inputs : nat -> list nat;          (* storage.inputs *)
  s_outputs : nat -> list nat;         (* storage.outputs *)
  s_members : nat -> list nat;         (* AggregatedNode.nodes, VirtualStorage.nodes *)
  s_vfactors : nat -> list Q;          (* VirtualStorage.factors *)
  s_has_factors : nat -> bool;         (* AggregatedNode.factors is not None *)
  s_weights : nat -> option (list Q);  (* AggregatedNode.flow_weights *)
  s_conv : nat -> Q                    (* conversion_factor *)
}.

(** What the getters return for the current timestep and one scenario combination. *)
Record data := {
  d_cost : nat -> Q;                   (* the cost the user gave (Node.cost, Storage.cost) *)
  d_min : nat -> ext;                  (* get_min_flow *)
  d_max : nat -> ext;                  (* get_max_flow *)
  d_factors : nat -> list Q;           (* AggregatedNode.get_factors *)
  d_minvol : nat -> Q;                 (* get_min_volume *)
  d_maxvol : nat -> ext;               (* get_max_volume *)
  d_vol : nat -> Q;                    (* _volume *)
  d_active : nat -> bool;              (* VirtualStorage.active *)
  d_days : Q                           (* timestep.days *)
}.

Definition is_input (k : kind) : bool := match k with KInput => true | _ => false end.
Definition is_output (k : kind) : bool := match k with KOutput => true | _ => false end.
Definition is_link (k : kind) : bool := match k with KLink => true | _ => false end.
Definition is_flow_node (k : kind) : bool := is_input k || is_output k || is_link k.
Definition is_storage (k : kind) : bool := match k with KStorage => true | _ => false end.
Definition is_virtual (k : kind) : bool := match k with KVirtual => true | _ => false end.
Definition is_aggregated (k : kind) : bool := match k with KAggregated => true | _ => false end.

Definition net_of (S : sys) : net := {|
  n_nodes := s_nodes S; n_edges := s_edges S; n_name := s_name S; n_fqn := s_fqn S;
  n_domain := s_domain S;
  n_is_input := fun n => is_input (s_kind S n);
  n_is_output := fun n => is_output (s_kind S n);
  n_is_link := fun n => is_link (s_kind S n);
  n_allow_isolated := fun n => negb (is_flow_node (s_kind S n)) |}.

(** self.all_nodes, sorted by fully qualified name (cython_glpk.pyx:409). *)
Definition all_nodes (S : sys) : list nat :=
  isort (fun a b => Nat.leb (s_fqn S a) (s_fqn S b)) (s_nodes S).

Definition of_kind (S : sys) (p : kind -> bool) : list nat := filter (fun n => p (s_kind S n)) (all_nodes S).

(** get_cost: slots answer with plus or minus the cost of their storage (_core.pyx:959-961, 993-995),
    nodes without a cost attribute with 0 (_core.pyx:500-501). *)
Definition get_cost (S : sys) (d : data) (n : nat) : Q :=
  match s_slot S n with
  | InputOf st => - d_cost d st
  | OutputOf st => d_cost d st
  | NoSlot => if is_flow_node (s_kind S n) || is_storage (s_kind S n) then d_cost d n else 0
  end.

(** get_factors_norm, _core.pyx:921-939. *)
Definition factors_norm (fs : list Q) : list Q := map (fun f => hd 0 fs / f) fs.
(** A factor of 0 is a ZeroDivisionError (_core.pyx is compiled without cdivision).  With fewer factors than members
    `factors_norm[n+1]` is read beyond its end (cython_glpk.pyx:803, 920); with fewer than two members no rows can be
    added (644).  Simplified: all of it counts as a problem that can't be posed. *)
Definition factors_usable (members : list nat) (fs : list Q) : bool :=
  Nat.leb 2 (length members) && Nat.leb (length members) (length fs) && forallb (fun f => negb (qeqb f 0)) fs.
Lemma factors_usable_nonzero members fs f : factors_usable members fs = true -> In f fs -> ~ f == 0.
Proof.
  intros H I. apply andb_true_iff in H as [_ H]. rewrite forallb_forall in H. specialize (H f I). intros Z.
  destruct (qeqbP f 0); [discriminate|contradiction].
Qed.
Lemma factors_usable_length members fs : factors_usable members fs = true -> (2 <= length members <= length fs)%nat.
Proof. intros H. apply andb_true_iff in H as [H _]. apply andb_true_iff in H as [A B]. apply Nat.leb_le in A, B. lia. Qed.

(** _flow[i] += value *)
Definition add (f : nat -> Q) (n : nat) (v : Q) : nat -> Q := fun k => if Nat.eqb k n then f k + v else f k.

(** commit: AbstractNode 481-483, StorageInput 943-945, StorageOutput 977-979. *)
Definition commit (S : sys) (fl : nat -> Q) (n : nat) (v : Q) : nat -> Q :=
  match s_slot S n with
  | NoSlot => add fl n v
  | InputOf st => add (add fl n v) st (- v)
  | OutputOf st => add (add fl n v) st v
  end.

(** "commit the total flows", cython_glpk.pyx:1090-1093; `before` has set every flow to 0
    (_core.pyx:475-479, _model.pyx:833-835). *)
Definition commit_all_nodes (S : sys) (nf : nat -> Q) : nat -> Q :=
  fold_left (fun fl n => commit S fl n (nf n)) (all_nodes S) (fun _ => 0).

(** AggregatedNode.after, _core.pyx:762-776 (the flow of the timestep). *)
Definition weights_of (S : sys) (a : nat) : list Q :=
  match s_weights S a with Some w => w | None => repeat 1 (length (s_members S a)) end.

Definition aggregated_flow (S : sys) (fl : nat -> Q) (a : nat) : Q :=
  qsum (map (fun nw => fl (fst nw) * snd nw) (combine (s_members S a) (weights_of S a))).

(** VirtualStorage.after, _core.pyx:1486-1491 (the flow of the timestep). *)
Definition virtual_flow (S : sys) (fl : nat -> Q) (v : nat) : Q :=
  fold_left (fun acc nf => acc - snd nf * fl (fst nf)) (combine (s_members S v) (s_vfactors S v)) 0.

(** Networks that the constructors of nodes.py and _core.pyx can build: a graph in the sense of
    networkx; the slots of a storage are exactly the StorageInput/StorageOutput nodes with that storage
    as parent. *)
Record wf_sys (S : sys) : Prop := {
  wf_nodes : NoDup (s_nodes S);
  wf_edges : NoDup (s_edges S);
  wf_ends : forall a b, In (a, b) (s_edges S) -> In a (s_nodes S) /\ In b (s_nodes S);
  wf_inputs : forall n st, In n (s_nodes S) -> (s_slot S n = InputOf st <-> In n (s_inputs S st));
  wf_outputs : forall n st, In n (s_nodes S) -> (s_slot S n = OutputOf st <-> In n (s_outputs S st));
  wf_inputs_nodes : forall n st, In n (s_inputs S st) -> In n (s_nodes S) /\ s_kind S n = KInput /\ s_kind S st = KStorage;
  wf_outputs_nodes : forall n st, In n (s_outputs S st) -> In n (s_nodes S) /\ s_kind S n = KOutput /\ s_kind S st = KStorage;
  wf_parent : forall n st, s_slot S n = InputOf st \/ s_slot S n = OutputOf st -> In st (s_nodes S);
  wf_inputs_NoDup : forall st, NoDup (s_inputs S st);
  wf_outputs_NoDup : forall st, NoDup (s_outputs S st)
}.
