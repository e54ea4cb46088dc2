(** C109: the nodes of a document and the order in which they are created. *)
From Coq Require Import Strings.String Sorting.Permutation.
From Verif Require Import Base Paths Documents_model NodeLoad_model NodeLoad_proofs.
Local Open Scope string_scope.
Local Open Scope nat_scope.
Local Open Scope list_scope.

(** Loading comes to an end, whatever refers to what. *)
Theorem C109_finishes : forall doc, load doc <> Unfinished.
Proof. exact load_finishes. Qed.
Print Assumptions C109_finishes.

(** A loaded document has made every one of its nodes exactly once and no other, except those that are part of them; the name of an entry stands for the node made from it. *)
Theorem C109_nodes : forall doc g, load doc = Done g ->
  (forall n, In n (map fst doc) <-> exists i, made_at g n i) /\
  (forall n i j, made_at g n i -> present g n j -> i = j) /\
  (forall n, In n (map fst doc) -> lookup n g = Some FromEntry) /\
  (forall s t, In (s, Part t) g <-> exists n e, get n doc = Some e /\ In (s, t) (e_subs e)).
Proof.
  intros doc g L. destruct (load_done _ _ L) as (T & F). split; [|split; [|split]].
  - intros n. split.
    + intros I. specialize (F n I). exists (first n g). unfold made_at. now apply first_nth.
    + intros [i M]. destruct (t_entry _ _ T _ _ M) as (e & E & _). apply get_key. now exists e.
  - intros n i j M [o J]. destruct (made_first _ _ _ _ L M) as [_ U]. symmetry. now apply (U j o).
  - exact F.
  - intros s t. split.
    + intros I. destruct (t_part _ _ T _ _ I) as (n & e & E & J & _). now exists n, e.
    + intros (n & e & E & I). assert (K : In n (map fst doc)) by (apply get_key; now exists e).
      specialize (F n K). apply first_nth in F. destruct (t_entry _ _ T _ _ F) as (e' & E' & _ & _ & SB & _).
      rewrite E in E'. injection E' as <-. exact (SB (s, t) I).
Qed.
Print Assumptions C109_nodes.

(** A node is created after everything its entry refers to, wherever that is in the document. *)
Theorem C109_before : forall doc g n r i, load doc = Done g -> refers doc n r -> made_at g n i ->
  exists j o, j < i /\ nth_error g j = Some (r, o) /\ lookup r g = Some o.
Proof.
  intros doc g n r i L R M. destruct (refers_before _ _ _ _ L R) as (H & o & X). destruct (made_first _ _ _ _ L M) as [-> _].
  exists (first r g), o. split; [exact H|]. split; [|exact X]. now apply first_nth.
Qed.
Print Assumptions C109_before.

(** Entries that refer to each other in a circle, or to names nobody has, are refused. *)
Theorem C109_circle : forall doc n, plus (refers doc) n n -> load doc = Fails.
Proof.
  intros doc n P. destruct (load doc) as [g| |] eqn:L; [exfalso; now apply (load_acyclic _ _ L n)|reflexivity|now apply load_finishes in L].
Qed.
Print Assumptions C109_circle.

Theorem C109_unknown : forall doc n r, refers doc n r -> ~ In r (map fst doc) -> ~ In r (map fst (all_subs doc)) -> load doc = Fails.
Proof.
  intros doc n r R K A. destruct (load doc) as [g| |] eqn:L; [exfalso|reflexivity|now apply load_finishes in L].
  destruct (refers_before _ _ _ _ L R) as (_ & o & X). destruct (load_done _ _ L) as (T & _). destruct o as [|t].
  - apply first_nth in X. destruct (t_entry _ _ T _ _ X) as (e & E & _). apply K. apply get_key. now exists e.
  - apply get_in_pair in X. destruct (t_part _ _ T _ _ X) as (m & e & E & I & _). apply A.
    apply in_map_iff. exists (r, t). split; [reflexivity|]. unfold all_subs. apply in_flat_map. exists (m, e). split; [now apply get_in_pair|exact I].
Qed.
Print Assumptions C109_unknown.

(** So are entries with the name of a part of another node, in either order. *)
Theorem C109_clash : forall doc n e s t, get n doc = Some e -> In (s, t) (e_subs e) -> In s (map fst doc) -> load doc = Fails.
Proof.
  intros doc n e s t E I K. destruct (load doc) as [g| |] eqn:L; [exfalso|reflexivity|now apply load_finishes in L].
  destruct (C109_nodes _ _ L) as (A & U & _ & P). destruct (proj1 (A s) K) as [i M].
  assert (X : In (s, Part t) g) by (apply P; now exists n, e). apply In_nth_error in X as [j J].
  assert (Y : i = j) by (apply (U s i j M); now exists (Part t)). subst j. unfold made_at in M. congruence.
Qed.
Print Assumptions C109_clash.

(** A document whose names differ and whose entries refer to each other only loads if and only if no entry refers to itself, through whatever others, and every class is known and every constructor goes
    through. *)
Theorem C109_loads : forall doc, clean doc -> closed doc -> (exists g, load doc = Done g) <-> (acyclic doc /\ sound doc).
Proof.
  intros doc Cl Cd. split.
  - intros [g L]. split; [now apply load_acyclic with g|]. intros n e I.
    assert (ND : NoDup (map fst doc)) by (now apply keys_nodup).
    pose proof (get_of_pair _ _ _ ND I) as E. destruct (load_done _ _ L) as (T & F).
    assert (K : In n (map fst doc)) by (apply get_key; now exists e).
    specialize (F n K). apply first_nth in F. destruct (t_entry _ _ T _ _ F) as (e' & E' & Kn & Gd & _).
    rewrite E in E'. injection E' as <-. now split.
  - intros [Ac So]. now apply load_goes.
Qed.
Print Assumptions C109_loads.

(** The order of such a document does not matter. *)
Theorem C109_order : forall doc doc', clean doc -> closed doc -> Permutation doc doc' ->
  (exists g, load doc = Done g) -> exists g', load doc' = Done g' /\ forall n, (exists i, made_at g' n i) <-> In n (map fst doc).
Proof.
  intros doc doc' Cl Cd P L. apply (C109_loads doc Cl Cd) in L as [Ac So].
  assert (ND : NoDup (map fst doc)) by (now apply keys_nodup).
  assert (GE : forall n, get n doc = get n doc') by (intros n; now apply get_perm).
  assert (RE : forall n r, refers doc' n r -> refers doc n r) by (intros n r (e & E & I); exists e; now rewrite GE).
  assert (KE : forall n, In n (map fst doc') <-> In n (map fst doc)).
  { intros n. rewrite !get_key, GE. reflexivity. }
  assert (Cl' : clean doc') by (now apply perm_clean with doc).
  assert (Cd' : closed doc') by (intros n r R; apply KE; apply (Cd n); auto).
  destruct (proj2 (C109_loads doc' Cl' Cd')) as [g' L'].
  - split.
    + intros n C. apply (Ac n). revert C. apply plus_mono. exact RE.
    + intros n e I. apply (So n e). apply (Permutation_in (l := doc')); [now symmetry|exact I].
  - exists g'. split; [exact L'|]. intros n. rewrite <- (KE n). symmetry. apply (proj1 (C109_nodes _ _ L')).
Qed.
Print Assumptions C109_order.

Definition plain := {| e_known := true; e_refs := []; e_subs := []; e_good := true |}.
Definition over (refs : list string) := {| e_known := true; e_refs := refs; e_subs := []; e_good := true |}.
Definition break_link (n : string) :=
  {| e_known := true; e_refs := []; e_good := true;
     e_subs := [((n ++ " (storage)")%string, true); ("[output0]", false); ("[input0]", false); ((n ++ " (link)")%string, true)] |}.

(** Names of parts can be referred to, but only after the entry they are part of. *)
Theorem C109_order_refuted : exists doc doc' g, Permutation doc doc' /\ clean doc /\ load doc = Done g /\ load doc' = Fails.
Proof.
  exists [("x", break_link "x"); ("licence", over ["x (link)"])], [("licence", over ["x (link)"]); ("x", break_link "x")].
  eexists. split; [apply perm_swap|]. split.
  - split.
    + cbn. repeat constructor; cbn; intuition discriminate.
    + cbn. intros s [H|[H|[H|[H|[]]]]]; injection H as <-; intuition discriminate.
  - split; reflexivity.
Qed.
Print Assumptions C109_order_refuted.

(** A licence over two nodes that are defined later, one of them an aggregate. *)
Example C109_example :
  load [("licence", over ["total"; "a"]); ("total", over ["b"; "a"]); ("a", plain); ("x", break_link "x"); ("b", plain)] =
  Done [("b", FromEntry); ("a", FromEntry); ("total", FromEntry); ("licence", FromEntry);
        ("x (storage)", Part true); ("[output0]", Part false); ("[input0]", Part false); ("x (link)", Part true); ("x", FromEntry)].
Proof. reflexivity. Qed.
Example C109_circle_example : load [("a", over ["b"]); ("b", over ["c"]); ("c", over ["a"])] = Fails.
Proof. reflexivity. Qed.
Example C109_clash_example : load [("x (link)", plain); ("x", break_link "x")] = Fails /\ load [("x", break_link "x"); ("x (link)", plain)] = Fails.
Proof. split; reflexivity. Qed.
