(** Property C106: schematics show every node and every connection of a model; Sankey diagrams show every flow; compared series have the
    same dates. *)
From Coq Require Import Strings.Ascii Strings.String.
From Verif Require Import Base Documents_model Documents_proofs Options_props Drawing_model.
Local Open Scope string_scope.
Local Open Scope nat_scope.
Local Open Scope list_scope.

(** * Auxiliary facts *)

Lemma all_of_Some {A} : forall (l : list (option A)) r, all_of l = Some r -> l = map Some r.
Proof.
  induction l as [|[a|] l IH]; intros r E; cbn [all_of] in E; try discriminate.
  - injection E as <-. reflexivity.
  - destruct (all_of l) as [r'|] eqn:E'; [|discriminate]. injection E as <-. cbn [map]. now rewrite (IH r' eq_refl).
Qed.
Lemma all_of_map_Some {A} : forall (r : list A), all_of (map Some r) = Some r.
Proof. induction r as [|a r IH]; cbn; [reflexivity|now rewrite IH]. Qed.
Lemma all_of_defined {A} : forall (l : list (option A)), (forall x, In x l -> x <> None) -> exists r, all_of l = Some r.
Proof.
  induction l as [|[a|] l IH]; intros H; cbn [all_of].
  - now exists [].
  - destruct IH as [r Er]; [intros x Hx; apply H; now right|]. rewrite Er. now exists (a :: r).
  - exfalso. apply (H None); [now left|reflexivity].
Qed.

Lemma index_of_nth : forall l n i, index_of n l = Some i -> nth_error l i = Some n.
Proof.
  induction l as [|m l IH]; intros n i E; cbn [index_of] in E; [discriminate|].
  destruct (String.eqb_spec m n) as [->|N]; [injection E as <-; reflexivity|].
  destruct (index_of n l) as [j|] eqn:Ej; [|discriminate]. injection E as <-. cbn. now apply IH.
Qed.
Lemma index_of_in : forall l n, In n l -> exists i, index_of n l = Some i.
Proof.
  induction l as [|m l IH]; intros n H; [destruct H|]. cbn [index_of]. destruct (String.eqb_spec m n) as [->|N]; [now exists 0|].
  destruct H as [H|H]; [contradiction|]. destruct (IH n H) as [i Ei]. rewrite Ei. now exists (S i).
Qed.
Lemma index_of_unique l n i : NoDup l -> nth_error l i = Some n -> index_of n l = Some i.
Proof.
  intros N E. destruct (index_of_in l n (nth_error_In _ _ E)) as [j Ej]. rewrite Ej. f_equal.
  apply (proj1 (NoDup_nth_error l) N); [apply nth_error_Some; now rewrite (index_of_nth _ _ _ Ej)|].
  now rewrite (index_of_nth _ _ _ Ej).
Qed.

(** * The picture of a model *)

(** What a user sees as one node: the node and the nodes it is made of. *)
Definition part_of (g : vgraph) (n i : nat) : Prop := i = n \/ exists v, nth_error (v_nodes g) i = Some v /\ v_parent v = Some n.
(** A node that the user has made and that takes part in the network. *)
Definition top (g : vgraph) (n : nat) (name : string) : Prop :=
  exists v, nth_error (v_nodes g) n = Some v /\ v_name v = name /\ v_parent v = None /\ v_virtual v = false.

(** Graphs as models make them: names differ; nodes are made of nodes that are not themselves made of others; edges are between nodes that
    take part in the network. *)
Record proper (g : vgraph) : Prop := {
  proper_names : forall n m s, top g n s -> top g m s -> n = m;
  proper_edges : forall s t, In (s, t) (v_edges g) ->
    (exists n x, top g n x /\ part_of g n s) /\ (exists m y, top g m y /\ part_of g m t) }.

Lemma nth_node g i v : nth_error (v_nodes g) i = Some v -> node_at g i = v.
Proof. intros E. unfold node_at. now apply nth_error_nth. Qed.

Lemma up_part g n x i : top g n x -> part_of g n i -> up g i = n.
Proof.
  intros (v & E & _ & P & _) [->|(w & Ew & Pw)]; unfold up.
  - now rewrite (nth_node g n v E), P.
  - now rewrite (nth_node g i w Ew), Pw.
Qed.

Lemma names_top g s : In s (node_names g) <-> exists n, top g n s.
Proof.
  unfold node_names. rewrite in_map_iff. split.
  - intros (v & E & H). apply filter_In in H as [H S']. apply In_nth_error in H as [n En]. exists n, v. repeat split; auto.
    + unfold is_shown in S'. now destruct (v_parent v).
    + unfold is_shown in S'. destruct (v_parent v); [discriminate|]. now destruct (v_virtual v).
  - intros (n & v & E & Nm & P & V). exists v. split; [exact Nm|]. apply filter_In. split; [eapply nth_error_In; exact E|].
    unfold is_shown. now rewrite P, V.
Qed.

Lemma NoDup_names_top : forall l : list vnode,
  (forall n m v w, nth_error l n = Some v -> nth_error l m = Some w -> is_shown v = true -> is_shown w = true -> v_name v = v_name w -> n = m) ->
  NoDup (map v_name (filter is_shown l)).
Proof.
  induction l as [|v l IH]; intros H; cbn [filter map]; [constructor|].
  assert (IH' : NoDup (map v_name (filter is_shown l))).
  { apply IH. intros n m a b Ea Eb Sa Sb E. specialize (H (S n) (S m) a b Ea Eb Sa Sb E). lia. }
  destruct (is_shown v) eqn:Sv; [|exact IH']. cbn [map]. constructor; [|exact IH'].
  intros X. apply in_map_iff in X as (w & E & X). apply filter_In in X as [X Sw]. apply In_nth_error in X as [m Em].
  specialize (H 0 (S m) v w eq_refl Em Sv Sw (eq_sym E)). lia.
Qed.

Lemma proper_NoDup g : proper g -> NoDup (node_names g).
Proof.
  intros P. apply NoDup_names_top. intros n m v w Ev Ew Sv Sw E. unfold is_shown in *.
  apply (proper_names g P n m (v_name v)).
  - exists v. destruct (v_parent v); [discriminate|]. destruct (v_virtual v); [discriminate|]. auto.
  - exists w. destruct (v_parent w); [discriminate|]. destruct (v_virtual w); [discriminate|]. auto.
Qed.

Lemma top_name g n x : top g n x -> v_name (node_at g n) = x.
Proof. intros (v & E & Nm & _). now rewrite (nth_node g n v E). Qed.

(** Which links a picture has, by name. *)
Definition linked (p : picture) (a b : string) : Prop :=
  exists i j, In (i, j) (links p) /\ nth_error (shown p) i = Some a /\ nth_error (shown p) j = Some b.

(** The picture shows the nodes that the user has made, each once and in order, and links two of them exactly when an edge goes from a part
    of the one to a part of the other; nothing else is linked. *)
Theorem C106_model : forall g, proper g ->
  exists p, draw_model g = Some p
    /\ NoDup (shown p) /\ (forall s, In s (shown p) <-> exists n, top g n s)
    /\ (forall i j, In (i, j) (links p) -> exists a b, nth_error (shown p) i = Some a /\ nth_error (shown p) j = Some b)
    /\ forall n a m b, top g n a -> top g m b ->
         (linked p a b <-> n <> m /\ exists s t, In (s, t) (v_edges g) /\ part_of g n s /\ part_of g m t).
Proof.
  intros g P.
  assert (L : forall s t n a m b, In (s, t) (v_edges g) -> top g n a -> part_of g n s -> top g m b -> part_of g m t ->
    exists i j, nth_error (node_names g) i = Some a /\ nth_error (node_names g) j = Some b
      /\ model_link g (s, t) = if Nat.eqb n m then [] else [Some (i, j)]).
  { intros s t n a m b He Tn Ps Tm Pt.
    destruct (index_of_in (node_names g) a) as [i Ei]; [apply names_top; now exists n|].
    destruct (index_of_in (node_names g) b) as [j Ej]; [apply names_top; now exists m|].
    exists i, j. split; [now apply index_of_nth|]. split; [now apply index_of_nth|].
    unfold model_link. cbn [fst snd]. rewrite (up_part g n a s Tn Ps), (up_part g m b t Tm Pt).
    rewrite (top_name g n a Tn), (top_name g m b Tm), Ei, Ej. reflexivity. }
  destruct (all_of_defined (flat_map (model_link g) (v_edges g))) as [r Er].
  { intros x Hx. apply in_flat_map in Hx as ((s, t) & He & Hx). destruct (proper_edges g P s t He) as [(n & a & Tn & Ps) (m & b & Tm & Pt)].
    destruct (L s t n a m b He Tn Ps Tm Pt) as (i & j & _ & _ & E). rewrite E in Hx. destruct (Nat.eqb n m); [destruct Hx|].
    destruct Hx as [<-|[]]. discriminate. }
  pose proof (all_of_Some _ _ Er) as Em.
  assert (R : forall i j, In (i, j) r <-> exists s t, In (s, t) (v_edges g) /\ In (Some (i, j)) (model_link g (s, t))).
  { intros i j. split.
    - intros H. assert (X : In (Some (i, j)) (map Some r)) by now apply in_map. rewrite <- Em in X.
      apply in_flat_map in X as ((s, t) & He & X). now exists s, t.
    - intros (s & t & He & X). assert (Y : In (Some (i, j)) (flat_map (model_link g) (v_edges g))) by (apply in_flat_map; eauto).
      rewrite Em in Y. apply in_map_iff in Y as (y & Ey & Y). now injection Ey as ->. }
  exists {| shown := node_names g; links := r |}. unfold draw_model. rewrite Er. cbn [option_map shown links].
  split; [reflexivity|]. split; [now apply proper_NoDup|]. split; [intros s; apply names_top|]. split.
  - intros i j H. apply R in H as (s & t & He & X). destruct (proper_edges g P s t He) as [(n & a & Tn & Ps) (m & b & Tm & Pt)].
    destruct (L s t n a m b He Tn Ps Tm Pt) as (i' & j' & Ei & Ej & E). rewrite E in X. destruct (Nat.eqb n m); [destruct X|].
    destruct X as [X|[]]. injection X as <- <-. eauto.
  - intros n a m b Tn Tm. unfold linked. cbn [links shown]. split.
    + intros (i & j & H & Ei & Ej). apply R in H as (s & t & He & X).
      destruct (proper_edges g P s t He) as [(n' & a' & Tn' & Ps) (m' & b' & Tm' & Pt)].
      destruct (L s t n' a' m' b' He Tn' Ps Tm' Pt) as (i' & j' & Ei' & Ej' & E). rewrite E in X.
      destruct (Nat.eqb_spec n' m') as [|D]; [destruct X|]. destruct X as [X|[]]. injection X as <- <-.
      assert (a' = a) by congruence. assert (b' = b) by congruence. subst a' b'.
      pose proof (proper_names g P n n' a Tn Tn') as <-. pose proof (proper_names g P m m' b Tm Tm') as <-. split; [exact D|eauto].
    + intros [D (s & t & He & Ps & Pt)]. destruct (L s t n a m b He Tn Ps Tm Pt) as (i & j & Ei & Ej & E).
      exists i, j. split; [|auto]. apply R. exists s, t. split; [exact He|]. rewrite E.
      destruct (Nat.eqb_spec n m); [contradiction|]. now left.
Qed.
Print Assumptions C106_model.

(** A reservoir (with its own input and output), a river between it and a demand, and a licence (virtual). *)
Definition reservoir_graph : vgraph :=
  {| v_nodes := [ {| v_name := "catchment"; v_parent := None; v_virtual := false |};
                  {| v_name := "reservoir"; v_parent := None; v_virtual := false |};
                  {| v_name := "[output0]"; v_parent := Some 1; v_virtual := false |};
                  {| v_name := "[input0]"; v_parent := Some 1; v_virtual := false |};
                  {| v_name := "licence"; v_parent := None; v_virtual := true |};
                  {| v_name := "demand"; v_parent := None; v_virtual := false |} ];
     v_edges := [(0, 2); (3, 5)] |}.
Example C106_model_example :
  draw_model reservoir_graph = Some {| shown := ["catchment"; "reservoir"; "demand"]; links := [(0, 1); (1, 2)] |}.
Proof. reflexivity. Qed.
Example C106_model_example_proper : proper reservoir_graph.
Proof.
  assert (T : forall n s, top reservoir_graph n s <->
    (n = 0 /\ s = "catchment") \/ (n = 1 /\ s = "reservoir") \/ (n = 5 /\ s = "demand")).
  { intros n s. split.
    - intros (v & E & Nm & P & V). do 6 (destruct n as [|n]; [cbn in E; injection E as <-; cbn in *; subst; try discriminate; tauto|]).
      destruct n; discriminate.
    - intros [[-> ->]|[[-> ->]|[-> ->]]]; eexists; cbn; repeat split; reflexivity. }
  split.
  - intros n m s Tn Tm. apply (proj1 (T n s)) in Tn. apply (proj1 (T m s)) in Tm. intuition (subst; try lia; discriminate).
  - intros s t [X|[X|[]]]; injection X as <- <-.
    + split; [exists 0, "catchment"|exists 1, "reservoir"]; rewrite T; (split; [auto|]); [now left|right; eexists; split; reflexivity].
    + split; [exists 1, "reservoir"|exists 5, "demand"]; rewrite T; (split; [auto|]); [right; eexists; split; reflexivity|now left].
Qed.

(** * The picture of a document *)

(** Which types are virtual when a document is loaded: the subclasses of VirtualStorage, AggregatedNode and AggregatedStorage
    (_core.pyx:744, 1370, 1461; nodes.py:355-1067). *)
Definition virtual_types : list string :=
  ["virtualstorage"; "rollingvirtualstorage"; "annualvirtualstorage"; "seasonalvirtualstorage"; "monthlyvirtualstorage";
   "aggregatednode"; "aggregatedstorage"].
Definition is_virtual (n : jnode) : bool := existsb (String.eqb (lower (j_type n))) virtual_types.

Section Json.
Variable registered : string -> bool.
Variable parameter_class : string -> option string.
Variable str : json -> string.
Notation draw := (draw_json registered parameter_class str).

Lemma json_nodes_plain m : (forall n, In n (j_nodes m) -> registered (lower (j_type n)) = true) ->
  json_nodes registered parameter_class str false m = Some (map (fun n => (j_name n, [])) (filter (fun n => negb (skipped n)) (j_nodes m))).
Proof.
  intros H. unfold json_nodes. rewrite <- all_of_map_Some. f_equal. rewrite map_map. apply map_ext_in. intros n Hn.
  apply filter_In in Hn as [Hn _]. unfold json_node. now rewrite (H n Hn).
Qed.

(** The document's picture shows the nodes whose types are not in the list of virtual types, in order, and one link for each edge. *)
Theorem C106_json : forall m, (forall n, In n (j_nodes m) -> registered (lower (j_type n)) = true) ->
  let names := map j_name (filter (fun n => negb (skipped n)) (j_nodes m)) in
  (forall p at', draw false m = Some (p, at') ->
     shown p = names /\ List.length (links p) = List.length (j_edges m)
     /\ forall k i j, nth_error (links p) k = Some (i, j) ->
          exists a b, nth_error (j_edges m) k = Some (a, b) /\ nth_error names i = Some a /\ nth_error names j = Some b)
  /\ (draw false m = None <-> exists a b, In (a, b) (j_edges m) /\ ~ (In a names /\ In b names)).
Proof.
  intros m H names. pose proof (json_nodes_plain m H) as E. unfold draw_json. rewrite E.
  assert (N : map fst (map (fun n => (j_name n, @nil (string * string))) (filter (fun n => negb (skipped n)) (j_nodes m))) = names)
    by now rewrite map_map. rewrite N. split.
  - intros p at' D. destruct (all_of (map (json_link names) (j_edges m))) as [l|] eqn:El; [|discriminate]. injection D as <- <-. cbn [shown links].
    pose proof (all_of_Some _ _ El) as Em. split; [reflexivity|]. split.
    + apply (f_equal (@List.length _)) in Em. now rewrite !map_length in Em.
    + intros k i j Ek. assert (X : nth_error (map Some l) k = Some (Some (i, j))) by now rewrite (map_nth_error _ _ _ Ek).
      rewrite <- Em in X. destruct (nth_error (j_edges m) k) as [[a b]|] eqn:Ee.
      * rewrite (map_nth_error _ _ _ Ee) in X. injection X as X. unfold json_link in X. cbn [fst snd] in X.
        destruct (index_of a names) eqn:Ea; [|discriminate]. destruct (index_of b names) eqn:Eb; [|discriminate].
        injection X as -> ->. exists a, b. split; [reflexivity|]. split; now apply index_of_nth.
      * apply nth_error_None in Ee. rewrite (proj2 (nth_error_None _ _)) in X; [discriminate|now rewrite map_length].
  - split.
    + intros D. destruct (all_of (map (json_link names) (j_edges m))) as [l|] eqn:El; [discriminate|]. clear D.
      revert El. generalize (j_edges m). induction l as [|[a b] l IH]; intros El; cbn [map all_of] in El; [discriminate|].
      destruct (json_link names (a, b)) as [ij|] eqn:Ej.
      * destruct (all_of (map (json_link names) l)) as [r|] eqn:Er; [discriminate|]. destruct (IH eq_refl) as (a' & b' & I & Q').
        exists a', b'. split; [now right|exact Q'].
      * exists a, b. split; [now left|]. intros [Ia Ib]. destruct (index_of_in _ _ Ia) as [i Ei]. destruct (index_of_in _ _ Ib) as [j Eib].
        unfold json_link in Ej. cbn [fst snd] in Ej. now rewrite Ei, Eib in Ej.
    + intros (a & b & I & Q'). destruct (all_of (map (json_link names) (j_edges m))) as [l|] eqn:El; [|reflexivity]. exfalso.
      pose proof (all_of_Some _ _ El) as Em. assert (X : In (json_link names (a, b)) (map Some l)) by (rewrite <- Em; now apply in_map).
      apply in_map_iff in X as ([i j] & Ex & _). unfold json_link in Ex. cbn [fst snd] in Ex.
      destruct (index_of a names) eqn:Ea; [|discriminate]. destruct (index_of b names) eqn:Eb; [|discriminate].
      apply Q'. split; eapply nth_error_In, index_of_nth; eassumption.
Qed.

(** A model loaded from a document: a node for each one in it, virtual when its type is, and edges between parts of two nodes exactly when
    the document has an edge between them. *)
Record loaded (m : jmodel) (g : vgraph) : Prop := {
  loaded_proper : proper g;
  loaded_nodes : forall s, (exists n, top g n s) <-> exists n, In n (j_nodes m) /\ j_name n = s /\ is_virtual n = false;
  loaded_edges : forall n a k b, top g n a -> top g k b -> n <> k ->
    ((exists s t, In (s, t) (v_edges g) /\ part_of g n s /\ part_of g k t) <-> In (a, b) (j_edges m));
  loaded_no_loops : forall a b, In (a, b) (j_edges m) -> a <> b /\ (exists n, top g n a) /\ (exists k, top g k b) }.

(** Both ways of drawing give the same nodes and the same links, if no node is a virtual storage that begins anew each month or rolls. *)
Theorem C106_agree : forall m g, loaded m g -> (forall n, In n (j_nodes m) -> registered (lower (j_type n)) = true) ->
  (forall n, In n (j_nodes m) -> lower (j_type n) <> "monthlyvirtualstorage" /\ lower (j_type n) <> "rollingvirtualstorage") ->
  exists p q at', draw_model g = Some p /\ draw false m = Some (q, at')
    /\ (forall s, In s (shown p) <-> In s (shown q)) /\ (forall a b, linked p a b <-> linked q a b).
Proof.
  intros m g L H V.
  destruct (C106_model g (loaded_proper m g L)) as (p & Ep & Np & Sp & Wp & Lp).
  assert (SV : forall n, In n (j_nodes m) -> skipped n = is_virtual n).
  { intros n Hn. destruct (V n Hn) as [V1 V2]. unfold skipped, is_virtual, skipped_types, virtual_types. cbn [existsb].
    apply String.eqb_neq in V1. apply String.eqb_neq in V2. rewrite V1, V2, !orb_false_r, !orb_false_l.
    destruct (String.eqb (lower (j_type n)) "virtualstorage"), (String.eqb (lower (j_type n)) "annualvirtualstorage"),
      (String.eqb (lower (j_type n)) "seasonalvirtualstorage"), (String.eqb (lower (j_type n)) "aggregatednode"),
      (String.eqb (lower (j_type n)) "aggregatedstorage"); reflexivity. }
  assert (NS : forall s, In s (map j_name (filter (fun n => negb (skipped n)) (j_nodes m))) <-> exists n, top g n s).
  { intros s. rewrite (loaded_nodes m g L), in_map_iff. split.
    - intros (n & E & I). apply filter_In in I as [I B]. exists n. rewrite <- (SV n I). now destruct (skipped n).
    - intros (n & I & E & B). exists n. split; [exact E|]. apply filter_In. split; [exact I|]. now rewrite (SV n I), B. }
  destruct (C106_json m H) as [J1 J2]. cbn zeta in J1, J2.
  destruct (draw false m) as [[q at']|] eqn:D.
  2:{ exfalso. destruct (proj1 J2 eq_refl) as (a & b & I & X). apply X. rewrite !NS.
      destruct (loaded_no_loops m g L a b I) as (_ & Ia & Ib). auto. }
  destruct (J1 q at' eq_refl) as (Sq & Lq & Kq). exists p, q, at'. split; [exact Ep|]. split; [reflexivity|]. split.
  - intros s. now rewrite Sp, Sq, NS.
  - intros a b. split.
    + intros K. pose proof K as (i & j & I & Ei & Ej).
      destruct (proj1 (Sp a) (nth_error_In _ _ Ei)) as [n Tn]. destruct (proj1 (Sp b) (nth_error_In _ _ Ej)) as [k Tk].
      apply (proj1 (Lp n a k b Tn Tk)) in K as [D' X]. apply (proj1 (loaded_edges m g L n a k b Tn Tk D')) in X.
      apply In_nth_error in X as [e Ee]. assert (Lt : e < List.length (links q)) by (rewrite Lq; apply nth_error_Some; now rewrite Ee).
      apply nth_error_Some in Lt. destruct (nth_error (links q) e) as [[i' j']|] eqn:El; [|contradiction].
      destruct (Kq e i' j' El) as (a' & b' & Ee' & Ei' & Ej'). rewrite Ee in Ee'. injection Ee' as <- <-.
      exists i', j'. rewrite Sq. split; [eapply nth_error_In; exact El|]. auto.
    + intros (i & j & I & Ei & Ej). apply In_nth_error in I as [e El]. destruct (Kq e i j El) as (a' & b' & Ee & Ei' & Ej').
      rewrite Sq in Ei, Ej. assert (a' = a) by congruence. assert (b' = b) by congruence. subst a' b'.
      apply nth_error_In in Ee. destruct (loaded_no_loops m g L a b Ee) as (D' & [n Tn] & [k Tk]).
      assert (Dn : n <> k). { intros ->. destruct Tn as (v & E1 & N1 & _). destruct Tk as (w & E2 & N2 & _). congruence. }
      apply (proj2 (Lp n a k b Tn Tk)). split; [exact Dn|]. now apply (proj2 (loaded_edges m g L n a k b Tn Tk Dn)).
Qed.

(** With a table of the attributes the picture is the same, provided that the document has parameters, no attribute is a list and the
    types of parameters are known. *)
Definition attribute_shown (params : dict string) (v : json) : Prop :=
  match v with
  | JList _ => False
  | JDict d => forall t, get "type" d = Some (JString t) -> parameter_class t <> None
  | JString s => forall t, get s params = Some t -> parameter_class t <> None
  | _ => True
  end.
Theorem C106_attributes_partial : forall m params, j_parameters m = Some params ->
  (forall n k v, In n (j_nodes m) -> In (k, v) (("name", JString (j_name n)) :: j_attrs n) -> attribute_shown params v) ->
  forall p at', draw false m = Some (p, at') ->
  exists at2, draw true m = Some (p, at2) /\ List.length at2 = List.length (shown p).
Proof.
  intros m params EP A p at' D. unfold draw_json in *.
  destruct (json_nodes registered parameter_class str false m) as [ns|] eqn:E1; [|discriminate].
  assert (X : exists ns2, json_nodes registered parameter_class str true m = Some ns2 /\ map fst ns2 = map fst ns).
  { unfold json_nodes in *. rewrite EP in *.
    assert (I : forall n, In n (filter (fun n => negb (skipped n)) (j_nodes m)) -> In n (j_nodes m)) by (intros n Hn; now apply filter_In in Hn).
    clear D. revert ns E1 I. generalize (filter (fun n => negb (skipped n)) (j_nodes m)).
    induction l as [|n l IH]; intros ns E I; cbn [map all_of] in E |- *; [injection E as <-; now exists []|].
    unfold json_node at 1 in E. unfold json_node at 1. destruct (registered (lower (j_type n))) eqn:R; [|discriminate].
    destruct (all_of (map (json_node registered parameter_class str false (Some params)) l)) as [r|] eqn:Er; [|discriminate].
    injection E as <-. destruct (IH r eq_refl) as (r2 & Er2 & Ef); [intros x Hx; apply I; now right|].
    assert (T : exists a, attributes_of parameter_class str (Some params) n = Some a).
    { apply all_of_defined. intros x Hx. apply in_map_iff in Hx as ([k v] & <- & Hx). cbn [fst snd].
      pose proof (A n k v (I n (or_introl eq_refl)) Hx) as Av. unfold attribute. destruct v as [|q|s|l'|d]; cbn [attribute_shown] in Av; try discriminate.
      - destruct (get s params) as [t|]; [|discriminate]. specialize (Av t eq_refl). destruct (parameter_class t); [discriminate|contradiction].
      - destruct Av.
      - destruct (get "type" d) as [[| |t| |]|]; try discriminate. specialize (Av t eq_refl). destruct (parameter_class t); [discriminate|contradiction]. }
    destruct T as [a Ea]. rewrite Ea, Er2. cbn [option_map]. exists ((j_name n, a) :: r2). split; [reflexivity|]. cbn [map fst]. now rewrite Ef. }
  destruct X as (ns2 & E2 & Ef). rewrite E2, Ef.
  destruct (all_of (map (json_link (map fst ns)) (j_edges m))) as [l|]; [|discriminate]. injection D as <- <-. cbn [option_map shown].
  eexists. split; [reflexivity|]. rewrite map_length. apply (f_equal (@List.length _)) in Ef. now rewrite !map_length in *.
Qed.
End Json.
Print Assumptions C106_json.
Print Assumptions C106_agree.
Print Assumptions C106_attributes_partial.

(** A document with a monthly licence: the licence is shown although it is not part of the network and the picture of the model that is
    loaded from it does not show it. *)
Definition all_types (_ : string) : bool := true.
Definition no_class (_ : string) : option string := None.
Definition no_str (_ : json) : string := "".
Definition licence_doc : jmodel :=
  {| j_nodes := [ {| j_name := "river"; j_type := "Input"; j_attrs := [] |}; {| j_name := "demand"; j_type := "Output"; j_attrs := [] |};
                  {| j_name := "licence"; j_type := "MonthlyVirtualStorage"; j_attrs := [] |} ];
     j_edges := [("river", "demand")]; j_parameters := None |}.
Definition licence_graph : vgraph :=
  {| v_nodes := [ {| v_name := "river"; v_parent := None; v_virtual := false |}; {| v_name := "demand"; v_parent := None; v_virtual := false |};
                  {| v_name := "licence"; v_parent := None; v_virtual := true |} ]; v_edges := [(0, 1)] |}.
Lemma licence_top n s : top licence_graph n s <-> (n = 0 /\ s = "river") \/ (n = 1 /\ s = "demand").
Proof.
  split.
  - intros (v & E & Nm & P & V). do 3 (destruct n as [|n]; [cbn in E; injection E as <-; cbn in *; subst; try discriminate; tauto|]).
    destruct n; discriminate.
  - intros [[-> ->]|[-> ->]]; eexists; cbn; repeat split; reflexivity.
Qed.
Theorem C106_agree_refuted : exists m g, loaded m g
  /\ exists p q at', draw_model g = Some p /\ draw_json all_types no_class no_str false m = Some (q, at')
       /\ In "licence" (shown q) /\ ~ In "licence" (shown p).
Proof.
  exists licence_doc, licence_graph. split.
  - split.
    + split.
      * intros n m s Tn Tm. apply (proj1 (licence_top n s)) in Tn. apply (proj1 (licence_top m s)) in Tm.
        intuition (subst; try lia; discriminate).
      * intros s t [X|[]]. injection X as <- <-. split; [exists 0, "river"|exists 1, "demand"]; rewrite licence_top; (split; [auto|now left]).
    + intros s. split.
      * intros [n T]. apply (proj1 (licence_top n s)) in T. destruct T as [[-> ->]|[-> ->]]; cbn [j_nodes licence_doc];
          [eexists; split; [now left|now split]|eexists; split; [right; now left|now split]].
      * intros (n & [<-|[<-|[<-|[]]]] & <- & E); cbn in E; try discriminate; [exists 0|exists 1]; rewrite licence_top; auto.
    + intros n a k b Tn Tk D. apply (proj1 (licence_top n a)) in Tn. apply (proj1 (licence_top k b)) in Tk. split.
      * intros (s & t & [X|[]] & Ps & Pt). injection X as <- <-.
        assert (Q1 : n = 0). { destruct Ps as [<-|(v & E & P)]; [reflexivity|]. cbn in E. injection E as <-. discriminate. }
        assert (Q2 : k = 1). { destruct Pt as [<-|(v & E & P)]; [reflexivity|]. cbn in E. injection E as <-. discriminate. }
        destruct Tn as [[_ ->]|[? _]]; [|lia]. destruct Tk as [[? _]|[_ ->]]; [lia|]. now left.
      * intros [X|[]]. injection X as <- <-. destruct Tn as [[-> _]|[_ X]]; [|discriminate]. destruct Tk as [[_ X]|[-> _]]; [discriminate|].
        exists 0, 1. repeat split; now left.
    + intros a b [X|[]]. injection X as <- <-. split; [discriminate|]. split; [exists 0|exists 1]; rewrite licence_top; auto.
  - eexists _, _, _. split; [reflexivity|]. split; [reflexivity|]. cbn. split; [tauto|]. intros [X|[X|[]]]; discriminate.
Qed.
Print Assumptions C106_agree_refuted.

(** Tables of attributes cannot be had when an attribute is a list (e.g. the costs of a piecewise link), nor when the document has no
    parameters at all. *)
Definition piecewise_doc (params : option (dict string)) (attrs : list (string * json)) : jmodel :=
  {| j_nodes := [ {| j_name := "link"; j_type := "PiecewiseLink"; j_attrs := attrs |} ]; j_edges := []; j_parameters := params |}.
Theorem C106_attributes_refuted :
  (exists m, j_parameters m = Some [] /\ draw_json all_types no_class no_str false m <> None /\ draw_json all_types no_class no_str true m = None)
  /\ (exists m, (forall n, In n (j_nodes m) -> j_attrs n = []) /\ draw_json all_types no_class no_str false m <> None
        /\ draw_json all_types no_class no_str true m = None).
Proof.
  split.
  - exists (piecewise_doc (Some []) [("costs", JList [JNumber 1; JNumber 2])]). split; [reflexivity|]. split; [discriminate|reflexivity].
  - exists (piecewise_doc None []). split; [intros n [<-|[]]; reflexivity|]. split; [discriminate|reflexivity].
Qed.
Print Assumptions C106_attributes_refuted.

(** * Sankey diagrams *)

Section Sankey.
Variable callback : option (string -> string -> Q -> bool).
Variable rename : option (string -> bool -> string).
Variable ignore_circular : bool.
Variable threshold : Q.

(** The routes that are not left out and lead from [a] to [b] after renaming. *)
Definition kept (r : string * string * Q) : bool := match callback with None => true | Some f => let '(a, b, q) := r in f a b q end.
Definition start_of (r : string * string * Q) : string := let '(a, _, _) := r in match rename with None => a | Some f => f a true end.
Definition end_of (r : string * string * Q) : string := let '(_, b, _) := r in match rename with None => b | Some f => f b false end.
Definition leads (a b : string) (r : string * string * Q) : bool :=
  kept r && String.eqb (start_of r) a && String.eqb (end_of r) b && negb (ignore_circular && String.eqb a b).
Lemma kept_asked r : kept r = asked callback r.
Proof. destruct r as [[a b] q]. reflexivity. Qed.
Lemma start_renamed r : start_of r = renamed rename (fst (fst r)) true.
Proof. destruct r as [[a b] q]. reflexivity. Qed.
Lemma end_renamed r : end_of r = renamed rename (snd (fst r)) false.
Proof. destruct r as [[a b] q]. reflexivity. Qed.
Definition between (a b : string) (routes : list (string * string * Q)) : list Q := map snd (filter (leads a b) routes).
Notation step := (route_step callback rename ignore_circular).

Definition look (a b : string) (d : dict (dict Q)) : option Q := match get a d with Some i => get b i | None => None end.
Definition tidy (d : dict (dict Q)) : Prop := NoDup (map fst d) /\ forall a i, In (a, i) d -> NoDup (map fst i).

Lemma get_In {V} : forall (d : dict V) k v, NoDup (map fst d) -> (get k d = Some v <-> In (k, v) d).
Proof.
  induction d as [|[k' v'] d IH]; intros k v N; cbn [get]; [split; [discriminate|intros []]|].
  cbn [map fst] in N. apply NoDup_cons_iff in N as [N1 N2].
  destruct (String.eqb_spec k' k) as [->|Ne].
  - split; [intros [= ->]; now left|]. intros [X|X]; [injection X as ->; reflexivity|]. exfalso. apply N1. apply in_map_iff. now exists (k, v).
  - rewrite (IH k v N2). split; [now right|]. intros [X|X]; [congruence|exact X].
Qed.
Lemma in_put {V} : forall (d : dict V) k v x, In x (put k v d) -> x = (k, v) \/ In x d.
Proof.
  induction d as [|[k' v'] d IH]; intros k v x H; cbn [put] in H.
  - destruct H as [H|[]]; auto.
  - destruct (String.eqb k' k); destruct H as [H|H]; auto; [right; now right|right; now left|].
    destruct (IH k v x H); [now left|right; now right].
Qed.

Lemma look_add a b f x y d :
  look x y (add_flow a b f d) =
  if String.eqb a x && String.eqb b y then Some (match look a b d with Some v => v | None => 0 end + f)%Q else look x y d.
Proof.
  unfold look, add_flow. rewrite get_put. destruct (String.eqb_spec a x) as [<-|N]; [|reflexivity].
  rewrite get_put. destruct (String.eqb_spec b y) as [<-|N]; cbn [andb].
  - destruct (get a d); reflexivity.
  - destruct (get a d); reflexivity.
Qed.
Lemma tidy_add a b f d : tidy d -> tidy (add_flow a b f d).
Proof.
  intros [N I]. unfold add_flow. split; [now apply put_NoDup|].
  intros x i H. apply in_put in H as [H|H]; [|exact (I x i H)]. injection H as -> ->. apply put_NoDup.
  destruct (get a d) as [i'|] eqn:E; [|constructor]. apply (I a). now apply (proj1 (get_In d a i' N)).
Qed.
Lemma tidy_step d r : tidy d -> tidy (step d r).
Proof. intros T. unfold route_step. repeat match goal with |- context [if ?c then _ else _] => destruct c end; auto using tidy_add. Qed.

Definition opt_eq (o : option Q) (l : list Q) : Prop :=
  match o with Some v => l <> [] /\ (v == qsum l)%Q | None => l = [] end.

Lemma fold_look routes : let d := fold_left step routes [] in
  tidy d /\ forall a b, opt_eq (look a b d) (between a b routes).
Proof.
  cbn zeta. induction routes as [|r routes IH] using rev_ind.
  - cbn. split; [split; [constructor|intros a i []]|intros a b; reflexivity].
  - rewrite fold_left_app. cbn [fold_left]. destruct IH as [T IH]. set (d := fold_left step routes []) in *.
    split; [now apply tidy_step|]. intros a b. unfold between in *. rewrite filter_app, map_app. cbn [filter].
    specialize (IH a b). revert IH. generalize (map snd (filter (leads a b) routes)). intros l IH. unfold route_step, leads. rewrite kept_asked, start_renamed, end_renamed.
    destruct (asked callback r) eqn:A; cbn [andb]; [|cbn [map]; rewrite app_nil_r; exact IH].
    set (x := renamed rename (fst (fst r)) true). set (y := renamed rename (snd (fst r)) false).
    destruct (String.eqb_spec x a) as [<-|Nx]; cbn [andb].
    2:{ cbn [map]. rewrite app_nil_r. destruct (ignore_circular && (x =? y)%string)%bool; [exact IH|]. rewrite look_add.
        destruct (String.eqb_spec x a); [contradiction|]. exact IH. }
    destruct (String.eqb_spec y b) as [<-|Ny]; cbn [andb].
    2:{ cbn [map]. rewrite app_nil_r. destruct (ignore_circular && (x =? y)%string)%bool; [exact IH|]. rewrite look_add.
        destruct (String.eqb_spec y b); [contradiction|]. rewrite andb_false_r. exact IH. }
    destruct (ignore_circular && (x =? y)%string)%bool; cbn [negb map]; [rewrite app_nil_r; exact IH|].
    rewrite look_add, !String.eqb_refl. cbn [andb opt_eq]. split; [intros X; now apply app_eq_nil in X as [_ X]|].
    rewrite qsum_app, qsum_cons. cbn [qsum fold_right]. unfold opt_eq in IH. destruct (look x y d) as [v|].
    + destruct IH as [_ ->]. cbn; lra.
    + rewrite IH. cbn; lra.
Qed.

Lemma in_links d : tidy d -> forall a b v,
  In (a, b, v) (flat_map (fun s => flat_map (fun t => if qltb (snd t) threshold then [] else [(fst s, fst t, snd t)]) (snd s)) d)
  <-> look a b d = Some v /\ (threshold <= v)%Q.
Proof.
  intros [N I] a b v. rewrite in_flat_map. split.
  - intros ([x i] & Hx & H). cbn [fst snd] in H. apply in_flat_map in H as ([y w] & Hy & H). cbn [fst snd] in H.
    destruct (qltbP w threshold) as [|Ge]; [destruct H|]. destruct H as [H|[]]. injection H as -> -> ->.
    unfold look. rewrite (proj2 (get_In d a i N) Hx). split; [apply (proj2 (get_In i b v (I a i Hx))); exact Hy|lra].
  - intros [E Ge]. unfold look in E. destruct (get a d) as [i|] eqn:Ei; [|discriminate].
    apply (proj1 (get_In d a i N)) in Ei. exists (a, i). split; [exact Ei|]. cbn [fst snd]. apply in_flat_map. exists (b, v).
    split; [apply (proj1 (get_In i b v (I a i Ei))); exact E|]. cbn [fst snd]. destruct (qltbP v threshold); [exfalso; lra|now left].
Qed.

Lemma inner_links_NoDup (a : string) : forall i, NoDup (map fst i) ->
  NoDup (map (@fst _ Q) (flat_map (fun t : string * Q => if qltb (snd t) threshold then [] else [(a, fst t, snd t)]) i)).
Proof.
  induction i as [|[b v] i IH]; intros N; cbn [flat_map]; [constructor|]. cbn [map fst] in N. apply NoDup_cons_iff in N as [N1 N2].
  cbn [fst snd]. destruct (qltb v threshold); cbn [app map fst]; [now apply IH|]. constructor; [|now apply IH].
  intros X. apply in_map_iff in X as ([[a' b'] v'] & E & X). cbn [fst] in E. injection E as -> ->.
  apply in_flat_map in X as ([y w] & Hy & X). cbn [fst snd] in X. destruct (qltb w threshold); [destruct X|]. destruct X as [X|[]].
  injection X as -> ->. apply N1. apply in_map_iff. eexists. split; [|exact Hy]. reflexivity.
Qed.
Lemma NoDup_app_intro {A} : forall l m : list A, NoDup l -> NoDup m -> (forall x, In x l -> ~ In x m) -> NoDup (l ++ m).
Proof.
  induction l as [|a l IH]; intros m Nl Nm D; cbn [app]; [exact Nm|]. apply NoDup_cons_iff in Nl as [N1 N2]. constructor.
  - rewrite in_app_iff. intros [X|X]; [auto|]. apply (D a (or_introl eq_refl) X).
  - apply IH; auto. intros x Hx. apply D. now right.
Qed.
Lemma links_NoDup : forall d, tidy d ->
  NoDup (map (@fst _ Q) (flat_map (fun s => flat_map (fun t => if qltb (snd t) threshold then [] else [(fst s, fst t, snd t)]) (snd s)) d)).
Proof.
  induction d as [|[a i] d IH]; intros [N I]; cbn [flat_map]; [constructor|]. cbn [map fst] in N. apply NoDup_cons_iff in N as [N1 N2].
  rewrite map_app. apply NoDup_app_intro.
  - apply inner_links_NoDup. apply (I a). now left.
  - apply IH. split; [exact N2|]. intros x j Hx. apply (I x). now right.
  - intros x X Y. apply in_map_iff in X as ([[p q] v] & <- & X). apply in_map_iff in Y as ([[p' q'] v'] & E & Y). cbn [fst] in E. injection E as -> ->.
    cbn [fst snd] in X. apply in_flat_map in X as ([y w] & _ & X). cbn [fst snd] in X. destruct (qltb w threshold); [destruct X|].
    destruct X as [X|[]]. injection X as -> -> ->.
    apply in_flat_map in Y as ([z j] & Hz & Y). cbn [fst snd] in Y. apply in_flat_map in Y as ([y' w'] & _ & Y). cbn [fst snd] in Y.
    destruct (qltb w' threshold); [destruct Y|]. destruct Y as [Y|[]]. injection Y as -> -> ->.
    apply N1. apply in_map_iff. eexists. split; [|exact Hz]. reflexivity.
Qed.

(** Every link of the diagram is the sum of the flows of the routes between its ends, there is one link for each pair of ends that has
    routes and reaches the threshold. *)
Theorem C106_sankey : forall routes,
  let l := sankey callback rename ignore_circular threshold routes in
  NoDup (map fst l)
  /\ (forall a b v, In (a, b, v) l -> between a b routes <> [] /\ (v == qsum (between a b routes))%Q /\ (threshold <= v)%Q)
  /\ (forall a b, between a b routes <> [] -> (threshold <= qsum (between a b routes))%Q -> exists v, In (a, b, v) l).
Proof.
  intros routes l. destruct (fold_look routes) as [T E]. subst l. unfold sankey. split; [now apply links_NoDup|]. split.
  - intros a b v H. apply (proj1 (in_links _ T a b v)) in H as [El Ge]. specialize (E a b). rewrite El in E. destruct E. auto.
  - intros a b Ne Ge. specialize (E a b). unfold opt_eq in E. destruct (look a b _) as [v|] eqn:El; [|contradiction].
    exists v. apply (proj2 (in_links _ T a b v)). split; [exact El|]. destruct E as [_ ->]. exact Ge.
Qed.

(** All in all the diagram shows all the flow of the routes that are not left out, if none is below the threshold. *)
Definition counted (r : string * string * Q) : bool :=
  kept r && negb (ignore_circular && String.eqb (start_of r) (end_of r)).

Lemma put_total : forall (d : dict Q) b f,
  (qsum (map snd (put b (match get b d with Some v => v | None => 0 end + f)%Q d)) == qsum (map snd d) + f)%Q.
Proof.
  induction d as [|[k v] d IH]; intros b f; cbn [put get].
  - cbn. lra.
  - destruct (String.eqb k b).
    + cbn [map snd]. rewrite !qsum_cons. lra.
    + cbn [map snd]. rewrite !qsum_cons, IH. lra.
Qed.
Definition total (d : dict (dict Q)) : Q := qsum (map (fun s => qsum (map snd (snd s))) d).
Lemma put_total2 : forall (d : dict (dict Q)) a i e,
  (qsum (map snd i) == qsum (map snd (match get a d with Some j => j | None => [] end)) + e)%Q ->
  (total (put a i d) == total d + e)%Q.
Proof.
  unfold total. induction d as [|[k j] d IH]; intros a i e H; cbn [put get] in *.
  - cbn [map snd] in *. rewrite qsum_cons, H. cbn. lra.
  - destruct (String.eqb k a).
    + cbn [map snd]. rewrite !qsum_cons, H. lra.
    + cbn [map snd]. rewrite !qsum_cons, (IH a i e H). lra.
Qed.
Lemma fold_total : forall routes, (total (fold_left step routes []) == qsum (map snd (filter counted routes)))%Q.
Proof.
  induction routes as [|r routes IH] using rev_ind; [reflexivity|]. rewrite fold_left_app, filter_app, map_app, qsum_app. cbn [fold_left filter].
  unfold route_step at 1, counted at 2. rewrite kept_asked, start_renamed, end_renamed. destruct (asked callback r); cbn [andb].
  2:{ cbn [map]. rewrite IH. cbn. lra. }
  destruct (ignore_circular && (renamed rename (fst (fst r)) true =? renamed rename (snd (fst r)) false)%string)%bool; cbn [negb map].
  - rewrite IH. cbn. lra.
  - unfold add_flow. rewrite (put_total2 _ _ _ (snd r)); [rewrite IH, qsum_cons; cbn; lra|]. apply put_total.
Qed.
Lemma links_total : forall d, (forall a i b v, In (a, i) d -> In (b, v) i -> (threshold <= v)%Q) ->
  (qsum (map snd (flat_map (fun s => flat_map (fun t => if qltb (snd t) threshold then [] else [(fst s, fst t, snd t)]) (snd s)) d)) == total d)%Q.
Proof.
  unfold total. induction d as [|[a i] d IH]; intros H; cbn [flat_map map snd]; [reflexivity|]. rewrite map_app, qsum_app, qsum_cons, IH.
  - assert (X : forall j, (forall b v, In (b, v) j -> (threshold <= v)%Q) ->
      (qsum (map snd (flat_map (fun t : string * Q => if qltb (snd t) threshold then [] else [(fst (a, i), fst t, snd t)]) j)) == qsum (map snd j))%Q).
    { induction j as [|[b v] j IHj]; intros Hj; cbn [flat_map map snd]; [reflexivity|].
      destruct (qltbP v threshold) as [Lt|_]; [pose proof (Hj b v (or_introl eq_refl)); exfalso; lra|].
      cbn [app map snd]. rewrite !qsum_cons, IHj; [lra|]. intros b' v' X. apply (Hj b'). now right. }
    rewrite X; [lra|]. intros b v Hb. apply (H a i b v); [now left|exact Hb].
  - intros a' i' b v Ha Hb. apply (H a' i' b v); [now right|exact Hb].
Qed.

Theorem C106_sankey_total : forall routes,
  (forall a b, between a b routes <> [] -> (threshold <= qsum (between a b routes))%Q) ->
  (qsum (map snd (sankey callback rename ignore_circular threshold routes)) == qsum (map snd (filter counted routes)))%Q.
Proof.
  intros routes H. unfold sankey. destruct (fold_look routes) as [[N I] E]. rewrite links_total; [apply fold_total|].
  intros a i b v Ha Hb. specialize (E a b). unfold look in E. pose proof (proj2 (get_In _ a i N) Ha) as G.
  unfold dict in *. rewrite G, (proj2 (get_In i b v (I a i Ha)) Hb) in E.
  destruct E as [Ne Ev]. rewrite Ev. now apply H.
Qed.
End Sankey.
Print Assumptions C106_sankey.
Print Assumptions C106_sankey_total.

Example C106_sankey_example :
  map (fun x => (fst x, Qred (snd x))) (sankey None None true (1 # 2) [("a", "x", 1); ("b", "x", 2); ("a", "x", 3); ("x", "x", 9); ("b", "y", 1 # 4)]%Q)
  = [(("a", "x"), 4); (("b", "x"), 2)]%Q.
Proof. reflexivity. Qed.

(** By default the flow of a route is its mean over all timesteps and scenarios. *)
Definition flow_at (flows : list (list (list Q))) (t r c : nat) : Q := nth c (nth r (nth t flows []) []) 0%Q.
Lemma map_nth_seq {A B} (f : A -> B) (d : A) : forall l, map f l = map (fun i => f (nth i l d)) (seq 0 (List.length l)).
Proof.
  induction l as [|a l IH]; [reflexivity|]. cbn [List.length seq map]. f_equal. rewrite IH, <- seq_shift, map_map. reflexivity.
Qed.
(** With slices: the aggregate over the chosen timesteps of each chosen scenario, and the mean of these. *)
Definition picked (n : nat) (s : option (list nat)) : list nat := match s with None => seq 0 n | Some ps => ps end.
Lemma sliced_picked {A} (d : A) s l : sliced d s l = map (fun i => nth i l d) (picked (List.length l) s).
Proof. destruct s; cbn [sliced picked]; [reflexivity|]. now rewrite <- (map_nth_seq (fun x => x) d), map_id. Qed.
Theorem C106_slices : forall k nr ns flows r, r < nr ->
  (forall c, In c (picked ns (scenario_slice k)) -> c < ns) -> picked ns (scenario_slice k) <> [] ->
  exists v, nth_error (route_flows k nr ns flows) r = Some v
    /\ (v * inject_Z (Z.of_nat (List.length (picked ns (scenario_slice k))))
        == qsum (map (fun c => time_agg_func k (map (fun t => flow_at flows t r c) (picked (List.length flows) (time_slice k))))
                   (picked ns (scenario_slice k))))%Q.
Proof.
  intros k nr ns flows r Hr Hc Hn. unfold route_flows. rewrite map_map, nth_error_seq_map by exact Hr. eexists. split; [reflexivity|].
  unfold np_mean. rewrite !(sliced_picked 0%Q), !map_length, seq_length.
  set (C := inject_Z (Z.of_nat (List.length (picked ns (scenario_slice k))))).
  assert (HC : (0 < C)%Q).
  { unfold C. change 0%Q with (inject_Z 0). rewrite <- Zlt_Qlt. destruct (picked ns (scenario_slice k)); [contradiction|]. cbn [List.length]. lia. }
  rewrite (qsum_map_ext _ (fun c => time_agg_func k (map (fun t => flow_at flows t r c) (picked (List.length flows) (time_slice k))))).
  2:{ intros c Ic. specialize (Hc c Ic).
      erewrite nth_error_nth; [|apply nth_error_seq_map; exact Hc]. rewrite (sliced_picked []), map_map. reflexivity. }
  field. lra.
Qed.
Print Assumptions C106_slices.
Theorem C106_mean : forall k nr ns flows r, time_slice k = None -> scenario_slice k = None -> time_agg_func k = np_mean ->
  r < nr -> 0 < ns -> flows <> [] ->
  exists v, nth_error (route_flows k nr ns flows) r = Some v
    /\ (v * (inject_Z (Z.of_nat (List.length flows)) * inject_Z (Z.of_nat ns))
        == qsum (map (fun t => qsum (map (fun c => flow_at flows t r c) (seq 0 ns))) (seq 0 (List.length flows))))%Q.
Proof.
  intros k nr ns flows r Et Es Ea Hr Hs Hf. unfold route_flows. rewrite map_map, nth_error_seq_map by exact Hr. eexists. split; [reflexivity|].
  rewrite Et, Es, Ea. unfold sliced, np_mean. rewrite map_length, seq_length.
  set (T := inject_Z (Z.of_nat (List.length flows))). set (C := inject_Z (Z.of_nat ns)).
  assert (HT : (0 < T)%Q).
  { unfold T. change 0%Q with (inject_Z 0). rewrite <- Zlt_Qlt. destruct flows; [contradiction|]. cbn [List.length]. lia. }
  assert (HC : (0 < C)%Q). { unfold C. change 0%Q with (inject_Z 0). rewrite <- Zlt_Qlt. lia. }
  rewrite (qsum_map_ext _ (fun c => qsum (map (fun t => flow_at flows t r c) (seq 0 (List.length flows))) * / T)%Q).
  2:{ intros c _. rewrite map_length. fold T. unfold Qdiv. rewrite (map_nth_seq (fun row => nth c (nth r row []) 0%Q) [] flows). reflexivity. }
  rewrite qsum_map_scale_r. rewrite (qsum_swap (fun t c => flow_at flows t r c)). field. split; lra.
Qed.
Print Assumptions C106_mean.

(** An aggregator given for the scenarios (here, the greatest flow) makes no difference: the mean is shown. *)
Definition greatest (l : list Q) : Q := fold_right qmax 0%Q l.
Theorem C106_scenarios_refuted :
  (exists k flows v, nth_error (route_flows k 1 2 flows) 0 = Some v
     /\ ~ (v == scenario_agg_func k (map (fun c => time_agg_func k (map (fun t => flow_at flows t 0 c) (seq 0 (List.length flows)))) (seq 0 2)))%Q)
  /\ forall k k' nr ns flows, time_slice k = time_slice k' -> time_agg_func k = time_agg_func k' -> scenario_slice k = scenario_slice k' ->
       route_flows k nr ns flows = route_flows k' nr ns flows.
Proof.
  split.
  - exists {| time_slice := None; time_agg_func := np_mean; scenario_slice := None; scenario_agg_func := greatest |}, [[[2; 6]]; [[4; 8]]]%Q.
    eexists. split; [reflexivity|]. vm_compute. discriminate.
  - intros k k' nr ns flows E1 E2 E3. unfold route_flows. now rewrite E1, E2, E3.
Qed.
Print Assumptions C106_scenarios_refuted.

(** * Comparable series *)

(** Two aligned series have the same dates: those that are in both and within the asked-for period; values and order are those given.  It
    fails exactly when no date is in both. *)
Theorem C106_align : forall a b start end_, NoDup (map fst a) -> NoDup (map fst b) ->
  (align_series a b start end_ = None <-> forall d, ~ (In d (map fst a) /\ In d (map fst b)))
  /\ forall a' b', align_series a b start end_ = Some (a', b') ->
       map fst a' = map fst b'
       /\ map fst a' = filter (fun d => if in_dec Z.eq_dec d (map fst b) then
                                          match start with Some s => Z.leb s d | None => true end && match end_ with Some e => Z.leb d e | None => true end
                                        else false) (map fst a)
       /\ (forall x, In x a' -> In x a) /\ (forall x, In x b' -> In x b).
Proof.
  intros a b start end_ Na Nb.
  assert (OD : forall d, (forall v, on_date d b = Some v -> In (d, v) b) /\ (on_date d b = None <-> ~ In d (map fst b))).
  { intros d. unfold on_date. destruct (find (fun x => Z.eqb (fst x) d) b) as [[d' v]|] eqn:F; cbn [option_map snd].
    - apply find_some in F as [F E]. cbn [fst] in E. apply Z.eqb_eq in E as ->. split; [intros w [= <-]; exact F|].
      split; [discriminate|]. intros X. exfalso. apply X. apply in_map_iff. now exists (d, v).
    - split; [discriminate|]. split; [|reflexivity]. intros _ X. apply in_map_iff in X as ([d' v] & E & X). cbn [fst] in E. subst d'.
      pose proof (find_none _ _ F _ X) as Y. cbn [fst] in Y. rewrite Z.eqb_refl in Y. discriminate. }
  assert (J : forall d p, In (d, p) (inner_join a b) -> In (d, fst p) a /\ In (d, snd p) b).
  { intros d p H. unfold inner_join in H. apply in_flat_map in H as ([e v] & He & H). cbn [fst snd] in H.
    destruct (on_date e b) as [w|] eqn:O; [|destruct H]. destruct H as [H|[]]. injection H as <- <-. cbn [fst snd]. split; [exact He|].
    now apply (proj1 (OD e)). }
  assert (JF : map fst (inner_join a b) = filter (fun d => if in_dec Z.eq_dec d (map fst b) then true else false) (map fst a)).
  { clear Na J. unfold inner_join. induction a as [|[d v] a IH]; [reflexivity|]. cbn [flat_map map fst filter]. rewrite map_app, IH.
    destruct (in_dec Z.eq_dec d (map fst b)) as [I|I].
    - destruct (on_date d b) eqn:O; [reflexivity|]. exfalso. now apply (proj1 (proj2 (OD d)) O).
    - now rewrite (proj2 (proj2 (OD d)) I). }
  unfold align_series. split.
  - destruct (inner_join a b) as [|[d p] j] eqn:E.
    + split; [|reflexivity]. intros _ d [Ia Ib]. assert (X : In d (@nil Z)).
      { cbn [map] in JF. rewrite JF. apply filter_In. split; [exact Ia|]. now destruct (in_dec Z.eq_dec d (map fst b)). } destruct X.
    + split; [discriminate|]. intros H. exfalso. destruct (J d p (or_introl eq_refl)) as [Ia Ib]. apply (H d).
      split; apply in_map_iff; eexists; (split; [|eassumption]); reflexivity.
  - intros a' b' E. set (rng := fun x : Z * (Q * Q) =>
        match start with Some s => Z.leb s (fst x) | None => true end && match end_ with Some e => Z.leb (fst x) e | None => true end) in *.
    assert (X : a' = map (fun x => (fst x, fst (snd x))) (filter rng (inner_join a b)) /\
                b' = map (fun x => (fst x, snd (snd x))) (filter rng (inner_join a b))).
    { destruct (inner_join a b) as [|x j]; [discriminate|]. injection E as E1 E2. split; symmetry; assumption. }
    destruct X as [-> ->]. rewrite !map_map. cbn [fst]. split; [reflexivity|]. split; [|split].
    + transitivity (filter (fun d => match start with Some s => Z.leb s d | None => true end && match end_ with Some e => Z.leb d e | None => true end)
                      (map fst (inner_join a b))).
      * clear. induction (inner_join a b) as [|x l IH]; [reflexivity|]. cbn [filter map]. unfold rng at 1.
        destruct (match start with Some s => (s <=? fst x)%Z | None => true end && match end_ with Some e => (fst x <=? e)%Z | None => true end);
          cbn [map]; now rewrite IH.
      * rewrite JF. clear. induction (map fst a) as [|d l IH]; [reflexivity|]. cbn [filter].
        destruct (in_dec Z.eq_dec d (map fst b)); cbn [filter]; rewrite IH; reflexivity.
    + intros x H. apply in_map_iff in H as ([d p] & <- & H). apply filter_In in H as [H _]. cbn [fst snd]. now apply J.
    + intros x H. apply in_map_iff in H as ([d p] & <- & H). apply filter_In in H as [H _]. cbn [fst snd]. now apply J.
Qed.
Print Assumptions C106_align.
Example C106_align_example :
  align_series [(1, 10%Q); (2, 20%Q); (4, 40%Q); (5, 50%Q)]%Z [(2, 1%Q); (3, 2%Q); (4, 3%Q); (5, 4%Q)]%Z None (Some 4%Z)
  = Some ([(2, 20%Q); (4, 40%Q)], [(2, 1%Q); (4, 3%Q)])%Z.
Proof. reflexivity. Qed.
