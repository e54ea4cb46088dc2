(** C60: loading resolves each named parameter once and refuses cycles. *)
From Verif Require Import Base Sorting Loading_model Loading_spec Loading_proofs Loading_complete.
Local Open Scope string_scope.
Local Open Scope nat_scope.
Local Open Scope list_scope.

(** Whatever the definitions refer to, themselves included, loading comes to an end: with a model or with an error. *)
Theorem C60_terminates : forall doc, load_document doc = Failed \/ exists vss s, load_document doc = Ok vss s.
Proof. intro doc. pose proof (collect_not_stuck doc). destruct (load_document doc) as [vss s| |]; eauto. congruence. Qed.
Print Assumptions C60_terminates.

(** The components of a loaded model are made from the typed dictionaries of the document, from each of them exactly one. *)
Theorem C60_once : forall doc vss s, typed doc -> keyed doc -> apart doc -> load_document doc = Ok vss s ->
  Permutation (map o_data (objects s)) (flat_map dictionaries (all_data doc)).
Proof. intros. eapply load_document_once; eauto. Qed.
Print Assumptions C60_once.

(** For every definition there is exactly one component of that name, it has the right kind and was made from the definition. *)
Theorem C60_definition : forall doc vss s, typed doc -> keyed doc -> apart doc -> load_document doc = Ok vss s ->
  forall k n d, In ((k, n), d) (definitions doc) ->
  exists i o, nth_error (objects s) i = Some o /\ o_kind o = k /\ o_name o = Some n /\ o_data o = d /\
    forall j p, nth_error (objects s) j = Some p -> o_name p = Some n -> j = i.
Proof.
  intros doc vss s Ht Hk Ha E k n d Hin. pose proof (load_document_once _ _ _ Ht Hk Ha E) as Hp.
  destruct (load_document_good _ _ _ Ht Hk E) as ((Hw & _ & _ & Hn) & _ & _).
  pose proof (proj1 (Forall_forall _ _) (definitions_wf _ Ht) _ Hin) as (t & g & c & Ed). cbn [fst snd] in Ed. subst d.
  assert (Hs : In (Inline k t (Some n) g c) (map o_data (objects s))).
  { eapply Permutation_in; [symmetry; exact Hp|]. apply in_flat_map. exists (Inline k t (Some n) g c). split; [|left; reflexivity].
    unfold all_data. apply in_or_app. left. change (Inline k t (Some n) g c) with (snd ((k, n), Inline k t (Some n) g c)). apply in_map. exact Hin. }
  apply in_map_iff in Hs. destruct Hs as (o & Eo & Ho). apply In_nth_error in Ho. destruct Ho as (i & Ei). destruct (Hw i o Ei) as [Hid Hf]. rewrite Eo in Hf.
  destruct Hf as (Hkd & Hnm & _). assert (Hnm' : o_name o = Some n) by (rewrite Hnm; destruct k; reflexivity).
  exists i, o. repeat split; auto. intros j p Ej Hj. eapply NoDup_names_index; eauto.
Qed.
Print Assumptions C60_definition.

(** Every reference, by a component or by a node, gives a component of that kind and name that was there before the one referring
    to it; and as no two components have the same name, all references to a name give the same one. *)
Theorem C60_references : forall doc vss s, typed doc -> keyed doc -> load_document doc = Ok vss s ->
  (forall i o, nth_error (objects s) i = Some o -> faithful (objects s) i o) /\
  Forall2 (Forall2 (denotes (objects s))) (d_nodes doc) vss /\
  (forall i j o p n, nth_error (objects s) i = Some o -> nth_error (objects s) j = Some p -> o_name o = Some n -> o_name p = Some n -> i = j).
Proof.
  intros doc vss s Ht Hk E. destruct (load_document_good _ _ _ Ht Hk E) as ((Hw & _ & _ & Hn) & HF & _).
  split; [exact Hw|]. split; [exact HF|]. intros; eapply NoDup_names_index; eauto.
Qed.
Print Assumptions C60_references.

(** A document with a circle of references is refused. *)
Theorem C60_cycles : forall doc, typed doc -> keyed doc -> apart doc -> ~ acyclic doc -> load_document doc = Failed.
Proof.
  intros doc Ht Hk Ha Hc. destruct (C60_terminates doc) as [E|(vss & s & E)]; [exact E|]. exfalso. apply Hc.
  destruct (load_document_good _ _ _ Ht Hk E) as ((Hw & _ & _ & Hn) & _ & _).
  exists (fun x => position (fst x) (snd x) (objects s)). intros [[k n] d] r Hin Hr. cbn [fst snd] in *.
  destruct (C60_definition doc vss s Ht Hk Ha E k n d Hin) as (i & o & Ei & Hkd & Hnm & Hd & _).
  rewrite (position_exact k n _ i o Hw Hn Ei Hkd Hnm). eapply references_below; eauto.
Qed.
Print Assumptions C60_cycles.

(** A document that refers to a name which no definition and no nested dictionary has is refused. *)
Lemma reference_denoted : forall l d r, wf_objects l -> forall v, denotes l d v -> In r (references d) ->
  exists o, In o l /\ o_kind o = fst r /\ o_name o = Some (snd r).
Proof.
  intros l d r Hw. induction d as [|k n|k|k t n g c IHc] using data_ind'; intros v Hd Hr; try contradiction.
  - destruct v as [|i]; [contradiction|]. destruct Hd as (o & Eo & Hk & Hn). destruct Hr as [<-|[]]. exists o. split; [eapply nth_error_In; exact Eo|]. auto.
  - destruct v as [|i]; [contradiction|]. destruct Hd as (o & Eo & Ed). destruct (Hw i o Eo) as [_ Hf]. rewrite Ed in Hf. destruct Hf as (_ & _ & HF).
    cbn [references] in Hr. apply in_flat_map in Hr. destruct Hr as (d & Hdc & Hr).
    assert (Hv : exists w, denotes (firstn i l) d w). { clear -HF Hdc. induction HF as [|x y c vs Hxy HF IH]; [contradiction|]. destruct Hdc as [->|Hdc]; eauto. }
    destruct Hv as [w Hv]. eapply (proj1 (Forall_forall _ _) IHc d Hdc w); [|exact Hr].
    rewrite <- (firstn_skipn i l). apply denotes_grow. exact Hv.
Qed.

Theorem C60_undefined : forall doc d r, typed doc -> keyed doc -> apart doc ->
  In d (all_data doc) -> In r (references d) ->
  (forall x k t n g c, In x (flat_map dictionaries (all_data doc)) -> x = Inline k t n g c -> k = fst r -> ~ In (snd r) (name_of x)) ->
  load_document doc = Failed.
Proof.
  intros doc d r Ht Hk Ha Hd Hr Hno. destruct (C60_terminates doc) as [E|(vss & s & E)]; [exact E|]. exfalso.
  destruct (load_document_good _ _ _ Ht Hk E) as ((Hw & _ & _ & Hn) & HF & _). pose proof (load_document_once _ _ _ Ht Hk Ha E) as Hp.
  assert (Hv : exists v, denotes (objects s) d v).
  { unfold all_data in Hd. apply in_app_or in Hd. destruct Hd as [Hd|Hd].
    - apply in_map_iff in Hd. destruct Hd as ([[k n] d'] & <- & Hin). cbn [snd] in *.
      pose proof (proj1 (Forall_forall _ _) (definitions_wf _ Ht) _ Hin) as (t & g & c & Ed). cbn [fst snd] in Ed.
      destruct (C60_definition doc vss s Ht Hk Ha E k n d' Hin) as (i & o & Ei & _ & _ & Hod & _). exists (Obj i). subst d'. cbn [denotes]. eauto.
    - clear -HF Hd. induction HF as [|l vs ls vss H HF IH]; [contradiction|]. cbn [List.concat] in Hd. apply in_app_or in Hd. destruct Hd as [Hd|Hd]; [|auto].
      clear -H Hd. induction H as [|x y l vs Hxy H IH]; [contradiction|]. destruct Hd as [->|Hd]; eauto. }
  destruct Hv as [v Hv]. destruct (reference_denoted _ _ _ Hw v Hv Hr) as (o & Ho & Hkd & Hnm).
  assert (Hin : In (o_data o) (flat_map dictionaries (all_data doc))). { eapply Permutation_in; [exact Hp|]. apply in_map. exact Ho. }
  apply In_nth_error in Ho. destruct Ho as (i & Ei). destruct (Hw i o Ei) as [_ Hf]. destruct (o_data o) as [| | |k t n g c] eqn:Eo; try contradiction.
  destruct Hf as (Hk' & Hn' & _). rewrite Hnm in Hn'. symmetry in Hn'. apply nth_error_In in Hn'.
  eapply Hno; [exact Hin|reflexivity|congruence|exact Hn'].
Qed.
Print Assumptions C60_undefined.

(** In the other direction: a document whose references are all defined, have no circle, and whose components get distinct names,
    is loaded whatever the order of its definitions. *)
Theorem C60_loads : forall doc, typed doc -> keyed doc -> acyclic doc -> defined doc -> distinct doc -> forallb sound (all_data doc) = true ->
  exists vss s, load_document doc = Ok vss s.
Proof. exact load_document_succeeds. Qed.
Print Assumptions C60_loads.

(** ** Examples *)
Definition aggregated (c : list data) : data := Inline P "aggregatedparameter" None true c.
Definition constant : data := Inline P "constantparameter" None true [].

(** "a" refers to "b" and "c", "b" to "c"; the recorder "r" to "a" and to the recorder "q"; two nodes refer to "c". *)
Example diamond : document :=
  Document [("a", aggregated [Ref P "b"; Ref P "c"; aggregated [Ref P "b"; Literal]]); ("b", aggregated [Ref P "c"]); ("c", constant)]
           [("q", Inline R "noderecorder" None true []); ("r", Inline R "aggregatedrecorder" None true [Ref P "a"; Ref R "q"])]
           [[Ref P "c"; Literal]; [aggregated [Ref P "a"]; Ref P "c"]].
Example diamond_loaded :
  match load_document diamond with
  | Ok vss s => map (fun o => (o_id o, o_name o, o_children o)) (objects s) =
                 [(0, Some "c", []); (1, Some "b", [Obj 0]); (2, None, [Obj 1; Number]); (3, Some "a", [Obj 1; Obj 0; Obj 2]);
                  (4, Some "q", []); (5, Some "r", [Obj 3; Obj 4]); (6, None, [Obj 3])] /\
                vss = [[Obj 0; Number]; [Obj 6; Obj 0]]
  | _ => False
  end.
Proof. vm_compute. auto. Qed.
Example cycle_refused :
  load_document (Document [("a", aggregated [Ref P "b"]); ("b", aggregated [Literal; Ref P "a"])] [] []) = Failed.
Proof. vm_compute. reflexivity. Qed.
Example self_refused : load_document (Document [("a", aggregated [Ref P "a"])] [] []) = Failed.
Proof. vm_compute. reflexivity. Qed.
Example undefined_refused : load_document (Document [("a", constant)] [] [[Ref P "b"]]) = Failed.
Proof. vm_compute. reflexivity. Qed.
(** The hypotheses of [C60_loads] hold for the example. *)
Example diamond_fits : typed diamond /\ keyed diamond /\ acyclic diamond /\ defined diamond /\ distinct diamond /\ forallb sound (all_data diamond) = true.
Proof.
  split; [unfold typed; cbn; repeat (constructor; [do 5 eexists; reflexivity|]); constructor|]. split; [split; repeat constructor; cbn; intuition congruence|]. split; [|split; [|split; [|reflexivity]]].
  - exists (fun x => match fst x, snd x with P, "c" => 0 | P, "b" => 1 | P, "a" => 2 | R, "q" => 0 | _, _ => 3 end).
    intros e r He Hr. cbn in He.
    repeat (destruct He as [<-|He]; [cbn in Hr; repeat (destruct Hr as [<-|Hr]; [cbn; lia|]); contradiction|]). contradiction.
  - intros d r Hd Hr. cbn in Hd.
    repeat (destruct Hd as [<-|Hd]; [cbn in Hr; repeat (destruct Hr as [<-|Hr]; [cbn; tauto|]); contradiction|]). contradiction.
  - unfold distinct. cbn. repeat constructor; cbn; intuition congruence.
Qed.

(** ** What is not so *)

(** A named definition without a type, say a table reference, is loaded anew for every reference, but only the first finds it: one
    reference to it is accepted, although the same definition without any reference is refused, and a second reference is refused. *)
Theorem C60_untyped_refuted : exists definition vss s,
  load_document (Document [("x", definition); ("a", aggregated [Ref P "x"])] [] []) = Ok vss s /\
  load_document (Document [("x", definition); ("a", aggregated [Ref P "x"; Ref P "x"])] [] []) = Failed /\
  load_document (Document [("x", definition)] [] []) = Failed.
Proof. eexists (Untyped P), _, _. repeat split. Qed.
Print Assumptions C60_untyped_refuted.

(** A recorder defined in the section "recorders" is dropped without a word when a recorder nested in another definition has its
    name: the nested one is constructed, the definition is not. *)
Theorem C60_dropped_refuted : exists doc vss s d, typed doc /\ keyed doc /\ load_document doc = Ok vss s /\
  In (definition R ("x", d)) (definitions doc) /\ ~ In (snd (definition R ("x", d))) (map o_data (objects s)).
Proof.
  exists (Document [] [("x", Inline R "second" None true []); ("e", Inline R "eventrecorder" None true [Inline R "first" (Some "x") true []])] []).
  eexists _, _, (Inline R "second" None true []).
  split; [unfold typed; cbn; repeat (constructor; [do 5 eexists; reflexivity|]); constructor|]. split; [split; repeat constructor; cbn; intuition congruence|].
  split; [vm_compute; reflexivity|]. split; [left; reflexivity|]. cbn. intuition congruence.
Qed.
Print Assumptions C60_dropped_refuted.

(** A reference to a name given inside another definition is accepted or refused according to the order of the definitions. *)
Theorem C60_order_refuted : exists a b vss s,
  load_document (Document [("a", a); ("b", b)] [] []) = Ok vss s /\ load_document (Document [("b", b); ("a", a)] [] []) = Failed.
Proof. exists (aggregated [Ref P "inner"]), (aggregated [Inline P "constantparameter" (Some "inner") true []]). eexists _, _. split; vm_compute; reflexivity. Qed.
Print Assumptions C60_order_refuted.
