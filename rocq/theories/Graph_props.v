(** Component graph: C08, C09, C10 and the parameter part of C70. *)
From Verif Require Import Base Paths Graph_model Graph_spec Graph_proofs.

(** C08.  After any history of user operations, set-ups and runs: when a run sets the model up, the order
    in which components are called lists each existing component exactly once and every component comes
    after everything it transitively depends on. *)
Theorem C08_order : forall es l,
  ms_dirty (mhistory es) = true -> snd (mrun (mhistory es)) = Some l -> good_order (ops_of es) l.
Proof. intros es l Hd Hr. pose proof (dirty_run es Hd) as H. rewrite Hr in H. exact (proj2 H). Qed.
Print Assumptions C08_order.

(** Later runs use the same order as long as no component is created or re-wired. *)
Theorem C08_later_runs : forall es es' l,
  snd (msetup (mhistory es)) = Some l -> forallb quiet es' = true ->
  snd (mrun (fold_left mevent es' (fst (msetup (mhistory es))))) = Some l /\ good_order (ops_of es) l.
Proof.
  intros es es' l Hs Hq. split; [exact (quiet_runs es es' l Hs Hq)|].
  pose proof (setup_any es) as H. rewrite Hs in H. exact (proj2 H).
Qed.
Print Assumptions C08_later_runs.

(** A run of a model that was never set up or run, or that was marked dirty since (by a new connection, scenario or timestepper), uses a
    good order of what there is then, or is refused because of a cycle. *)
Definition untouched (es : list event) : Prop := forall e, In e es -> e <> ESetup /\ e <> ERun.
Lemma untouched_dirty es : forall s, ms_dirty s = true -> untouched es -> ms_dirty (fold_left mevent es s) = true.
Proof.
  induction es as [|e es IH]; intros s H U; [exact H|]. cbn [fold_left]. apply IH; [|intros e' I; apply U; now right].
  destruct (U e (or_introl eq_refl)) as [N1 N2]. destruct e; [exact H|reflexivity|congruence|congruence].
Qed.
Theorem C08_changed : forall es,
  (untouched es \/ exists es1 es2, es = es1 ++ EDirty :: es2 /\ untouched es2) ->
  match snd (mrun (mhistory es)) with
  | Some l => ~ cyclic (depends (ops_of es)) /\ good_order (ops_of es) l
  | None => cyclic (depends (ops_of es))
  end.
Proof.
  intros es H. apply dirty_run. unfold mhistory. destruct H as [U|(es1 & es2 & -> & U)].
  - now apply untouched_dirty.
  - rewrite fold_left_app. cbn [fold_left]. now apply untouched_dirty.
Qed.
Print Assumptions C08_changed.
Example C08_changed_example : snd (mrun (mhistory [EOp New; ERun; EOp New; EDirty; EOp (ParentsAdd 2 (IComp 1))])) = Some [2; 1]%nat.
Proof. reflexivity. Qed.

(** Creating a component (or re-wiring) after a set-up does not mark the model dirty: the next run
    leaves the new component out. *)
Theorem C08_late_component_refuted : exists es l,
  snd (mrun (mhistory es)) = Some l /\ ~ good_order (ops_of es) l.
Proof.
  exists [EOp New; ESetup; EOp New], [1%nat]. split; [reflexivity|].
  intros [_ [H _]]. destruct (proj2 (H 2%nat)) as [|[]]; [cbv; lia|discriminate].
Qed.
Print Assumptions C08_late_component_refuted.

(** Non-trivial instance: 1, 2, 3 created in this order; 1 depends on 2, 2 depends on 3. *)
Definition ex_ops : list gop :=
  [New; New; New; New; ChildrenAdd 1 (IComp 2); ParentsAdd 3 (IComp 2); ChildrenAdd 4 IOther].
Example C08_example :
  snd (mrun (mhistory (map EOp ex_ops))) = Some [4; 3; 2; 1]%nat.
Proof. reflexivity. Qed.

(** C09.  A model that is set up is refused exactly when its declared dependencies have a cycle. *)
Theorem C09_refused_iff_cyclic : forall es,
  snd (msetup (mhistory es)) = None <-> cyclic (depends (ops_of es)).
Proof.
  intros es. pose proof (setup_any es) as H. destruct (snd (msetup (mhistory es))) as [l|].
  - split; [discriminate|]. tauto.
  - tauto.
Qed.
Print Assumptions C09_refused_iff_cyclic.

Theorem C09_dirty_run_refused_iff_cyclic : forall es,
  ms_dirty (mhistory es) = true -> (snd (mrun (mhistory es)) = None <-> cyclic (depends (ops_of es))).
Proof.
  intros es Hd. pose proof (dirty_run es Hd) as H. destruct (snd (mrun (mhistory es))) as [l|].
  - split; [discriminate|]. tauto.
  - tauto.
Qed.
Print Assumptions C09_dirty_run_refused_iff_cyclic.

(** A cycle declared after a set-up is not noticed by the next run. *)
Theorem C09_late_cycle_refuted : exists es,
  cyclic (depends (ops_of es)) /\ snd (mrun (mhistory es)) <> None.
Proof.
  exists [EOp New; ESetup; EOp (ChildrenAdd 1 (IComp 1))]. split.
  - exists 1%nat. apply plus_one. cbv. right. lia.
  - vm_compute. discriminate.
Qed.
Print Assumptions C09_late_cycle_refuted.

(** A set-up refused because of a cycle on a model that was clean leaves an empty component list behind,
    and the next run silently updates no component at all. *)
Theorem C09_run_after_refusal_refuted : exists es,
  cyclic (depends (ops_of es)) /\ (0 < created (ops_of es))%nat /\ snd (mrun (mhistory es)) = Some [].
Proof.
  exists [EOp New; ESetup; EOp (ChildrenAdd 1 (IComp 1)); ESetup]. split; [|split].
  - exists 1%nat. apply plus_one. cbv. right. lia.
  - cbv. lia.
  - reflexivity.
Qed.
Print Assumptions C09_run_after_refusal_refuted.

Example C09_example_refused :
  snd (msetup (mhistory (map EOp (ex_ops ++ [ParentsAdd 1 (IComp 3)])))) = None.
Proof. reflexivity. Qed.

(** C10.  For every constructor except the two multiple-threshold ones the components it reads are
    declared dependencies after the call. *)
Theorem C10_constructor_declares_partial : forall c k ops,
  forgets_thresholds k = false -> live (created ops) c ->
  forall y, In y (ctor_reads k) -> live (created ops) y -> depends (ops ++ ctor_calls c k) c y.
Proof. exact ctor_declares. Qed.
Print Assumptions C10_constructor_declares_partial.

(** In a model built from such constructors every parameter is computed, in each timestep, from the values
    its arguments have in that same timestep, whatever the functions and the old values are. *)
Theorem C10_same_timestep_partial : forall ks order F v c,
  (forall k, In (Some k) ks -> forgets_thresholds k = false) ->
  (forall d z, In z (reads_of ks d) -> (1 <= z < d)%nat) ->
  snd (mrun (mhistory (map EOp (build_ops ks)))) = Some order ->
  (1 <= c <= length ks)%nat ->
  calc_all (reads_of ks) F order v c =
  F c (map (calc_all (reads_of ks) F order v) (reads_of ks c)).
Proof.
  intros ks order F v c Hk Harg Hr Hc.
  assert (Hops : ops_of (map EOp (build_ops ks)) = build_ops ks).
  { generalize (build_ops ks). induction l as [|o l IH]; [reflexivity|].
    change (o :: ops_of (map EOp l) = o :: l). now rewrite IH. }
  assert (Hdirty : forall l s, ms_dirty s = true -> ms_dirty (fold_left mevent (map EOp l) s) = true).
  { induction l as [|o l IH]; intros s H; [exact H|]. cbn. now apply IH. }
  assert (H : good_order (build_ops ks) order).
  { rewrite <- Hops. apply C08_order; [now apply Hdirty|exact Hr]. }
  destruct H as [Hn [Hin Hb]]. apply calc_all_fresh; [exact Hn| |].
  - apply Hin. rewrite build_created. exact Hc.
  - intros y Hy. apply Hb. apply plus_one. now apply build_depends.
Qed.
Print Assumptions C10_same_timestep_partial.

(** The multiple-threshold parameters pass the list to `children.add`, which ignores it: a threshold created
    before the parameter is evaluated after it, so the old value is read.  Here the threshold's new value is
    10, its previous value 0; the index parameter copies what it reads. *)
Theorem C10_multiple_threshold_refuted : exists ks order F v c,
  (forall d z, In z (reads_of ks d) -> (1 <= z < d)%nat) /\
  snd (mrun (mhistory (map EOp (build_ops ks)))) = Some order /\
  (1 <= c <= length ks)%nat /\
  ~ (calc_all (reads_of ks) F order v c ==
     F c (map (calc_all (reads_of ks) F order v) (reads_of ks c)))%Q.
Proof.
  exists [None; Some (CMultipleThresholdIndex [1%nat])], [2; 1]%nat,
    (fun c l => if Nat.eqb c 1 then 10%Q else match l with x :: _ => x | [] => 0%Q end), (fun _ => 0%Q), 2%nat.
  split; [|split; [reflexivity|split; [cbn; lia|vm_compute; congruence]]].
  intros d z H. destruct d as [|[|[|d]]]; cbn in H; try contradiction.
  - destruct H as [<-|[]]. lia.
  - destruct d; contradiction.
Qed.
Print Assumptions C10_multiple_threshold_refuted.

(** Assigning a new numerator to a DivisionParameter whose numerator and denominator are the same parameter
    drops the dependency on the denominator. *)
Theorem C10_division_reassign_refuted : exists ks c a b,
  nth_error ks (c - 1) = Some (Some (CDivision a a)) /\
  ~ depends (build_ops ks ++ division_set_numerator c a b) c a.
Proof.
  exists [None; None; Some (CDivision 1 1)], 3%nat, 1%nat, 2%nat. split; [reflexivity|].
  cbv. intros [[_ H]|H]; [apply H; auto|lia].
Qed.
Print Assumptions C10_division_reassign_refuted.

Example C10_example :
  let ks := [None; None; Some (CAggregated [1; 2]); Some (CControlCurve [3] [1; 2]); Some (CIndexedArray 4 [3])]%nat in
  snd (mrun (mhistory (map EOp (build_ops ks)))) = Some [2; 1; 3; 4; 5]%nat.
Proof. reflexivity. Qed.

(** C70, parameters: the orphans reported are exactly the parameters on which no component depends and
    which no node refers to. *)
Theorem C70_orphans_exact : forall ops isparam node_comps c,
  In c (orphans (grun ops) isparam node_comps) <->
  live (created ops) c /\ isparam c = true /\ (forall x, ~ depends ops x c) /\ ~ In c node_comps.
Proof. exact orphans_spec. Qed.
Print Assumptions C70_orphans_exact.

Example C70_orphans_example :
  orphans (grun ex_ops) (fun c => negb (Nat.eqb c 4)) [] = [1%nat] /\
  orphans (grun (ex_ops ++ [New])) (fun _ => true) [1%nat] = [4; 5]%nat.
Proof. split; reflexivity. Qed.
