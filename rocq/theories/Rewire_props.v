(** Assigned parameters are declared dependencies: C112. *)
From Verif Require Import Base Paths Graph_model Graph_spec Graph_proofs Graph_props Rewire_model Rewire_spec Rewire_proofs.
Local Open Scope nat_scope.
Local Open Scope list_scope.

(** C112.  However components have been created and their attributes assigned, added to or removed from, as long as no component is held twice by
    the same one and attributes without a setter are left alone: whatever a component holds is one of its declared dependencies. *)
Theorem C112_declared : forall P s, reached P s -> forall c d, holds s c d -> depends (r_ops s) c d.
Proof. intros P s Hr c d H. apply (i_declared s (reached_inv P s Hr)). now apply holds_held. Qed.
Print Assumptions C112_declared.

(** And nothing else is, unless an aggregated parameter has been without members. *)
Theorem C112_exact : forall s, reached no_empty s -> forall c d, depends (r_ops s) c d <-> holds s c d.
Proof.
  intros s Hr c d. split; [|now apply (C112_declared no_empty)]. intros H. apply holds_held. now apply reached_exact.
Qed.
Print Assumptions C112_exact.

(** An assignment to an attribute that has a setter raises nothing, and the attribute then holds what was assigned; no other attribute changes. *)
Theorem C112_assign : forall P s c i v st old,
  reached P s -> possible s (Assign c i v) -> nth_error (here s c) i = Some (Slot st old) -> st = Strict \/ st = Truthy \/ st = Curves ->
  exists s', rstep s (Assign c i v) = (s', false) /\ now_holds s s' c i (Slot st v).
Proof.
  intros P s c i v st old Hr [Hp _] Hi Hst.
  destruct (assign_spec s c i v st old (reached_inv P s Hr) Hp Hi Hst) as [s' [E [H _]]]. now exists s'.
Qed.
Print Assumptions C112_assign.

(** An assignment to an attribute without one raises nothing either; the attribute then holds what was assigned, and no dependency is declared or taken back. *)
Theorem C112_assign_plain : forall s c i v st old,
  nth_error (here s c) i = Some (Slot st old) -> st = Members \/ st = Recorded \/ st = Plain -> live (List.length (r_slots s)) c ->
  exists s', rstep s (Assign c i v) = (s', false) /\ now_holds s s' c i (Slot st v) /\ r_ops s' = r_ops s.
Proof.
  intros s c i v st old Hi Hst Hc. eexists. split; [|split].
  - destruct Hst as [->|[->| ->]]; cbn [rstep]; rewrite Hi; reflexivity.
  - now apply (set_slot_changed s _ c i _ _ Hc Hi).
  - reflexivity.
Qed.
Print Assumptions C112_assign_plain.

(** add and _add_parameter append one component. *)
Theorem C112_append : forall P s c i d st old,
  reached P s -> possible s (Append c i d) -> nth_error (here s c) i = Some (Slot st old) -> st = Members \/ st = Recorded ->
  exists s', rstep s (Append c i d) = (s', false) /\ now_holds s s' c i (Slot st (old ++ [IComp d])).
Proof.
  intros P s c i d st old Hr Hp Hi Hst.
  destruct (append_spec s c i d st old (reached_inv P s Hr) Hp Hi Hst) as [s' [E [H _]]]. now exists s'.
Qed.
Print Assumptions C112_append.

(** remove and _remove_parameter take one component out, and the order of the others stays; they raise exactly if it is not there, and then change nothing. *)
Theorem C112_drop : forall P s c i d st old,
  reached P s -> possible s (Drop c i d) -> nth_error (here s c) i = Some (Slot st old) -> st = Members \/ st = Recorded ->
  (In (IComp d) old -> exists s' l1 l2, rstep s (Drop c i d) = (s', false) /\ old = l1 ++ IComp d :: l2 /\ now_holds s s' c i (Slot st (l1 ++ l2))) /\
  (~ In (IComp d) old -> rstep s (Drop c i d) = (s, true)).
Proof.
  intros P s c i d st old Hr Hp Hi Hst. split.
  - intros Hin. destruct (drop_spec s c i d st old (reached_inv P s Hr) Hp Hi Hst Hin) as [s' [k [E [[l1 [l2 [H1 H2]]] [H3 _]]]]].
    exists s', l1, l2. rewrite <- H2. auto.
  - intros Hn. cbn [rstep]. rewrite Hi. destruct Hst; subst.
    + destruct (remove_first (IComp d) old) as [k|] eqn:E; [|reflexivity]. apply remove_first_split in E as [l1 [l2 [-> _]]].
      exfalso. apply Hn. rewrite in_app_iff. cbn. auto.
    + destruct (remove_last (IComp d) old) as [k|] eqn:E; [|reflexivity]. apply remove_last_split in E as [l1 [l2 [-> _]]].
      exfalso. apply Hn. rewrite in_app_iff. cbn. auto.
Qed.
Print Assumptions C112_drop.

(** The next run that sets the model up computes every component from the values which what it holds has in that same timestep, whatever they compute
    and whatever the old values were; and it is refused only if something held leads back to its holder. *)
Theorem C112_same_timestep : forall P s es,
  reached P s -> ops_of es = r_ops s -> ms_dirty (mhistory es) = true ->
  forall order, snd (mrun (mhistory es)) = Some order ->
  forall F v c, live (List.length (r_slots s)) c ->
  calc_all (held s) F order v c = F c (map (calc_all (held s) F order v) (held s c)).
Proof.
  intros P s es Hr He Hd order Ho F v c Hc. pose proof (reached_inv P s Hr) as I.
  destruct (C08_order es order Hd Ho) as [Hn [Hin Hb]]. rewrite He in *. apply calc_all_fresh; [exact Hn| |].
  - apply Hin. rewrite (i_count s I). exact Hc.
  - intros y Hy. apply Hb. apply plus_one. now apply (i_declared s I).
Qed.
Print Assumptions C112_same_timestep.

Theorem C112_refused : forall s es,
  reached no_empty s -> ops_of es = r_ops s -> ms_dirty (mhistory es) = true ->
  (snd (mrun (mhistory es)) = None <-> cyclic (holds s)).
Proof.
  intros s es Hr He Hd. rewrite (C09_dirty_run_refused_iff_cyclic es Hd), He. pose proof (C112_exact s Hr) as H.
  assert (X : forall (R R' : nat -> nat -> Prop), (forall a b, R a b -> R' a b) -> cyclic R -> cyclic R').
  { intros R R' HR [n Hn]. exists n. revert Hn. generalize n at 2 4. intros m Hn.
    induction Hn as [a b Hab|a b k Hab Hp IH]; [apply plus_one; auto|]. apply (plus_step _ a b k); auto. }
  split; apply X; intros a b; apply H.
Qed.
Print Assumptions C112_refused.

(** ** Where it fails *)
Ltac can := cbn; repeat (split || constructor || discriminate); unfold live; cbn; lia.

(** A hydropower parameter whose two flow limits are the same parameter: assigning one of them drops the dependency on the other. *)
Definition shared : list act := [Create []; Create []; Create [Slot Truthy [IComp 1]; Slot Truthy [IComp 1]]; Assign 3 0 [IComp 2]].
Theorem C112_shared_refuted : exists c d, program (RS [] []) shared /\ holds (run shared) c d /\ ~ depends (r_ops (run shared)) c d.
Proof.
  exists 3, 1. split; [can|]. split; [exists 1, (Slot Truthy [IComp 1]); cbn; auto|].
  intros H. apply has_edge_depends in H; [discriminate|lia].
Qed.
Print Assumptions C112_shared_refuted.

(** A division of a parameter by itself: when both are then replaced the second assignment raises, and the old denominator stays, no longer a dependency. *)
Definition divided : list act := [Create []; Create []; Create [Slot Strict [IComp 1]; Slot Strict [IComp 1]]; Assign 3 0 [IComp 2]].
Theorem C112_raises_refuted : exists s', program (RS [] []) (divided ++ [Assign 3 1 [IComp 2]]) /\
  rstep (run divided) (Assign 3 1 [IComp 2]) = (s', true) /\ holds s' 3 1 /\ ~ depends (r_ops s') 3 1.
Proof.
  eexists. split; [can|]. split; [reflexivity|]. split; [exists 1, (Slot Strict [IComp 1]); cbn; auto|].
  intros H. apply has_edge_depends in H; [discriminate|lia].
Qed.
Print Assumptions C112_raises_refuted.

(** The same control curve given twice: it cannot be replaced. *)
Definition curves_twice : list act := [Create []; Create []; Create [Slot Curves [IComp 1; IComp 1]]].
Theorem C112_curves_refuted : exists s', program (RS [] []) curves_twice /\
  rstep (run curves_twice) (Assign 3 0 [IComp 2]) = (s', true) /\ holds s' 3 1 /\ ~ depends (r_ops s') 3 1.
Proof.
  eexists. split; [can|]. split; [reflexivity|]. split; [exists 0, (Slot Curves [IComp 1; IComp 1]); cbn; auto|].
  intros H. apply has_edge_depends in H; [discriminate|lia].
Qed.
Print Assumptions C112_curves_refuted.

(** A parameter aggregated twice and removed once. *)
Definition twice : list act := [Create []; Create [Slot Members [IComp 1; IComp 1]]; Drop 2 0 1].
Theorem C112_twice_refuted : program (RS [] []) twice /\ holds (run twice) 2 1 /\ ~ depends (r_ops (run twice)) 2 1.
Proof.
  split; [can|]. split; [exists 0, (Slot Members [IComp 1]); cbn; auto|].
  intros H. apply has_edge_depends in H; [discriminate|lia].
Qed.
Print Assumptions C112_twice_refuted.

(** An attribute without a setter: the parameter assigned is no dependency, the replaced one still is. *)
Definition plain : list act := [Create []; Create []; Create [Slot Plain [IComp 1]]; Assign 3 0 [IComp 2]].
Theorem C112_plain_refuted : program (RS [] []) plain /\ once (run plain) /\ holds (run plain) 3 2 /\
  ~ depends (r_ops (run plain)) 3 2 /\ ~ holds (run plain) 3 1 /\ depends (r_ops (run plain)) 3 1.
Proof.
  split; [can|]. split; [|split; [|split; [|split]]].
  - intros [|[|[|[|c]]]]; cbn; repeat constructor; try easy. unfold held, here. cbn. destruct c; constructor.
  - exists 0, (Slot Plain [IComp 2]). cbn. auto.
  - intros H. apply has_edge_depends in H; [discriminate|lia].
  - intros H. apply holds_held in H. cbn in H. intuition discriminate.
  - apply has_edge_depends; [lia|reflexivity].
Qed.
Print Assumptions C112_plain_refuted.

(** An aggregated parameter without members that is replaced stays a dependency; a model in which nothing held leads back to its holder is then refused. *)
Definition emptied : list act := [Create [Slot Members []]; Create []; Create [Slot Truthy [IComp 1]]; Assign 3 0 [IComp 2]; Append 1 0 3].
Theorem C112_empty_refuted : program (RS [] []) emptied /\ once (run emptied) /\ ~ cyclic (holds (run emptied)) /\
  snd (mrun (mhistory (map EOp (r_ops (run emptied))))) = None.
Proof.
  split; [can|]. split; [|split; [|reflexivity]].
  - intros [|[|[|[|c]]]]; cbn; repeat constructor; try easy. unfold held, here. cbn. destruct c; constructor.
  - assert (H : forall a b, holds (run emptied) a b -> (a = 1 /\ b = 3) \/ (a = 3 /\ b = 2)).
    { intros a b H. apply holds_held in H. destruct a as [|[|[|[|[|a]]]]]; cbn in H; intuition. }
    intros [n Hn].
    assert (G : forall a b, plus (holds (run emptied)) a b -> (a = 1 /\ (b = 3 \/ b = 2)) \/ (a = 3 /\ b = 2)).
    { intros a b Hp. induction Hp as [a b Hab|a b c Hab Hp IH]; [apply H in Hab; intuition|]. apply H in Hab. intuition lia. }
    apply G in Hn. lia.
Qed.
Print Assumptions C112_empty_refuted.

(** ** A run: two parameters, a division, an aggregated parameter, control curves; then everything is exchanged. *)
Definition acts_ex : list act :=
  [Create []; Create []; Create []; Create [Slot Strict [IComp 1]; Slot Strict [IComp 2]]; Create [Slot Members [IComp 1; IComp 4]];
   Create [Slot Curves [IComp 5; IComp 2]; Slot Plain [IComp 3; IOther]];
   Assign 4 0 [IComp 3]; Append 5 0 2; Drop 5 0 1; Assign 6 0 [IComp 1]].
Example C112_example :
  map (fun n => snd (rstep (run (firstn n acts_ex)) (nth n acts_ex (Create [])))) (seq 0 10) = repeat false 10 /\
  map (held (run acts_ex)) (seq 0 7) = [[]; []; []; []; [3; 2]; [4; 2]; [1; 3]] /\
  snd (mrun (mhistory (map EOp (r_ops (run acts_ex))))) = Some [3; 2; 4; 5; 1; 6].
Proof. vm_compute. repeat split. Qed.
(** The hypotheses of the theorems hold along it. *)
Example C112_example_reached : reached no_empty (run acts_ex).
Proof. apply checked_reached. vm_compute. reflexivity. Qed.
