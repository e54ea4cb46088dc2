(** Properties C47, C48: threshold parameters. *)
From Verif Require Import Base Ring Thresholds_model Thresholds_spec Thresholds_proofs ControlCurves_spec ControlCurves_proofs.
Local Open Scope Q_scope.

(** ** C47.  [n] scenario combinations; after reset.  The index is 0 or 1. *)

(** Without ratchet: 1 exactly when the predicate holds for the scenario's current numbers; the timestep with index 0 is
    excepted for the classes with a rule of their own. *)
Theorem C47_no_ratchet : forall c n k before history t i, c_ratchet c = false -> length before = n -> (i < n)%nat ->
  (forall l, In l history -> length l = n) -> (t < length history)%nat -> (c_first c = AsUsual \/ (0 < k + t)%nat) ->
  let out := threshold_run c k (triggered_reset before) history in
  (index_at out t i = 1%Z <-> holds_at (c_predicate c) history t i) /\ (index_at out t i = 1%Z \/ index_at out t i = 0%Z).
Proof.
  intros c n k before history t i R L Hi W Ht F out. unfold out.
  rewrite (index_at_one c i n history k (triggered_reset before) t) by (try assumption; unfold triggered_reset; now rewrite map_length).
  destruct (one_run_spec c (map (fun l => nth i l (0, 0)) history) k (nth i (triggered_reset before) false) t) as [b [-> B]].
  - now rewrite map_length.
  - unfold special. destruct (c_first c); [reflexivity|]. destruct F as [F|F]; [discriminate|]. apply Nat.eqb_neq. lia.
  - rewrite (holds_at_one _ i n history t Ht W Hi) in B. split; [|destruct b; auto].
    rewrite R in B. destruct b; split; intros H; try discriminate; try reflexivity.
    + destruct B as [B _]. destruct (B eq_refl) as [G|[G _]]; [exact G|discriminate].
    + destruct B as [_ B]. discriminate (B (or_introl H)).
Qed.
Print Assumptions C47_no_ratchet.

(** With ratchet: 1 exactly when the predicate holds now or held in an earlier timestep of the run, in this scenario. *)
Theorem C47_ratchet : forall c n k before history t i, c_ratchet c = true -> length before = n -> (i < n)%nat ->
  (forall l, In l history -> length l = n) -> (t < length history)%nat -> (c_first c = AsUsual \/ (0 < k + t)%nat) ->
  let out := threshold_run c k (triggered_reset before) history in
  (index_at out t i = 1%Z <->
   exists s, (s <= t)%nat /\ (c_first c = AsUsual \/ (0 < k + s)%nat) /\ holds_at (c_predicate c) history s i) /\
  (index_at out t i = 1%Z \/ index_at out t i = 0%Z).
Proof.
  intros c n k before history t i R L Hi W Ht F out. unfold out.
  rewrite (index_at_one c i n history k (triggered_reset before) t) by (try assumption; unfold triggered_reset; now rewrite map_length).
  assert (forall s, special c (k + s)%nat = false <-> c_first c = AsUsual \/ (0 < k + s)%nat) as SP.
  { intros s. unfold special. destruct (c_first c) as [|v]; [split; auto|]. rewrite Nat.eqb_neq. split; [intros H; right; lia|].
    intros [H|H]; [discriminate|lia]. }
  destruct (one_run_spec c (map (fun l => nth i l (0, 0)) history) k (nth i (triggered_reset before) false) t) as [b [-> B]].
  - now rewrite map_length.
  - apply SP. exact F.
  - rewrite (holds_at_one _ i n history t Ht W Hi), triggered_reset_false in B. split; [|destruct b; auto].
    assert ((if b then 1%Z else 0%Z) = 1%Z <-> b = true) as -> by (destruct b; split; intros; (reflexivity || discriminate)).
    rewrite B. split.
    + intros [H|[_ [H|[s [Hs [S H]]]]]]; [exists t; split; [lia|split; assumption]|discriminate|].
      rewrite (holds_at_one _ i n history s ltac:(lia) W Hi) in H. exists s. split; [lia|]. split; [apply SP; exact S|exact H].
    + intros [s [Hs [S H]]]. destruct (Nat.eq_dec s t) as [->|N]; [left; exact H|right]. split; [exact R|]. right.
      exists s. split; [lia|]. split; [apply SP; exact S|]. rewrite (holds_at_one _ i n history s ltac:(lia) W Hi). exact H.
Qed.
Print Assumptions C47_ratchet.

(** Once 1, always 1 - storage, parameter and node thresholds. *)
Theorem C47_ratchet_stays : forall c n k before history s t i, c_ratchet c = true -> (c_first c = AsUsual \/ c_first c = Returns 0) ->
  length before = n -> (i < n)%nat -> (forall l, In l history -> length l = n) -> (s <= t < length history)%nat ->
  let out := threshold_run c k (triggered_reset before) history in
  index_at out s i = 1%Z -> index_at out t i = 1%Z.
Proof.
  intros c n k before history s t i R F L Hi W [Hs Ht] out H.
  assert (c_first c = AsUsual \/ (0 < k + s)%nat) as Fs.
  { destruct F as [F|F]; [left; exact F|right]. destruct (Nat.eq_dec (k + s) 0) as [Z|Z]; [|lia]. exfalso.
    assert (k = 0%nat /\ s = 0%nat) as [-> ->] by lia.
    unfold out in H. rewrite (index_at_one c i n history 0 (triggered_reset before) 0) in H
      by (try assumption; try lia; unfold triggered_reset; now rewrite map_length).
    rewrite (one_run_special c _ 0 F) in H; [discriminate|]. destruct history; [cbn in Ht; lia|discriminate]. }
  assert (c_first c = AsUsual \/ (0 < k + t)%nat) as Ft by (destruct Fs; [left; assumption|right; lia]).
  apply (C47_ratchet c n k before history s i R L Hi W ltac:(lia) Fs) in H. destruct H as [u [Hu [Fu H]]].
  apply (C47_ratchet c n k before history t i R L Hi W Ht Ft). exists u. split; [lia|]. split; assumption.
Qed.
Print Assumptions C47_ratchet_stays.

(** A recorder threshold reports `initial_value` (default 1) in the first timestep without setting the ratchet. *)
Theorem C47_recorder_first_step_refuted : exists c n history s t i, c_ratchet c = true /\ c_first c = Returns 1 /\
  (i < n)%nat /\ (forall l, In l history -> length l = n) /\ (s < t < length history)%nat /\
  let out := threshold_run c 0 (triggered_reset (repeat false n)) history in
  index_at out s i = 1%Z /\ index_at out t i = 0%Z.
Proof.
  exists {| c_predicate := LT; c_ratchet := true; c_first := Returns 1 |}, 1%nat, [[(5, 3)]; [(5, 3)]], 0%nat, 1%nat, 0%nat.
  split; [reflexivity|]. split; [reflexivity|]. split; [lia|]. split; [intros l [<-|[<-|[]]]; reflexivity|]. split; [cbn; lia|].
  split; reflexivity.
Qed.
Print Assumptions C47_recorder_first_step_refuted.

Example C47_example :
  threshold_run {| c_predicate := GE; c_ratchet := true; c_first := AsUsual |} 0 (triggered_reset [true; true])
    [[(1, 2); (2, 2)]; [(3, 2); (1, 2)]; [(0, 2); (0, 2)]] = [[0; 1]; [1; 1]; [1; 1]]%Z.
Proof. reflexivity. Qed.
Example C47_example_node :
  threshold_run {| c_predicate := LT; c_ratchet := false; c_first := Returns 0 |} 0 (triggered_reset [true])
    [[(0, 2)]; [(3, 2)]; [(0, 2)]] = [[0]; [0]; [1]]%Z.
Proof. reflexivity. Qed.

(** ** C48.  The index is the first threshold that the number reaches ([in_band]: below thresholds 0..i-1, at or above
    threshold [i] if there is one), or their number. *)
Theorem C48_first_reached : forall x thresholds i, multiple_index x thresholds = i <-> in_band thresholds x i.
Proof.
  intros x thresholds i. rewrite multiple_is_curve. split.
  - intros <-. apply curve_index_band.
  - intros B. exact (in_band_unique thresholds x _ _ (curve_index_band x thresholds) B).
Qed.
Print Assumptions C48_first_reached.

Theorem C48_counts_above : forall x thresholds, non_increasing thresholds ->
  multiple_index x thresholds = countb (fun t => qltb x t) thresholds.
Proof. intros x thresholds H. rewrite multiple_is_curve. exact (in_band_count thresholds x _ H (curve_index_band x thresholds)). Qed.
Print Assumptions C48_counts_above.

(** More flow, lower index. *)
Theorem C48_falls_with_flow : forall x x' thresholds, x <= x' -> (multiple_index x' thresholds <= multiple_index x thresholds)%nat.
Proof.
  intros x x' thresholds H. rewrite !multiple_is_curve.
  exact (in_band_mono thresholds x x' _ _ H (curve_index_band x thresholds) (curve_index_band x' thresholds)).
Qed.
Print Assumptions C48_falls_with_flow.

Example C48_example : map (fun x => multiple_index x [10; 5; 2]) [12; 10; 7; 2; 0] = [0; 0; 1; 2; 3]%nat.
Proof. reflexivity. Qed.
