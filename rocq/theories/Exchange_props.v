(** C86: values taken from another model of a MultiModel are those of this timestep if that model comes earlier in the order, and of the timestep before
    if it comes later. *)
From Verif Require Import Base Exchange_model Exchange_spec Exchange_proofs.
Local Open Scope nat_scope.
Local Open Scope list_scope.

(** A parameter that refers to a parameter of another model, in each scenario combination [g]. *)
Theorem C86_value : forall ms w0 t k m p j q g, length w0 = length ms -> nth_error ms k = Some m -> nth_error (params m) p = Some (OtherValue j q) ->
  j <> k -> j < length ms -> g < scenarios m ->
  nth g (nth p (pars (at_model (run ms (S t) w0) k)) []) None = nth g (nth q (pars (seen ms w0 t k j)) []) None.
Proof.
  intros ms w0 t k m p j q g L Hm Hp Hj Hl Hg. rewrite (pars_ref ms w0 t k m p _ L Hm Hp) by discriminate. rewrite (refs_nth _ _ _ _ Hp).
  destruct (after_step ms w0 t k m L Hm) as [_ [E _]]. rewrite (E j Hj Hl).
  now erewrite nth_error_nth; [|apply (nth_error_seq_map _ _ _ Hg)].
Qed.
Print Assumptions C86_value.
Theorem C86_flow : forall ms w0 t k m p j n g, length w0 = length ms -> nth_error ms k = Some m -> nth_error (params m) p = Some (OtherFlow j n) ->
  j <> k -> j < length ms -> g < scenarios m ->
  nth g (nth p (pars (at_model (run ms (S t) w0) k)) []) None = nth_error (nth n (flow (seen ms w0 t k j)) []) g.
Proof.
  intros ms w0 t k m p j q g L Hm Hp Hj Hl Hg. rewrite (pars_ref ms w0 t k m p _ L Hm Hp) by discriminate. rewrite (refs_nth _ _ _ _ Hp).
  destruct (after_step ms w0 t k m L Hm) as [_ [E _]]. rewrite (E j Hj Hl).
  now erewrite nth_error_nth; [|apply (nth_error_seq_map _ _ _ Hg)].
Qed.
Print Assumptions C86_flow.
Theorem C86_volume : forall ms w0 t k m p j n g, length w0 = length ms -> nth_error ms k = Some m -> nth_error (params m) p = Some (OtherVolume j n) ->
  j <> k -> j < length ms -> g < scenarios m ->
  nth g (nth p (pars (at_model (run ms (S t) w0) k)) []) None = nth_error (nth n (vol (seen ms w0 t k j)) []) g.
Proof.
  intros ms w0 t k m p j q g L Hm Hp Hj Hl Hg. rewrite (pars_ref ms w0 t k m p _ L Hm Hp) by discriminate. rewrite (refs_nth _ _ _ _ Hp).
  destruct (after_step ms w0 t k m L Hm) as [_ [E _]]. rewrite (E j Hj Hl).
  now erewrite nth_error_nth; [|apply (nth_error_seq_map _ _ _ Hg)].
Qed.
Print Assumptions C86_volume.

(** The flow of a shadow node, and the flow and volume of a shadow storage, are those of the node it shadows. *)
Theorem C86_shadow_flow : forall ms w0 t k m i j n, length w0 = length ms -> nth_error ms k = Some m ->
  nth_error (nodes m) i = Some (ShadowNode j n) \/ nth_error (nodes m) i = Some (ShadowStorage j n) -> j <> k -> j < length ms ->
  nth i (flow (at_model (run ms (S t) w0) k)) [] = nth n (flow (seen ms w0 t k j)) [].
Proof.
  intros ms w0 t k m i j n L Hm Hi Hj Hl. destruct (after_step ms w0 t k m L Hm) as [E [F _]]. rewrite E. cbn [after solved before flow].
  destruct Hi as [Hi|Hi]; rewrite (rows_nth m _ i _ Hi); cbn [before_nodes flow]; rewrite (rows_nth m _ i _ Hi); now rewrite (F j Hj Hl).
Qed.
Print Assumptions C86_shadow_flow.
Theorem C86_shadow_volume : forall ms w0 t k m i j n, length w0 = length ms -> nth_error ms k = Some m ->
  nth_error (nodes m) i = Some (ShadowStorage j n) -> j <> k -> j < length ms ->
  nth i (vol (at_model (run ms (S t) w0) k)) [] = nth n (vol (seen ms w0 t k j)) [].
Proof.
  intros ms w0 t k m i j n L Hm Hi Hj Hl. destruct (after_step ms w0 t k m L Hm) as [E [F _]]. rewrite E. cbn [after solved before vol].
  rewrite (rows_nth m _ i _ Hi). cbn [before_nodes vol]. rewrite (rows_nth m _ i _ Hi). now rewrite (F j Hj Hl).
Qed.
Print Assumptions C86_shadow_volume.

(** If parameters refer to parameters of earlier models only, a run gives the same results every time, the first time and after a reset from anything. *)
Theorem C86_repeat : forall ms T w w', forward ms -> length w = length ms -> length w' = length ms ->
  run ms (S T) (reset ms w) = run ms (S T) (reset ms w') /\ run ms (S T) (reset ms w) = run ms (S T) (setup ms).
Proof.
  intros ms T w w' F L L'.
  assert (forall v, length v = length ms -> length (reset ms v) = length ms) as Lr.
  { intros v Hv. unfold reset. rewrite map_length, combine_length, Hv. lia. }
  split; apply run_from_step, first_step; auto; try (now apply Lr); try (unfold setup; now rewrite map_length).
  - intros i mi Hi. now apply reset_alike.
  - intros i mi Hi. rewrite (reset_at ms w i mi L Hi).
    assert (at_model (setup ms) i = setup_model mi) as ->.
    { unfold at_model, setup. apply nth_error_nth. now rewrite nth_error_map, Hi. }
    unfold alike, reset_model, setup_model. cbn [flow prev mem vol]. repeat split; auto. intros k Hk.
    destruct (Nat.lt_ge_cases k (length (nodes mi))) as [B|B].
    + assert (nth_error (nodes mi) k = Some (nth k (nodes mi) Own)) as E by now apply nth_error_nth'.
      rewrite !(rows_nth mi _ k _ E). destruct (nth k (nodes mi) Own) as [|a b|a b]; [reflexivity..|]. now elim (Hk a b).
    + rewrite !nth_overflow by (unfold rows; now rewrite map_length, seq_length). reflexivity.
Qed.
Print Assumptions C86_repeat.

(** C86: in the first timestep, of a run of newly set up or reset models, a flow read of a later model is 0 and a volume read of a later model's
    own node is the initial volume. *)
Theorem C86_first_timestep : forall ms w0 k m p j mj n g, w0 = setup ms \/ (exists w, length w = length ms /\ w0 = reset ms w) ->
  nth_error ms k = Some m -> k < j -> nth_error ms j = Some mj -> n < length (nodes mj) -> g < scenarios m ->
  (nth_error (params m) p = Some (OtherFlow j n) -> g < scenarios mj -> nth g (nth p (pars (at_model (run ms 1 w0) k)) []) None = Some 0%Q) /\
  (nth_error (params m) p = Some (OtherVolume j n) -> nth_error (nodes mj) n = Some Own ->
     nth g (nth p (pars (at_model (run ms 1 w0) k)) []) None = nth_error (nth n (first_volumes mj) []) g).
Proof.
  intros ms w0 k m p j mj n g W Hm Hk Hj Hn Hg.
  assert (J : j < length ms) by (apply nth_error_Some; congruence).
  assert (LW : length w0 = length ms).
  { destruct W as [->|[w [L ->]]]; [apply map_length|]. unfold reset. rewrite map_length, combine_length, L. lia. }
  assert (B : flow (at_model w0 j) = zeros mj /\ forall nd, nth_error (nodes mj) n = Some nd -> nd = Own -> nth n (vol (at_model w0 j)) [] = nth n (first_volumes mj) []).
  { destruct W as [->|[w [L ->]]].
    - assert (E : at_model (setup ms) j = setup_model mj) by (unfold at_model, setup; apply nth_error_nth; now rewrite nth_error_map, Hj).
      rewrite E. split; [reflexivity|]. intros nd N ->. unfold setup_model. cbn [vol]. now rewrite (rows_nth mj _ n _ N).
    - assert (E : exists s, at_model (reset ms w) j = reset_model mj s).
      { destruct (nth_error w j) as [s|] eqn:S; [|apply nth_error_None in S; lia]. exists s. unfold at_model, reset. apply nth_error_nth. rewrite nth_error_map.
        assert (C : nth_error (combine ms w) j = Some (mj, s)).
        { clear -Hj S. revert w ms Hj S. induction j as [|j IH]; intros [|b w] [|a ms] A B; cbn in *; try discriminate; [congruence|]. now apply IH. }
        rewrite C. reflexivity. }
      destruct E as [s E]. rewrite E. split; [reflexivity|]. intros nd N ->. unfold reset_model. cbn [vol]. now rewrite (rows_nth mj _ n _ N). }
  destruct B as [BF BV]. assert (SE : seen ms w0 0 k j = at_model w0 j) by (unfold seen; destruct (Nat.ltb_spec j k); [lia|reflexivity]).
  split; intros Hp.
  - intros Hs. rewrite (C86_flow ms w0 0 k m p j n g LW Hm Hp ltac:(lia) J Hg), SE, BF. unfold zeros.
    rewrite (nth_indep _ [] (repeat 0%Q (scenarios mj))) by (rewrite repeat_length; exact Hn). rewrite nth_repeat. now apply nth_error_repeat.
  - intros N. rewrite (C86_volume ms w0 0 k m p j n g LW Hm Hp ltac:(lia) J Hg), SE. f_equal. now apply (BV Own).
Qed.
Print Assumptions C86_first_timestep.

(** ** Two models: a source whose parameter counts the days and whose node carries that much, and one that refers to it. *)
Open Scope Q_scope.
Definition day (t : nat) : Q := inject_Z (Z.of_nat t) + 1.
Definition source : model := {|
  nodes := [Own]; params := [Calc]; scenarios := 1; first_volumes := [[100]]; first_mem := [];
  calc := fun t _ _ _ _ _ => [[Some (day t)]]; solve := fun t _ _ _ _ => [[day t]];
  update := fun t f v _ _ => ([[hd 0 (hd [] v) - hd 0 (hd [] f)]], []) |}.
(** The last parameter of the other model is the prev_flow of its shadow node. *)
Definition reader (j : nat) : model := {|
  nodes := [ShadowNode j 0; ShadowStorage j 0]; params := [OtherValue j 0; OtherFlow j 0; OtherVolume j 0; Calc]; scenarios := 1; first_volumes := [[]; []]; first_mem := [];
  calc := fun t _ p _ _ _ => [[]; []; []; map Some (hd [] p)]; solve := fun _ _ _ _ _ => [];
  update := fun _ _ v _ _ => (v, []) |}.

(** The source first: values of the same day; two days done, 100 - 1 - 2 left. *)
Example C86_example_forward : let w := run [source; reader 0] 2 (setup [source; reader 0]) in
  forward [source; reader 0] /\ firstn 3 (pars (at_model w 1)) = [[Some 2]; [Some 2]; [Some 97]] /\ vol (at_model w 1) = [[]; [97]].
Proof.
  cbv zeta. split; [|vm_compute; auto]. intros [|[|k]] m H; cbn in H; [injection H as <-|injection H as <-|destruct k; discriminate].
  - cbn. intuition discriminate.
  - cbn. repeat match goal with |- _ /\ _ => split end; intros j n H; intuition (try discriminate); try match goal with H : _ = _ |- _ => injection H as <- <-; lia end.
Qed.
(** The source last: those of the day before. *)
Example C86_example_backward : let w := run [reader 1; source] 2 (setup [reader 1; source]) in
  firstn 3 (pars (at_model w 0)) = [[Some 1]; [Some 1]; [Some 99]].
Proof. vm_compute. reflexivity. Qed.

(** In the first timestep there is no value of the day before: what is read of a parameter of a later model was never written (even if it is a constant). *)
Theorem C86_first_value_refuted : exists ms k p j q, nth_error (params (nth k ms source)) p = Some (OtherValue j q) /\ (k < j)%nat /\
  (forall t, exists v, forall w, length w = length ms -> nth q (pars (at_model (run ms (S t) w) j)) [] = [Some v]) /\
  nth p (pars (at_model (run ms 1 (setup ms)) k)) [] = [None].
Proof.
  exists [reader 1; source], 0%nat, 0%nat, 1%nat, 0%nat. split; [reflexivity|]. split; [lia|]. split; [|vm_compute; reflexivity].
  intros t. exists (day t). intros w Hw. destruct (after_step [reader 1; source] w t 1 source Hw eq_refl) as [E _]. rewrite E. reflexivity.
Qed.
Print Assumptions C86_first_value_refuted.

(** So a second run need not give the results of the first. *)
Theorem C86_repeat_refuted : exists ms, let first := run ms 1 (setup ms) in run ms 1 (reset ms first) <> first.
Proof. exists [reader 1; source]. vm_compute. discriminate. Qed.
Print Assumptions C86_repeat_refuted.

(** And the prev_flow of a shadow of an earlier model's node is not its flow in the previous timestep, but that of this timestep. *)
Theorem C86_shadow_prev_refuted : exists ms, nth_error ms 1 = Some (reader 0) /\
  nth 3 (pars (at_model (run ms 2 (setup ms)) 1)) [] <> map Some (nth 0 (flow (at_model (run ms 1 (setup ms)) 1)) []) /\
  nth 3 (pars (at_model (run ms 2 (setup ms)) 1)) [] = map Some (nth 0 (flow (at_model (run ms 2 (setup ms)) 1)) []).
Proof. exists [source; reader 0]. split; [reflexivity|]. vm_compute. split; [discriminate|reflexivity]. Qed.
Print Assumptions C86_shadow_prev_refuted.
