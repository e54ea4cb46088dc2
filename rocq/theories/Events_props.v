(** Property theorems about events (C54, C55). *)
From Verif Require Import Base Events_model Events_spec Events_proofs.
From Coq Require Import Sorting.Sorted.
Local Open Scope nat_scope.

(** C54: with the default minimum length the events of a scenario are exactly its maximal triggered periods, in order, each
    ending before the next starts, with the tracked values of exactly the timesteps of the period. *)
Theorem C54_maximal_periods : forall ncomb history l, run 1 ncomb history = Some l ->
  (forall e, In e l -> e_scenario e < ncomb) /\
  forall i, i < ncomb ->
    StronglySorted before_event (of_scenario i l) /\
    forall e, In e (of_scenario i l) <->
      e_scenario e = i /\ maximal_period (length history) (trigger history i) (e_start e) (e_end e) /\
      e_values e = map (tracked history i) (seq (e_start e) (e_end e - e_start e)).
Proof.
  intros ncomb history l H. split; [intros e He; eapply run_scenarios; eauto|]. intros i Hi.
  destruct (run_spec 1 ncomb history l i H Hi) as [S K]. split; [exact S|]. intros e. rewrite K. split.
  - intros (a & b & M & _ & ->). cbn. auto.
  - intros (E1 & M & E2). exists (e_start e), (e_end e). split; [exact M|]. split; [destruct M; lia|].
    destruct e as [sc a b vs]; cbn in *. subst. reflexivity.
Qed.
Print Assumptions C54_maximal_periods.

(** C54: a run is always recorded when the minimum length is at least 1, and refused otherwise. *)
Theorem C54_accepted : forall minimum ncomb history, 1 <= minimum <-> exists l, run minimum ncomb history = Some l.
Proof.
  intros. unfold run. destruct (Nat.ltb_spec minimum 1); split; intros H'; try lia; [destruct H' as [? H']; discriminate|eauto].
Qed.
Print Assumptions C54_accepted.

(** Two scenarios, four timesteps. *)
Definition ex_history : list (list (bool * Q)) :=
  [[(true, 1%Q); (false, 0%Q)]; [(true, 2%Q); (true, 5%Q)]; [(false, 0%Q); (true, 6%Q)]; [(true, 3%Q); (true, 7%Q)]].
Example C54_example : run 1 2 ex_history = Some [Event 0 0 2 [1%Q; 2%Q]; Event 0 3 4 [3%Q]; Event 1 1 4 [5%Q; 6%Q; 7%Q]].
Proof. reflexivity. Qed.

(** C54 (refuted part): the documentation says an event is active while the threshold is non-zero, but the value of a
    parameter or recorder is truncated to an integer first. *)
Theorem C54_fraction_refuted : exists q, ~ (q == 0)%Q /\ value_triggered q = false.
Proof. exists (1 # 2)%Q. split; [discriminate|reflexivity]. Qed.
Print Assumptions C54_fraction_refuted.

(** A value of size at least 1 always triggers, and zero never does. *)
Theorem C54_trigger : forall q, (1 <= q \/ q <= -1 -> value_triggered q = true)%Q /\ (q == 0 -> value_triggered q = false)%Q.
Proof.
  intros [n d]. unfold value_triggered, truncate, Qle, Qeq; cbn [Qnum Qden]. split.
  - intros H. rewrite negb_true_iff, Z.eqb_neq. rewrite Z.quot_small_iff by lia. lia.
  - intros H. replace n with 0%Z by lia. rewrite Z.quot_0_l by lia. reflexivity.
Qed.
Print Assumptions C54_trigger.

(** C55: every maximal triggered period of at least m timesteps is reported, and a reported one lasts at least m timesteps
    or is still open at the end of the run. *)
Theorem C55_minimum_length_partial : forall m ncomb history l i, run m ncomb history = Some l -> i < ncomb ->
  (forall a b, maximal_period (length history) (trigger history i) a b -> m <= b - a ->
     exists e, In e l /\ e_scenario e = i /\ e_start e = a /\ e_end e = b) /\
  (forall e, In e l -> e_scenario e = i ->
     maximal_period (length history) (trigger history i) (e_start e) (e_end e) /\
     (m <= e_end e - e_start e \/ e_end e = length history)).
Proof.
  intros m ncomb history l i H Hi. destruct (run_spec m ncomb history l i H Hi) as [_ K]. split.
  - intros a b M L. exists (Event i a b (values_of (tracked history i) a b)). cbn. split; [|auto].
    assert (In (Event i a b (values_of (tracked history i) a b)) (of_scenario i l)) as I by (apply K; exists a, b; auto).
    apply filter_In in I as [I _]. exact I.
  - intros e He E. assert (In e (of_scenario i l)) as I by (apply filter_In; split; [exact He|apply Nat.eqb_eq, E]).
    apply K in I as (a & b & M & L & ->). cbn. auto.
Qed.
Print Assumptions C55_minimum_length_partial.

(** C55: no short event is reported if the scenario is not triggered in the last timestep. *)
Theorem C55_closed_runs : forall m ncomb history l e, run m ncomb history = Some l -> In e l ->
  trigger history (e_scenario e) (length history - 1) = false -> m <= e_end e - e_start e.
Proof.
  intros m ncomb history l e H He T. pose proof (run_scenarios _ _ _ _ _ H He) as Hi.
  destruct (C55_minimum_length_partial m ncomb history l _ H Hi) as [_ K].
  destruct (K e He eq_refl) as [(M1 & M2 & _) [L|L]]; [exact L|]. rewrite M2 in T by lia. discriminate.
Qed.
Print Assumptions C55_closed_runs.

(** C55 (refuted part): an event that is open at the end is reported however short it is. *)
Theorem C55_open_event_refuted : exists m ncomb history l e,
  run m ncomb history = Some l /\ In e l /\ e_end e - e_start e < m.
Proof.
  exists 3, 1, [[(false, 0%Q)]; [(true, 0%Q)]], [Event 0 1 2 [0%Q]], (Event 0 1 2 [0%Q]).
  split; [reflexivity|]. split; [now left|cbn; lia].
Qed.
Print Assumptions C55_open_event_refuted.

Example C55_example :
  run 2 1 [[(true, 1%Q)]; [(false, 1%Q)]; [(true, 1%Q)]; [(true, 1%Q)]; [(false, 1%Q)]] = Some [Event 0 2 4 [1%Q; 1%Q]].
Proof. reflexivity. Qed.
