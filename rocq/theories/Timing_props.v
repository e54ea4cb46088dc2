(** C120: what the result of a run says about its times. *)
From Verif Require Import Base Timing_model.
Local Open Scope nat_scope.
Local Open Scope list_scope.

(** Sums of the parts of a run: reading [first] is the start of the first timestep; each timestep has the four readings around [before] and
    around [after]. *)
Definition spent (clock : nat -> Q) (first T offset : nat) : Q :=
  qsum (map (fun t => clock (first + 4 * t + offset + 1)%nat - clock (first + 4 * t + offset)%nat)%Q (seq 0 T)).

Lemma steps_spec clock T : forall k b a, exists b' a',
  steps clock T (Timers k (Some b) (Some a)) = Some (Timers (k + 4 * T) (Some b') (Some a')) /\
  (b' == b + spent clock k T 0)%Q /\ (a' == a + spent clock k T 2)%Q.
Proof.
  induction T as [|T IH]; intros k b a.
  - exists b, a. cbn [steps]. rewrite Nat.mul_0_r, Nat.add_0_r. split; [reflexivity|]. unfold spent. cbn. split; ring.
  - cbn [steps]. unfold step, before, after. cbn [w_before w_after w_reads option_map].
    destruct (IH (k + 2 + 2) (b + (clock (k + 1)%nat - clock k))%Q (a + (clock (k + 2 + 1)%nat - clock (k + 2)%nat))%Q) as [b' [a' [E [Eb Ea]]]].
    exists b', a'. split; [rewrite E; f_equal; f_equal; lia|].
    assert (X : forall o, spent clock k (S T) o = (clock (k + o + 1)%nat - clock (k + o)%nat + spent clock (k + 2 + 2) T o)%Q).
    { intros o. unfold spent. cbn [seq map qsum]. rewrite Nat.mul_0_r, Nat.add_0_r. f_equal. rewrite <- seq_shift, map_map. f_equal. apply map_ext. intros t.
      replace (k + 2 + 2 + 4 * t) with (k + 4 * S t) by lia. reflexivity. }
    rewrite (X 0), (X 2), Nat.add_0_r. split; [rewrite Eb|rewrite Ea]; ring.
Qed.

(** C120: the result counts the timesteps and scenarios of this run; the times of [before] and of [after] are the sums over its timesteps,
    whatever the timers held before. *)
Theorem C120_times (clock : nat -> Q) (T N : nat) (w : timers) : 0 < T ->
  exists r, run clock T N w = Some r /\ timesteps r = T /\ num_scenarios r = N /\
    (time_taken r == clock (w_reads w + 2 + 4 * T)%nat - clock (w_reads w + 1)%nat)%Q /\
    (time_taken_with_overhead r == clock (w_reads w + 3 + 4 * T)%nat - clock (w_reads w))%Q /\
    (time_taken_before r == spent clock (w_reads w + 2) T 0)%Q /\ (time_taken_after r == spent clock (w_reads w + 2) T 2)%Q.
Proof.
  intros HT. unfold run, reset. cbn [w_reads w_before w_after]. destruct (steps_spec clock T (S (S (w_reads w))) 0 0) as [b' [a' [E [Eb Ea]]]]. rewrite E.
  destruct T as [|T]; [lia|]. cbn [w_reads w_before w_after]. eexists. split; [reflexivity|].
  cbn [timesteps num_scenarios time_taken time_taken_with_overhead time_taken_before time_taken_after].
  replace (w_reads w + 2 + 4 * S T) with (S (S (w_reads w)) + 4 * S T) by lia. replace (w_reads w + 3 + 4 * S T) with (S (S (S (w_reads w)) + 4 * S T)) by lia.
  replace (w_reads w + 1) with (S (w_reads w)) by lia. replace (w_reads w + 2) with (S (S (w_reads w))) by lia.
  repeat split; [lia|..]; rewrite ?Eb, ?Ea; ring.
Qed.
Print Assumptions C120_times.

(** With a clock that does not go back: no time is negative, [before] and [after] together take at most the time taken, and this is at most
    the time with overhead. *)
Theorem C120_parts (clock : nat -> Q) (T N : nat) (w : timers) (r : report) : (forall i, clock i <= clock (S i))%Q -> run clock T N w = Some r ->
  (0 <= time_taken_before r /\ 0 <= time_taken_after r /\ time_taken_before r + time_taken_after r <= time_taken r /\
   time_taken r <= time_taken_with_overhead r)%Q.
Proof.
  intros M E. assert (HT : 0 < T). { destruct T; [|lia]. exfalso. revert E. unfold run. cbn [steps w_reads w_before w_after]. discriminate. }
  destruct (C120_times clock T N w HT) as [r' [E' [_ [_ [Et [Eo [Eb Ea]]]]]]]. assert (r' = r) as -> by congruence.
  assert (MM : forall i d, (clock i <= clock (i + d)%nat)%Q).
  { intros i d. induction d as [|d IH]; [rewrite Nat.add_0_r; apply Qle_refl|]. rewrite Nat.add_succ_r. eapply Qle_trans; [apply IH|apply M]. }
  assert (P : forall o, (0 <= spent clock (w_reads w + 2) T o)%Q).
  { intros o. unfold spent. induction (seq 0 T) as [|t l IH]; cbn [map qsum]; [lra|]. pose proof (MM (w_reads w + 2 + 4 * t + o) 1). lra. }
  assert (B : (spent clock (w_reads w + 2) T 0 + spent clock (w_reads w + 2) T 2 <= clock (w_reads w + 2 + 4 * T)%nat - clock (w_reads w + 2)%nat)%Q).
  { clear -MM. induction T as [|T IH]; [unfold spent; cbn; rewrite Nat.add_0_r; lra|]. unfold spent in *. rewrite seq_S, !map_app, !qsum_app. cbn [map qsum Nat.add].
    set (k := w_reads w + 2) in *. rewrite Nat.add_0_r.
    pose proof (MM (k + 4 * T + 1) 1) as M1. pose proof (MM (k + 4 * T + 2 + 1) 1) as M2. replace (k + 4 * T + 1 + 1) with (k + 4 * T + 2) in M1 by lia.
    replace (k + 4 * T + 2 + 1 + 1) with (k + 4 * S T) in M2 by lia. lra. }
  pose proof (MM (w_reads w + 1) 1) as M1. replace (w_reads w + 1 + 1) with (w_reads w + 2) in M1 by lia.
  pose proof (MM (w_reads w) 1) as M0. pose proof (MM (w_reads w + 2 + 4 * T) 1) as M3. replace (w_reads w + 2 + 4 * T + 1) with (w_reads w + 3 + 4 * T) in M3 by lia.
  pose proof (P 0). pose proof (P 2). rewrite Eb, Ea, Et, Eo. repeat split; lra.
Qed.
Print Assumptions C120_parts.

(** The speed reported leaves one timestep out: it is (T - 1) N over the time taken; NaN if no time passed. *)
Theorem C120_speed_partial (clock : nat -> Q) (T N : nat) (w : timers) (r : report) : run clock T N w = Some r ->
  match speed r with
  | Some v => (v * time_taken r == inject_Z (Z.of_nat ((T - 1) * N)))%Q /\ ~ (time_taken r == 0)%Q
  | None => (time_taken r == 0)%Q
  end.
Proof.
  unfold run. destruct (steps _ _ _) as [w'|]; [|discriminate]. destruct T as [|T]; [discriminate|]. destruct (w_before w') as [b|]; [|discriminate]. destruct (w_after w') as [a|]; [|discriminate].
  intros E. assert (E' := f_equal (fun o => match o with Some r => r | None => r end) E). cbn in E'. rewrite <- E'. cbn [speed time_taken]. replace (S T - 1) with T by lia.
  destruct (qeqbP (clock (w_reads w') - clock (S (w_reads w))) 0) as [Z|Z]; [exact Z|]. split; [field; exact Z|exact Z].
Qed.
Print Assumptions C120_speed_partial.

(** A run of one timestep is said to have speed 0. *)
Theorem C120_speed_refuted : exists (clock : nat -> Q) (T N : nat) (w : timers) (r : report) (v : Q), (forall i, clock i <= clock (S i))%Q /\
  run clock T N w = Some r /\ speed r = Some v /\ ~ (v * time_taken r == inject_Z (Z.of_nat (T * N)))%Q.
Proof.
  exists (fun k => inject_Z (Z.of_nat k)), 1, 3, (Timers 0 None None). eexists. eexists. split.
  { intros i. rewrite <- Zle_Qle. lia. }
  split; [vm_compute; reflexivity|]. split; [reflexivity|]. vm_compute. discriminate.
Qed.
Print Assumptions C120_speed_refuted.

(** A model that was never reset cannot be stepped by calling [before] directly. *)
Theorem C120_unset (clock : nat -> Q) (k : nat) (a : option Q) : before clock (Timers k None a) = None.
Proof. reflexivity. Qed.

Example timing_example : exists r, run (fun k => inject_Z (Z.of_nat (k * k))) 2 3 (Timers 0 (Some 99%Q) None) = Some r /\
  timesteps r = 2 /\ (time_taken_before r == 5 + 13)%Q /\ (time_taken_after r == 9 + 17)%Q /\ (time_taken r == 99)%Q /\ (time_taken_with_overhead r == 121)%Q.
Proof. eexists. split; [vm_compute; reflexivity|]. repeat split; vm_compute; reflexivity. Qed.
